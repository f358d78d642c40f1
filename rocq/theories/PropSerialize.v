(** * Properties C05 and C06 (nuto/base/serializeStream) *)
From Coq Require Import List ZArith Reals Lia.
From Flocq Require Import Core.
From Verif Require Import SerializeModel SerializeProofs.
Import ListNotations.

(** C05, text mode: whatever is written (doubles, ints, bools, matrices of any
    shape, separators), reading with the same types and shapes returns it and
    consumes exactly what was written ([s] is whatever follows in the file).
    [item_ok]: doubles are doubles, ints fit in 32 bits, a matrix has
    rows*cols entries. *)
Theorem C05_text_round_trip :
  forall l s, Forall item_ok l ->
  read_all (map shape_of l) (write_all l ++ s) = Done (l, s).
Proof. exact read_write_all. Qed.
Print Assumptions C05_text_round_trip.

(** The numeric core: printing with 17 significant digits and parsing is the
    identity on 53 bit floating point numbers. *)
Theorem C05_17_digits_identify_a_double :
  forall x, generic_format radix2 (FLX_exp 53) x ->
  round radix2 (FLX_exp 53) ZnearestE (round radix10 (FLX_exp 17) ZnearestE x) = x.
Proof. exact parse_print. Qed.
Print Assumptions C05_17_digits_identify_a_double.

(** C05, binary mode: any sequence of objects (byte strings of any length) is
    restored by a reader with objects of the same sizes. *)
Theorem C05_binary_round_trip :
  forall l targets, Forall2 same_size l targets ->
  exists file, write_binary_all [] l = Done file /\
    read_binary_all (mkIs file false) targets = Done (l, mkIs [] false).
Proof. exact binary_round_trip. Qed.
Print Assumptions C05_binary_round_trip.

Example C05_example : Forall item_ok [IInt 42; ISeparator; IMatrix 2 2 [1; 2; 3; 4]%R; IBool true].
Proof.
  repeat constructor; try (apply (is_double_int 1); simpl; lia); try (apply (is_double_int 2); simpl; lia);
  try (apply (is_double_int 3); simpl; lia); try (apply (is_double_int 4); simpl; lia);
  unfold int_ok; lia.
Qed.

Example C05_example_binary :
  Forall2 same_size [BData [1; 2; 3; 4]; BData [255]]%Z [BData [0; 0; 0; 0]; BData [7]]%Z.
Proof. repeat constructor. Qed.

(** C06, text mode: separators are covered by [C05_text_round_trip]; a separator
    that is not there is detected. *)
Theorem C06_text_separator :
  forall s, read_text SSeparator (LSep :: s) = Done (ISeparator, s) /\
    (forall l s', l <> LSep -> read_text SSeparator (l :: s') = Throws) /\
    read_text SSeparator [] = Throws.
Proof.
  exact text_separator_lemma.
Qed.
Print Assumptions C06_text_separator.

(** C06, binary mode is violated: the first separator after any data reads 8
    bytes from the 2 byte literal "#" - undefined behaviour ... *)
Theorem C06_binary_separator_write_refuted :
  forall l1 l2, Forall is_data l1 -> write_binary_all [] (l1 ++ BSeparator :: l2) = UB.
Proof. exact binary_separator_ub. Qed.
Print Assumptions C06_binary_separator_write_refuted.

(** ... and reading one stores up to 8 bytes into a single [char], or compares a [char] that was never written; only with
    exactly one byte left in the file the call is defined: it throws if that byte is not '#', and if it is, the stream
    has failed afterwards and reads nothing more. *)
Theorem C06_binary_separator_read_refuted :
  (forall s, bad s = true \/ length (rest s) <> 1%nat -> read_binary s BSeparator = UB) /\
  (forall x, x <> 35%Z -> read_binary (mkIs [x] false) BSeparator = Throws) /\
  read_binary (mkIs [35%Z] false) BSeparator = Done (BSeparator, mkIs [] true).
Proof.
  split; [exact binary_separator_read_ub|]. split; [|reflexivity].
  intros x Hx. rewrite binary_separator_one_byte. destruct (Z.eqb_spec x 35); [contradiction|reflexivity].
Qed.
Print Assumptions C06_binary_separator_read_refuted.

Example C06_example : Forall is_data [BData [1]%Z].
Proof. repeat constructor. Qed.
