(** * What a concrete input file says, written without the reader's functions *)
From Coq Require Import String Ascii List ZArith QArith Bool.
Import ListNotations.
Local Open Scope Z_scope.

(** ** Decimal literals such as 12, -0.5, 1.e10 and .1 *)
Record literal := mkLiteral {
  l_sign : option bool;                              (** + is [Some false], - is [Some true] *)
  l_int : list Z;                                    (** digits before the point *)
  l_frac : option (list Z);                          (** the point and the digits behind it *)
  l_exp : option (bool * option bool * list Z) }.    (** e or E, its sign, its digits *)

Definition is_digit (d : Z) : Prop := 0 <= d < 10.
Definition digit_char (d : Z) : ascii := ascii_of_nat (48 + Z.to_nat d).
Definition fraction (l : literal) : list Z := match l_frac l with Some f => f | None => [] end.
Definition exponent_digits (l : literal) : list Z := match l_exp l with Some (_, _, ds) => ds | None => [0] end.

Definition literal_ok (l : literal) : Prop :=
  Forall is_digit (l_int l) /\ Forall is_digit (fraction l) /\ Forall is_digit (exponent_digits l) /\
  l_int l ++ fraction l <> [] /\ exponent_digits l <> [].

Definition sign_text (s : option bool) : list ascii :=
  match s with Some true => ["-"%char] | Some false => ["+"%char] | None => [] end.
Definition literal_text (l : literal) : list ascii :=
  sign_text (l_sign l) ++ map digit_char (l_int l)
  ++ match l_frac l with Some f => "."%char :: map digit_char f | None => [] end
  ++ match l_exp l with
     | Some (big, s, ds) => (if big then "E"%char else "e"%char) :: sign_text s ++ map digit_char ds
     | None => []
     end.

(** positional notation *)
Fixpoint positional (ds : list Z) : Z :=
  match ds with [] => 0 | d :: r => d * 10 ^ Z.of_nat (length r) + positional r end.
Definition with_sign (s : option bool) (z : Z) : Z := match s with Some true => - z | _ => z end.
Definition exponent (l : literal) : Z := match l_exp l with Some (_, s, ds) => with_sign s (positional ds) | None => 0 end.
(** (digits before the point + digits behind it / 10^their number) * 10^exponent, in lowest terms *)
Definition literal_value (l : literal) : Q :=
  Qred ((inject_Z (with_sign (l_sign l) (positional (l_int l)))
         + inject_Z (with_sign (l_sign l) (positional (fraction l))) / inject_Z 10 ^ Z.of_nat (length (fraction l)))
        * inject_Z 10 ^ exponent l).

(** the text [r] behind the literal does not continue it *)
Definition ends (l : literal) (r : list ascii) : Prop :=
  match r with
  | [] => True
  | c :: _ => (forall d, is_digit d -> c <> digit_char d)
              /\ (l_frac l = None -> l_exp l = None -> c <> "."%char)
              /\ (l_exp l = None -> c <> "e"%char /\ c <> "E"%char)
  end.

(** ** The entries of a file: a label, an equal sign, a value *)
Definition white (c : ascii) : Prop := In (nat_of_ascii c) [9; 10; 11; 12; 13; 32]%nat.
(** the text between one value and the next equal sign: at most 999 characters *)
Definition label (g : list ascii) : Prop := g <> [] /\ ~ In "="%char g /\ (length g <= 999)%nat.

(** [says_number x t r]: the text [t] begins with "label = x" and goes on with [r] *)
Definition says_number (x : Q) (t r : list ascii) : Prop :=
  exists g w l, t = g ++ "="%char :: w ++ literal_text l ++ r /\ label g /\ Forall white w /\ literal_ok l /\ ends l r
                /\ x = literal_value l.

(** numbers separated by commas, and one more character *)
Inductive vector_text : list Q -> list ascii -> list ascii -> Prop :=
  | vector_last w l c r : Forall white w -> literal_ok l -> ends l (c :: r) -> c <> ","%char ->
      vector_text [literal_value l] (w ++ literal_text l ++ c :: r) r
  | vector_more w l x t r : Forall white w -> literal_ok l -> ends l (","%char :: t) -> vector_text x t r ->
      vector_text (literal_value l :: x) (w ++ literal_text l ++ ","%char :: t) r.
Definition says_vector (x : list Q) (t r : list ascii) : Prop :=
  exists g t', t = g ++ "="%char :: t' /\ label g /\ vector_text x t' r.

Definition says_bool (b : bool) (t r : list ascii) : Prop :=
  exists g w c, t = g ++ "="%char :: w ++ c :: r /\ label g /\ Forall white w /\ ~ white c
                /\ (b = true <-> In c ["T"; "t"; "Y"; "y"; "1"]%char).

(** "label = directory;" up to the end of the line; the directory has at most 57 characters *)
Definition says_string (d t r : list ascii) : Prop :=
  exists g body r', t = g ++ "="%char :: body ++ ";"%char :: r /\ label g /\ r = ascii_of_nat 10 :: r'
    /\ (length body <= 57)%nat /\ (forall c, In c body -> nat_of_ascii c <> 10%nat /\ nat_of_ascii c <> 0%nat)
    /\ (forall c, In c d -> ~ white c) /\ (exists keep : ascii -> bool, (forall c, keep c = true <-> ~ white c) /\ d = filter keep body).

Inductive says_vectors : list (list Q) -> list ascii -> list ascii -> Prop :=
  | vectors_nil t : says_vectors [] t t
  | vectors_cons x l t t1 r : says_vector x t t1 -> says_vectors l t1 r -> says_vectors (x :: l) t r.

(** ** A file *)
Record contents := mkContents {
  c_directory : list ascii; c_events : Q; c_time_max : Q; c_time_print : Q; c_barrier : Q; c_velocity : Q;
  c_relative : Q; c_absolute : Q; c_threads : Q; c_specimen : Q; c_box : list Q; c_is2d : bool; c_sieves : Q;
  c_curve : list (list Q); c_fraction : Q; c_distance : Q; c_shrinkage : Q }.

Definition file_says (c : contents) (t : list ascii) : Prop :=
  exists t1 t2 t3 t4 t5 t6 t7 t8 t9 t10 t11 t12 t13 t14 t15 t16 t17,
    says_string (c_directory c) t t1 /\ says_number (c_events c) t1 t2 /\ says_number (c_time_max c) t2 t3 /\
    says_number (c_time_print c) t3 t4 /\ says_number (c_barrier c) t4 t5 /\ says_number (c_velocity c) t5 t6 /\
    says_number (c_relative c) t6 t7 /\ says_number (c_absolute c) t7 t8 /\ says_number (c_threads c) t8 t9 /\
    says_number (c_specimen c) t9 t10 /\ says_vector (c_box c) t10 t11 /\ says_bool (c_is2d c) t11 t12 /\
    says_number (c_sieves c) t12 t13 /\ says_vectors (c_curve c) t13 t14 /\ says_number (c_fraction c) t14 t15 /\
    says_number (c_distance c) t15 t16 /\ says_number (c_shrinkage c) t16 t17.
