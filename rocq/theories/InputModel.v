(** * Model of nuto/geometryConcrete/InputReader.cpp

    The file is the list of its characters.  [Loop] is "not finished after the given number of turns of the while loop in
    ReadVector".  [Undef] is undefined behaviour: reading a variable that was never written, a conversion out of range, a
    matrix with a negative number of rows.  The getters return the members and are not modelled separately; PrintInput only
    prints.  Numbers are the rationals [rnd d], [d] the decimal in the file: [rnd] is the rounding of strtod. *)
From Coq Require Import String Ascii List ZArith QArith Bool.
From Verif Require Import TextModel.
Import ListNotations.
Local Open Scope Z_scope.

Inductive io (A : Type) := Ret (a : A) | Exc | Undef | Loop.
Arguments Ret {A} _. Arguments Exc {A}. Arguments Undef {A}. Arguments Loop {A}.
Definition ibind {A B} (x : io A) (f : A -> io B) : io B :=
  match x with Ret a => f a | Exc => Exc | Undef => Undef | Loop => Loop end.

(** the members, InputReader.h:99-122 *)
Record input := mkInput {
  in_directory : text; in_num_events : Z; in_time_max : Q; in_time_print : Q; in_barrier : Q; in_velocity : Q;
  in_relative_growth : Q; in_absolute_growth : Q; in_threads : Z; in_specimen : Z; in_box : list Q; in_is2d : bool;
  in_curve : list (list Q); in_fraction : Q; in_distance : Q; in_shrinkage : Q }.

Section Rounding.
Variable rnd : Q -> Q.

(** SkipToNextData, InputReader.cpp:84-91; skipText holds 1000 characters *)
Definition skip_to_next_data (s : istream) : istream :=
  let '(_, s1) := get_buffer 1000 "=" s in snd (get_char " " s1).

(** ReadBool, InputReader.cpp:93-105 *)
Definition read_bool (s : istream) : io (bool * istream) :=
  match extract_char (skip_to_next_data s) with
  | (Some c, s1) => Ret (existsb (Ascii.eqb c) (txt "TtYy1"), s1)
  | (None, _) => Undef
  end.

(** ReadNumber, InputReader.cpp:107-114 *)
Definition read_number (s : istream) : io (Q * istream) :=
  match extract_double rnd None (skip_to_next_data s) with
  | (Some x, s1) => Ret (x, s1)
  | (None, _) => Undef
  end.

(** the while loop of ReadVector, InputReader.cpp:125-130 *)
Fixpoint vector_loop (fuel : nat) (number : option Q) (acc : list (option Q)) (s : istream) : io (list (option Q) * istream) :=
  match fuel with
  | O => Loop
  | S k =>
    let '(number', s1) := extract_double rnd number s in
    let '(comma, s2) := get_char "," s1 in
    if (comma =? ",")%char then vector_loop k number' (acc ++ [number']) s2 else Ret (acc ++ [number'], s2)
  end.
Fixpoint all_written (l : list (option Q)) : option (list Q) :=
  match l with
  | [] => Some []
  | Some x :: l' => match all_written l' with Some r => Some (x :: r) | None => None end
  | None :: _ => None
  end.
(** ReadVector, InputReader.cpp:116-133 *)
Definition read_vector (fuel : nat) (s : istream) : io (list Q * istream) :=
  ibind (vector_loop fuel None [] (skip_to_next_data s)) (fun '(v, s1) =>
    match all_written v with Some l => Ret (l, s1) | None => Undef end).

(** a C string ends at the first NUL *)
Fixpoint c_string (t : text) : text :=
  match t with c :: r => if (nat_of_ascii c =? 0)%nat then [] else c :: c_string r | [] => [] end.
(** ReadString, InputReader.cpp:135-150: the call is [mFile.get(directory, ';')], and ';' converts to the size 59 *)
Definition read_string (s : istream) : io (text * istream) :=
  let '(buffer, s1) := get_buffer (nat_of_ascii ";") newline (skip_to_next_data s) in
  match c_string buffer with
  | [] => Exc
  | str => Ret (filter (fun c => negb (is_space c)) (removelast str), s1)
  end.

(** conversion of a double to long and to int: towards zero, undefined out of range *)
Definition to_integer (bits : Z) (x : Q) : io Z :=
  let z := Z.quot (Qnum x) (Zpos (Qden x)) in
  if (- 2 ^ bits <=? z) && (z <? 2 ^ bits) then Ret z else Undef.
Definition read_long (s : istream) : io (Z * istream) :=
  ibind (read_number s) (fun '(x, s1) => ibind (to_integer 63 x) (fun z => Ret (z, s1))).
Definition read_int (s : istream) : io (Z * istream) :=
  ibind (read_number s) (fun '(x, s1) => ibind (to_integer 31 x) (fun z => Ret (z, s1))).

(** the loop over the sieves, InputReader.cpp:70-81 *)
Fixpoint read_sieves (fuel n : nat) (s : istream) : io (list (list Q) * istream) :=
  match n with
  | O => Ret ([], s)
  | S k => ibind (read_vector fuel s) (fun '(v, s1) =>
      if (length v =? 3)%nat then ibind (read_sieves fuel k s1) (fun '(r, s2) => Ret (v :: r, s2)) else Exc)
  end.
(** ReadGradingCurve up to the end of the loop, InputReader.cpp:66-81 *)
Definition read_curve (fuel : nat) (s : istream) : io (list (list Q) * istream) :=
  ibind (read_int s) (fun '(n, s1) => if n <? 0 then Undef else read_sieves fuel (Z.to_nat n) s1).

Definition qltb (x y : Q) : bool := negb (Qle_bool y x).
(** CheckInputs, InputReader.cpp:162-176 *)
Definition check_inputs (i : input) : bool :=
  negb (qltb (in_relative_growth i) 0) && negb (qltb (in_distance i) 0) && negb (Qle_bool (in_fraction i) 0)
  && negb (Qle_bool 1 (in_shrinkage i) || qltb (in_shrinkage i) 0).

(** ReadFile, InputReader.cpp:28-82 *)
Definition read_file (fuel : nat) (file : text) : io input :=
  ibind (read_string (open_stream file)) (fun '(dir, s) =>
  ibind (read_long s) (fun '(events, s) =>
  ibind (read_number s) (fun '(timeMax, s) =>
  ibind (read_number s) (fun '(timePrint, s) =>
  ibind (read_number s) (fun '(barrier, s) =>
  ibind (read_number s) (fun '(velocity, s) =>
  ibind (read_number s) (fun '(relative, s) =>
  ibind (read_number s) (fun '(absolute, s) =>
  ibind (read_int s) (fun '(threads, s) =>
  ibind (read_int s) (fun '(specimen, s) =>
  ibind (read_vector fuel s) (fun '(box, s) =>
  if negb (length box =? 6)%nat then Exc else
  ibind (read_bool s) (fun '(is2d, s) =>
  ibind (read_curve fuel s) (fun '(curve, s) =>
  ibind (read_number s) (fun '(fraction, s) =>
  ibind (read_number s) (fun '(distance, s) =>
  ibind (read_number s) (fun '(shrinkage, s) =>
  let i := mkInput dir events timeMax timePrint barrier velocity relative absolute threads specimen box is2d curve fraction
                   distance shrinkage in
  if check_inputs i then Ret i else Exc)))))))))))))))).
End Rounding.
