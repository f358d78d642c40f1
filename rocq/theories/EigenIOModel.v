(** * Model of nuto/math/EigenIO.cpp

    A file is the list of its characters; that it can be opened is assumed.  A matrix is the list of its rows.  An entry that
    was never written is [None].  The exponent is written with two or three digits, which is enough for all doubles.
    Negative zero is not distinguished from zero. *)
From Coq Require Import String Ascii List ZArith QArith Qreals Reals Bool.
From Flocq Require Import Core.
From Verif Require Import Outcome TextModel.
From Verif Require SerializeModel.
Import ListNotations.
Local Open Scope Z_scope.

Inductive number := Finite (x : R) | Infinity (negative : bool) | NaN.

(** [n] decimal digits of [z], the most significant one first *)
Fixpoint digits_of (n : nat) (z : Z) : list Z :=
  match n with O => [] | S k => digits_of k (z / 10) ++ [z mod 10] end.
Definition digit_text (d : Z) : ascii := ascii_of_nat (48 + Z.to_nat d).

(** mantissa and exponent of [x] rounded to [p] significant digits; the mantissa has exactly [p] digits unless x = 0 *)
Definition scientific (p : Z) (x : R) : Z * Z :=
  let r := SerializeModel.radix10 in
  let e := cexp r (FLX_exp p) x in
  let m := ZnearestE (scaled_mantissa r (FLX_exp p) x) in
  if Req_EM_T x 0 then (0, 1 - p)%Z else if Z.abs m =? 10 ^ p then (Z.sgn m * 10 ^ (p - 1), e + 1) else (m, e).

(** printf("%.12e"): what the stream writes with std::scientific and std::setprecision(12), EigenIO.cpp:37-42 *)
Definition print_finite (x : R) : text :=
  let '(m, e) := scientific 13 x in
  let ds := map digit_text (digits_of 13 (Z.abs m)) in
  let E := e + 12 in
  (if m <? 0 then ["-"%char] else []) ++ firstn 1 ds ++ "."%char :: skipn 1 ds ++ "e"%char :: (if E <? 0 then "-"%char else "+"%char)
  :: map digit_text (digits_of (if Z.abs E <? 100 then 2 else 3) (Z.abs E)).
Definition print_number (x : number) : text :=
  match x with Finite x => print_finite x | Infinity neg => if neg then txt "-inf" else txt "inf" | NaN => txt "nan" end.
(** std::setw(15): blanks on the left *)
Definition padded (n : nat) (t : text) : text := repeat " "%char (n - length t) ++ t.

(** the two loops of WriteToFile, EigenIO.cpp:38-48; [join sep] writes [sep] between the parts, not behind the last one *)
Fixpoint join (sep : text) (l : list text) : text :=
  match l with [] => [] | [t] => t | t :: l' => t ++ sep ++ join sep l' end.
Definition write_row (delimiter : text) (row : list number) : text := join delimiter (map (fun x => padded 15 (print_number x)) row).
Definition write_to_file (delimiter : text) (m : list (list number)) : text := join [newline] (map (write_row delimiter) m).

(** ** Reading *)
(** the successive results of std::getline until it fails *)
Fixpoint lines_from (current : text) (t : text) : list text :=
  match t with
  | [] => match current with [] => [] | _ => [current] end
  | c :: r => if (c =? newline)%char then current :: lines_from [] r else lines_from (current ++ [c]) r
  end.
Definition lines (t : text) : list text := lines_from [] t.

(** std::istream_iterator<std::string>: the words of a line, EigenIO.cpp:13-16 *)
Fixpoint words_from (current : text) (t : text) : list text :=
  match t with
  | [] => match current with [] => [] | _ => [current] end
  | c :: r => if is_space c then (match current with [] => words_from [] r | _ => current :: words_from [] r end)
              else words_from (current ++ [c]) r
  end.
Definition words (t : text) : list text := words_from [] t.

(** [std::istringstream(split) >> d], EigenIO.cpp:20-25: 0 when the word does not begin with a number; strtod gives the nearest
    double *)
Definition word_value (w : text) : R :=
  match fst (scan_number w) with Some d => SerializeModel.parse_double (Q2R (decimal_value d)) | None => 0%R end.
Definition string_to_doubles (t : text) : list R := map word_value (words t).

(** one turn of the loop at EigenIO.cpp:79-86: writing outside the matrix is undefined *)
Definition read_row (columns : nat) (line : text) : outcome (list (option R)) :=
  let v := string_to_doubles line in
  if (length v <=? columns)%nat then Ok (map Some v ++ repeat None (columns - length v)) else UB.
Fixpoint read_rows (columns : nat) (ls : list text) : outcome (list (list (option R))) :=
  match ls with [] => Ok [] | l :: ls' => obind (read_row columns l) (fun r => omap (cons r) (read_rows columns ls')) end.
(** ReadFromFile, EigenIO.cpp:51-89: the matrix with its numbers of rows and columns *)
Definition read_from_file (t : text) : outcome (nat * nat * list (list (option R))) :=
  let ls := lines t in
  let columns := length (string_to_doubles (hd [] ls)) in
  omap (fun m => (length ls, columns, m)) (read_rows columns ls).
