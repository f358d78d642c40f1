(** * Model of the parts of std::istream that nuto reads text with

    These are the C++ standard library's functions, as libstdc++ implements them; nuto's EigenIO.cpp and InputReader.cpp call
    them.  A stream is the characters not yet read and the two flags eofbit and failbit.  Exceptions of streams are off, as in
    nuto.  Locale: "C". *)
From Coq Require Import String Ascii List ZArith QArith Bool.
Import ListNotations.
Local Open Scope Z_scope.

Definition text := list ascii.
Definition txt (s : string) : text := list_ascii_of_string s.

(** isspace in the "C" locale, used by InputReader.cpp:151 and by [operator>>] *)
Definition is_space (c : ascii) : bool :=
  let n := nat_of_ascii c in ((9 <=? n) && (n <=? 13))%nat || (n =? 32)%nat.
Definition newline : ascii := ascii_of_nat 10.

(** ** Decimal numbers *)
Definition digit (c : ascii) : option Z :=
  let n := nat_of_ascii c in if ((48 <=? n) && (n <=? 57))%nat then Some (Z.of_nat (n - 48)) else None.
Fixpoint take_digits (t : text) : list Z * text :=
  match t with
  | [] => ([], [])
  | c :: r => match digit c with Some d => let '(ds, r') := take_digits r in (d :: ds, r') | None => ([], t) end
  end.
Definition take_sign (t : text) : bool * text :=
  match t with
  | c :: r => if (c =? "-")%char then (true, r) else if (c =? "+")%char then (false, r) else (false, t)
  | [] => (false, [])
  end.
Definition take_fraction (t : text) : list Z * text :=
  match t with c :: r => if (c =? ".")%char then take_digits r else ([], t) | [] => ([], []) end.
Definition digits_value (ds : list Z) : Z := fold_left (fun a d => 10 * a + d) ds 0.
Definition signed (neg : bool) (z : Z) : Z := if neg then - z else z.
Definition is_e (c : ascii) : bool := (c =? "e")%char || (c =? "E")%char.

(** std::num_get::get for double (libstdc++, locale_facets.tcc, _M_extract_float) followed by strtod: an optional sign,
    digits with at most one point, and, once there is a digit, an optional exponent.  The number is mantissa and decimal
    exponent; [None] when the accumulated characters are not a number.  Second component: the characters left. *)
Definition scan_number (t : text) : option (Z * Z) * text :=
  let '(neg, t1) := take_sign t in
  let '(ip, t2) := take_digits t1 in
  let '(fp, t3) := take_fraction t2 in
  match ip ++ fp with
  | [] => (None, t3)
  | _ =>
    let m := signed neg (digits_value (ip ++ fp)) in
    let f := Z.of_nat (length fp) in
    match t3 with
    | c :: r =>
      if is_e c then
        let '(eneg, r1) := take_sign r in
        let '(ed, r2) := take_digits r1 in
        match ed with [] => (None, r2) | _ => (Some (m, signed eneg (digits_value ed) - f), r2) end
      else (Some (m, - f), t3)
    | [] => (Some (m, - f), [])
    end
  end.

(** the number m * 10^e, in lowest terms *)
Definition decimal_value (d : Z * Z) : Q :=
  let '(m, e) := d in Qred (if 0 <=? e then inject_Z (m * 10 ^ e) else (m # Z.to_pos (10 ^ (- e)))).

(** ** Streams *)
Record istream := mkStream { rest : text; eofbit : bool; failbit : bool }.
Definition open_stream (t : text) : istream := mkStream t false false.
Definition good (s : istream) : bool := negb (eofbit s) && negb (failbit s).
Definition empty (t : text) : bool := match t with [] => true | _ => false end.

(** the characters before [delim], at most [n] of them *)
Fixpoint take_until (n : nat) (delim : ascii) (t : text) : text * text :=
  match n, t with
  | S k, c :: r => if (c =? delim)%char then ([], t) else let '(a, r') := take_until k delim r in (c :: a, r')
  | _, _ => ([], t)
  end.

(** [istream::get(char* s, n, delim)]: at most n - 1 characters, the delimiter stays in the stream, failbit when nothing was
    stored *)
Definition get_buffer (n : nat) (delim : ascii) (s : istream) : text * istream :=
  if good s then
    let '(a, r) := take_until (n - 1) delim (rest s) in (a, mkStream r (empty r) (empty a))
  else ([], mkStream (rest s) (eofbit s) true).

(** [istream::get(char& c)]: [c] keeps its value [old] when nothing can be read *)
Definition get_char (old : ascii) (s : istream) : ascii * istream :=
  if good s then
    match rest s with c :: r => (c, mkStream r false false) | [] => (old, mkStream [] true true) end
  else (old, mkStream (rest s) (eofbit s) true).

(** the sentry of a formatted input function skips whitespace *)
Fixpoint skip_space (t : text) : text :=
  match t with c :: r => if is_space c then skip_space r else t | [] => [] end.

(** [istream::operator>>(double&)]: the variable keeps its value [old] when the sentry fails, and is 0 when the characters
    are not a number.  [rnd] is the rounding of strtod to the nearest double. *)
Definition extract_double (rnd : Q -> Q) (old : option Q) (s : istream) : option Q * istream :=
  if good s then
    match skip_space (rest s) with
    | [] => (old, mkStream [] true true)
    | t => match scan_number t with
           | (Some d, r) => (Some (rnd (decimal_value d)), mkStream r (empty r) false)
           | (None, r) => (Some 0%Q, mkStream r (empty r) true)
           end
    end
  else (old, mkStream (rest s) (eofbit s) true).

(** [istream::operator>>(char&)] *)
Definition extract_char (s : istream) : option ascii * istream :=
  if good s then
    match skip_space (rest s) with
    | [] => (None, mkStream [] true true)
    | c :: r => (Some c, mkStream r false false)
    end
  else (None, mkStream (rest s) (eofbit s) true).
