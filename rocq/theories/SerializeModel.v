(** * Model of nuto/base/serializeStream (SerializeStreamOut/In) *)
From Coq Require Import List ZArith Reals Lia.
From Flocq Require Import Core.
Import ListNotations.

(** Outcome of an operation: a value, a C++ exception, or undefined behaviour. *)
Inductive outcome (A : Type) := Done (a : A) | Throws | UB.
Arguments Done {A}. Arguments Throws {A}. Arguments UB {A}.

Definition obind {A B} (o : outcome A) (f : A -> outcome B) : outcome B :=
  match o with Done a => f a | Throws => Throws | UB => UB end.

(** ** Text mode

    A text file is the list of its lines.  A line is a debug info line (contents
    irrelevant, it is skipped), a printed number, or the separator "#".
    A number is printed with 17 significant decimal digits (SerializeStreamOut.cpp:13-15,
    [precision(17)]): the printed decimal is the nearest one, [print_double].
    [std::stod] rounds the decimal to the nearest double.  Doubles are the reals
    in the binary format with 53 bits; the exponent range is not modelled (finite,
    normal numbers and zero), nor are NaN and infinities. *)
Definition radix10 : radix := Build_radix 10 (eq_refl true).

Definition is_double (x : R) : Prop := generic_format radix2 (FLX_exp 53) x.

Definition print_double (x : R) : R := round radix10 (FLX_exp 17) ZnearestE x.
Definition parse_double (r : R) : R := round radix2 (FLX_exp 53) ZnearestE r.

Inductive line := LInfo | LNum (decimal : R) | LSep.

(** values a user can stream: double, int, bool, matrices of double or int (with
    the data in memory order, SerializeStreamOut.h:60,69-70) and separators *)
Inductive item :=
| IDouble (x : R)
| IInt (n : Z)
| IBool (b : bool)
| IMatrix (rows cols : nat) (data : list R)
| IMatrixInt (rows cols : nat) (data : list Z)
| ISeparator.

(** what the reader knows before reading: type and shape *)
Inductive shape := SDouble | SInt | SBool | SMatrix (rows cols : nat) | SMatrixInt (rows cols : nat) | SSeparator.

Definition shape_of (i : item) : shape :=
  match i with
  | IDouble _ => SDouble | IInt _ => SInt | IBool _ => SBool
  | IMatrix r c _ => SMatrix r c | IMatrixInt r c _ => SMatrixInt r c | ISeparator => SSeparator
  end.

(** SerializePrimitiveType (SerializeStreamOut.h:78-90, text branch: type name,
    then the value cast to double), SaveMatrix (SerializeStreamOut.h:56-72, text
    branch), Separator (SerializeStreamOut.cpp:21-31, text branch).  An [int]
    matrix entry is printed as an integer, i.e. without rounding. *)
Definition write_text (i : item) : list line :=
  match i with
  | IDouble x => [LInfo; LNum (print_double x)]
  | IInt n => [LInfo; LNum (print_double (IZR n))]
  | IBool b => [LInfo; LNum (print_double (if b then 1 else 0)%R)]
  | IMatrix _ _ data => LInfo :: map (fun x => LNum (print_double x)) data
  | IMatrixInt _ _ data => LInfo :: map (fun n => LNum (IZR n)) data
  | ISeparator => [LSep]
  end.

(** [std::getline]: at the end of the file the line comes back empty, on which
    [std::stod] throws; modelled as [Throws] at the point of use. *)
Definition getline (s : list line) : option line * list line :=
  match s with [] => (None, []) | l :: s' => (Some l, s') end.

(** [std::stod] throws on anything that is not a number. *)
Definition stod (l : option line) : outcome R :=
  match l with Some (LNum r) => Done (parse_double r) | _ => Throws end.

(** [static_cast<int>(double)] truncates, [static_cast<bool>(double)] tests for
    nonzero (SerializeStreamIn.h:92). *)
Definition to_int (x : R) : Z := Ztrunc x.
Definition to_bool (x : R) : bool := if Req_EM_T x 0 then false else true.

Definition read_value (s : list line) : outcome (R * list line) :=
  let (l, s') := getline s in obind (stod l) (fun x => Done (x, s')).

Fixpoint read_values (n : nat) (s : list line) : outcome (list R * list line) :=
  match n with
  | O => Done ([], s)
  | S n' =>
    obind (read_value s) (fun '(x, s1) =>
    obind (read_values n' s1) (fun '(xs, s2) => Done (x :: xs, s2)))
  end.

(** SerializePrimitiveType (SerializeStreamIn.h:80-94), LoadMatrix
    (SerializeStreamIn.h:55-74), Separator (SerializeStreamIn.cpp:16-34), text
    branches. *)
Definition read_text (sh : shape) (s : list line) : outcome (item * list line) :=
  match sh with
  | SDouble => let (_, s1) := getline s in obind (read_value s1) (fun '(x, s2) => Done (IDouble x, s2))
  | SInt => let (_, s1) := getline s in obind (read_value s1) (fun '(x, s2) => Done (IInt (to_int x), s2))
  | SBool => let (_, s1) := getline s in obind (read_value s1) (fun '(x, s2) => Done (IBool (to_bool x), s2))
  | SMatrix r c =>
    let (_, s1) := getline s in
    obind (read_values (r * c) s1) (fun '(xs, s2) => Done (IMatrix r c xs, s2))
  | SMatrixInt r c =>
    let (_, s1) := getline s in
    obind (read_values (r * c) s1) (fun '(xs, s2) => Done (IMatrixInt r c (map to_int xs), s2))
  | SSeparator =>
    let (l, s1) := getline s in
    match l with Some LSep => Done (ISeparator, s1) | _ => Throws end
  end.

Definition write_all (l : list item) : list line := concat (map write_text l).

Fixpoint read_all (shs : list shape) (s : list line) : outcome (list item * list line) :=
  match shs with
  | [] => Done ([], s)
  | sh :: shs' =>
    obind (read_text sh s) (fun '(i, s1) =>
    obind (read_all shs' s1) (fun '(is, s2) => Done (i :: is, s2)))
  end.

(** ** Binary mode

    A file is a list of bytes; an object is the list of its bytes in memory.
    [ostream::write(p, n)] copies [n] bytes starting at the object; reading
    beyond the object is undefined.  [istream::read(p, n)] stores up to [n]
    bytes into the object; storing beyond the object is undefined; a short read
    leaves the stream in a failed state, after which every further read fails
    and leaves its target unchanged (this is not reported as an exception:
    [bad = true]). *)
Definition byte := Z.

Definition os_write (file object : list byte) (n : nat) : outcome (list byte) :=
  if Nat.leb n (length object) then Done (file ++ firstn n object) else UB.

Record istream := mkIs { rest : list byte; bad : bool }.

Definition is_read (s : istream) (object : list byte) (n : nat) : outcome (list byte * istream) :=
  if bad s then Done (object, s)
  else if Nat.leb n (length (rest s))
       then if Nat.leb n (length object)
            then Done (firstn n (rest s) ++ skipn n object, mkIs (skipn n (rest s)) false)
            else UB
       else if Nat.leb (length (rest s)) (length object)
            then Done (rest s ++ skipn (length (rest s)) object, mkIs [] true)
            else UB.

(** A binary item is the memory of a primitive ([sizeof(T)] bytes), of a matrix
    (rows*cols*sizeof(T) bytes, SerializeStreamOut.h:63) or a separator. *)
Inductive bitem := BData (object : list byte) | BSeparator.

(** [SEPARATOR] is a [const char*] pointing to the literal "#" (2 bytes: '#' and
    the terminating zero); [sizeof(SEPARATOR)] is the size of the pointer, 8
    (SerializeStreamBase.h:20, SerializeStreamOut.cpp:25). *)
Definition separator_literal : list byte := [35; 0]%Z.
Definition sizeof_pointer : nat := 8.

Definition write_binary (file : list byte) (i : bitem) : outcome (list byte) :=
  match i with
  | BData o => os_write file o (length o)
  | BSeparator => os_write file separator_literal sizeof_pointer
  end.

Fixpoint write_binary_all (file : list byte) (l : list bitem) : outcome (list byte) :=
  match l with [] => Done file | i :: l' => obind (write_binary file i) (fun f => write_binary_all f l') end.

(** The reader passes its own object of the same size (old contents arbitrary);
    Separator reads [sizeof(SEPARATOR)] bytes into one [char] that has no initial
    value (SerializeStreamIn.cpp:20-22): comparing it is undefined if nothing was read. *)
Definition read_binary (s : istream) (target : bitem) : outcome (bitem * istream) :=
  match target with
  | BData o => obind (is_read s o (length o)) (fun '(o', s') => Done (BData o', s'))
  | BSeparator =>
    if orb (bad s) (Nat.eqb (length (rest s)) 0) then UB else
    obind (is_read s [0%Z] sizeof_pointer) (fun '(c, s') =>
      match c with x :: _ => if Z.eqb x 35 then Done (BSeparator, s') else Throws | [] => UB end)
  end.

Fixpoint read_binary_all (s : istream) (targets : list bitem) : outcome (list bitem * istream) :=
  match targets with
  | [] => Done ([], s)
  | t :: ts =>
    obind (read_binary s t) (fun '(i, s1) =>
    obind (read_binary_all s1 ts) (fun '(is, s2) => Done (i :: is, s2)))
  end.
