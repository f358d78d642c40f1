(** * Model of nuto/math/Interpolation.cpp, LinearInterpolation.cpp, CubicSplineInterpolation.cpp *)
From Coq Require Import List Arith Bool Reals.
From Verif Require Import Outcome AdaptiveModel.
Import ListNotations.
Local Open Scope R_scope.

Notation point := (R * R)%type (only parsing).
Definition px (data : list point) (i : nat) : R := fst (nth i data (0, 0)).
Definition py (data : list point) (i : nat) : R := snd (nth i data (0, 0)).

(** Interpolation constructor, Interpolation.cpp:10-19; [sort] is std::sort with CompareDataPairs,
    any function that returns a permutation ordered by the first component.
    numNeighborPoints is 2 for both derived classes (LinearInterpolation.h:17, CubicSplineInterpolation.cpp:5) *)
Definition make_table (sort : list point -> list point) (data : list point) : outcome (list point) :=
  if Nat.ltb (length data) 2 then Throw else Ok (sort data).

(** bisection, Interpolation.cpp:21-38; (mNumNeighborPoints - 2) / 2 = 0.  Natural numbers instead of
    unsigned: no wrap-around for tables below 2^31 points *)
Fixpoint bisect (fuel : nat) (data : list point) (x : R) (lower upper : nat) : nat :=
  match fuel with
  | O => lower
  | S fuel' =>
    if Nat.ltb 1 (upper - lower) then
      let pivot := Nat.div2 (upper + lower) in
      if rltb (px data pivot) x then bisect fuel' data x pivot upper else bisect fuel' data x lower pivot
    else lower
  end.
Definition bisection (data : list point) (x : R) : nat := bisect (length data) data x 0 (length data - 1) + (2 - 2) / 2.

Definition in_range (data : list point) (x : R) : bool :=
  negb (orb (rltb x (px data 0)) (rltb (px data (length data - 1)) x)).

(** LinearInterpolation::operator(), LinearInterpolation.cpp:4-14 *)
Definition linear_value (data : list point) (x : R) : outcome R :=
  if in_range data x then
    let index := bisection data x in
    let m := (py data (index + 1) - py data index) / (px data (index + 1) - px data index) in
    let n := py data index in
    let x_tmp := x - px data index in
    Ok (m * x_tmp + n)
  else Throw.

(** LinearInterpolation::derivative, LinearInterpolation.cpp:16-24; CubicSplineInterpolation::derivative
    (CubicSplineInterpolation.cpp:45-53) is the same text *)
Definition linear_derivative (data : list point) (x : R) : outcome R :=
  if in_range data x then
    let index := bisection data x in
    Ok ((py data (index + 1) - py data index) / (px data (index + 1) - px data index))
  else Throw.

(** forward elimination: (ddy[i], u[i]) after the loop CubicSplineInterpolation.cpp:13-23, for i < n - 1.
    The code writes behind the size of vectors that are only reserved; the model takes the reserved
    memory as usable. *)
Fixpoint forward (data : list point) (i : nat) : R * R :=
  match i with
  | O => (0, 0)
  | S i' =>
    let (ddy1, u1) := forward data i' in
    let sigma := (px data i - px data i') / (px data (i + 1) - px data i') in
    let p := sigma * ddy1 + 2 in
    let d := (py data (i + 1) - py data i) / (px data (i + 1) - px data i) - (py data i - py data i') / (px data i - px data i') in
    ((sigma - 1) / p, (6 * d / (px data (i + 1) - px data i') - sigma * u1) / p)
  end.

(** back substitution, lines 25-28: the value of ddy[n - 1 - j] *)
Fixpoint backward (data : list point) (j : nat) : R :=
  match j with
  | O => 0
  | S j' =>
    let k := (length data - 1 - j)%nat in
    if Nat.ltb 0 k then fst (forward data k) * backward data j' + snd (forward data k) else fst (forward data 0)
  end.
Definition ddy (data : list point) (k : nat) : R := backward data (length data - 1 - k).

(** CubicSplineInterpolation::operator(), lines 31-43 *)
Definition cubic_value (data : list point) (x : R) : outcome R :=
  if in_range data x then
    let index := bisection data x in
    let h := px data (index + 1) - px data index in
    let a := (px data (index + 1) - x) / h in
    let b := (x - px data index) / h in
    Ok (a * py data index + b * py data (index + 1) +
        ((a * a * a - a) * ddy data index + (b * b * b - b) * ddy data (index + 1)) * (h * h) / 6)
  else Throw.
