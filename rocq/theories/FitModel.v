(** * Model of nuto/math/PolynomialLeastSquaresFitting.{h,cpp} and nuto/math/SupportPoints.h
    Numbers are exact reals, int is unbounded.  A matrix is a list of rows.  Eigen's SparseLU is an argument: a function from
    the matrix and the right hand side. *)
From Coq Require Import List Arith ZArith Bool Reals.
From Verif Require Import RSum Outcome.
Import ListNotations.
Local Open Scope R_scope.

(** a dense matrix: the number of rows and columns, and the entries *)
Record dmatrix := mkMat { d_rows : nat; d_cols : nat; d_at : nat -> nat -> R }.
Definition mat_empty : dmatrix := mkMat 0 0 (fun _ _ => 0).

(** the members, PolynomialLeastSquaresFitting.h:40-43 and SupportPoints.h:48-49 *)
Record fitter := mkFit { f_in : dmatrix; f_out : dmatrix; f_coeffs : list R; f_bcs : list (R * R); f_degree : Z }.
Definition fit_new : fitter := mkFit mat_empty mat_empty [] [] (-1).

(** AddBoundaryCondition, PolynomialLeastSquaresFitting.cpp:8-20 *)
Definition add_bc (f : fitter) (b : R * R) : outcome fitter :=
  if Z.ltb (Z.of_nat (length (f_bcs f))) (f_degree f) then Ok (mkFit (f_in f) (f_out f) (f_coeffs f) (f_bcs f ++ [b]) (f_degree f)) else Throw.

(** SetDegree, lines 75-80 *)
Definition set_degree (f : fitter) (d : Z) : outcome fitter :=
  if Z.ltb d 0 then Throw else Ok (mkFit (f_in f) (f_out f) (f_coeffs f) (f_bcs f) d).

(** SetSupportPoints, lines 108-123, and SupportPoints.h:37-45 *)
Definition set_support_points (f : fitter) (dimInput dimOutput : nat) (x y : dmatrix) : outcome fitter :=
  if negb (Nat.eqb dimInput (d_rows x)) then Throw
  else if negb (Nat.eqb dimOutput (d_rows y)) then Throw
  else if negb (Nat.eqb (d_cols y) (d_cols x)) then Throw
  else Ok (mkFit x y (f_coeffs f) (f_bcs f) (f_degree f)).

(** the matrix and the right hand side of BuildDerived, lines 36-60; [m] boundary conditions, [n] support points *)
Definition lhs (m n : nat) (x : nat -> R) (bx : nat -> R) (i j : nat) : R :=
  if Nat.ltb i m then bx i ^ j else rsum n (fun k => x k ^ (i + j)).
Definition rhs (m n : nat) (x y : nat -> R) (by' : nat -> R) (i : nat) : R :=
  if Nat.ltb i m then by' i else rsum n (fun k => x k ^ i * y k).

Section Fit.
  Variable lu : nat -> (nat -> nat -> R) -> (nat -> R) -> nat -> R.

  (** BuildDerived, lines 22-68: more boundary conditions than rows, or support points without a first row, is an access out of
      bounds *)
  Definition build (f : fitter) : outcome fitter :=
    if negb (Nat.eqb (d_rows (f_out f)) 1) then Throw
    else if Z.ltb (f_degree f) 0 then Throw
    else
      let d := Z.to_nat (f_degree f) in
      let n := d_cols (f_in f) in
      let m := length (f_bcs f) in
      if (Nat.ltb (S d) m || (Nat.eqb (d_rows (f_in f)) 0 && negb (Nat.eqb n 0)))%bool then UB
      else
        let bx i := fst (nth i (f_bcs f) (0, 0)) in
        let by' i := snd (nth i (f_bcs f) (0, 0)) in
        let x k := d_at (f_in f) 0 k in
        let y k := d_at (f_out f) 0 k in
        Ok (mkFit (f_in f) (f_out f) (map (lu (S d) (lhs m n x bx) (rhs m n x y by')) (seq 0 (S d))) (f_bcs f) (f_degree f)).

  (** SolveTransformed, lines 82-106, for one row of input coordinates *)
  Definition solve_at (f : fitter) (input : dmatrix) : outcome (list R) :=
    if negb (Nat.eqb (d_rows input) 1) then Throw
    else if negb (Z.eqb (Z.of_nat (length (f_coeffs f))) (f_degree f + 1)) then Throw
    else Ok (map (fun k => rsum (length (f_coeffs f)) (fun i => nth i (f_coeffs f) 0 * d_at input 0 k ^ i)) (seq 0 (d_cols input))).

  (** the calls a user can make *)
  Inductive fop := AddBc (b : R * R) | SetDegree (d : Z) | SetPoints (dimInput dimOutput : nat) (x y : dmatrix) | Build.
  Definition fit_step (f : fitter) (o : fop) : outcome fitter :=
    match o with
    | AddBc b => add_bc f b
    | SetDegree d => set_degree f d
    | SetPoints a b x y => set_support_points f a b x y
    | Build => build f
    end.
  Definition fit_run (h : list fop) : outcome fitter := fold_left (fun x o => obind x (fun f => fit_step f o)) h (Ok fit_new).
End Fit.
