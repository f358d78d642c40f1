(** * Specifications for C24, C25 *)
From Coq Require Import List ZArith Arith Reals.
From Verif Require Import Algebra Outcome DofModel DofSpec ConstraintModel ConstraintSpec SolveModel RSum.
Import ListNotations.
Local Open Scope R_scope.

(** a linear solver is correct if whatever it returns solves the system *)
Definition solver_correct (linsolve : nat -> (nat -> nat -> R) -> list R -> outcome (list R)) : Prop :=
  forall n A b x, linsolve n A b = Ok x ->
    length x = n /\ forall i, (i < n)%nat -> rsum n (fun j => A i j * nth j x 0) = nth i b 0.

(** left hand side of a constraint equation for the values u of one dof type *)
Definition lhs (num : dofkey -> nat) (u : nat -> R) (e : equation) : R :=
  u (num (edep e)) + fold_right (fun tm s => coef tm * u (num (tkey tm)) + s) 0 (eind e).

(** values of all dof types (by dof type and number) that satisfy the homogeneous constraints *)
Definition admissible (c : constraints) (dofs : list Z) (num : Z -> dofkey -> nat) (w : Z -> nat -> R) : Prop :=
  forall d e, In d dofs -> In e (equations c d) -> lhs (num d) (w d) e = 0.

(** entry (i,j) of block (a,b) *)
Definition kval (K : dofmat R_cring) (a b : Z) (i j : nat) : R :=
  match mat_at K a b with Some m => @entry R_cring m i j | None => 0 end.

(** component i of dof type d of K u - f *)
Definition residual (K : dofmat R_cring) (size : Z -> nat) (dofs : list Z) (u f : Z -> nat -> R) (d : Z) (i : nat) : R :=
  rlsum (map (fun b => rsum (size b) (fun j => kval K d b i j * u b j)) dofs) - f d i.

(** virtual work of the residual over the admissible field w *)
Definition virtual_work (size : Z -> nat) (dofs : list Z) (w res : Z -> nat -> R) : R :=
  rlsum (map (fun d => rsum (size d) (fun i => w d i * res d i)) dofs).

Definition dval (v : dofvec R_cring) (d : Z) (i : nat) : R := @val R_cring v d i.

(** a block system that fits: square blocks of the size of the vector's blocks *)
Definition system_fits (K : dofmat R_cring) (f : dofvec R_cring) (dofs : list Z) (size : Z -> nat) : Prop :=
  ascending f /\ NoDup dofs /\ (forall d, In d dofs -> @size_of R_cring f d = Some (size d))
  /\ @shapes_fit R_cring K dofs size size.
(** the constraints of all dof types refer to numbers of that type, and no nonzero
    coefficient is below the drop tolerance (see C13) *)
Definition constraints_fit (h : nodes) (ops : list cons_op) (dofs : list Z) (size : Z -> nat) (num : Z -> dofkey -> nat) : Prop :=
  no_self_reference ops /\
  forall d, In d dofs -> let es := equations (cons_run cons_empty ops) d in
    numbered h es (size d) (num d)
    /\ (forall e t, In e es -> In t (eind e) -> coef t = 0 \/ / 10 ^ 18 < Rabs (coef t)).
