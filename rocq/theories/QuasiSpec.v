(** * Specification for C108: histories of quasi-static steps *)
From Coq Require Import List ZArith Arith Reals.
From Verif Require Import RSum Algebra Outcome DofModel DofSpec ConstraintModel ConstraintSpec SolveModel SolveSpec SupportSpec NewtonModel QuasiModel.
Import ListNotations.
Local Open Scope R_scope.

(** a vector with a block of the right size for each dof type *)
Definition has_sizes (dofs : list Z) (size : Z -> nat) (v : dofvec RR) : Prop :=
  ascending v /\ forall d, In d dofs -> @size_of RR v d = Some (size d).

(** the parts of the solver belong together: the linear solver is correct, the constraints and mCmatUnit belong to the dof
    types, gradients and Hessians have the sizes of the solution *)
Record fits_together {H} (q : quasi_data H) (ops : list cons_op) (size : Z -> nat) (num : Z -> dofkey -> nat) : Prop := {
  ft_solver : solver_correct (q_linsolve q);
  ft_constraints : q_constraints q = cons_run cons_empty ops;
  ft_numbers : constraints_fit (q_nodes q) ops (q_dofs q) size num;
  ft_dofs : NoDup (q_dofs q);
  ft_unit : exists x, has_sizes (q_dofs q) size x /\ unit_blocks (q_nodes q) (q_constraints q) x (q_dofs q) = Ok (q_unit q);
  ft_gradient : forall hist x t dt g, has_sizes (q_dofs q) size x -> q_gradient q (q_dofs q) hist x t dt = Ok g ->
    has_sizes (q_dofs q) size g /\ bv_keys g = q_dofs q;
  ft_hessian : forall hist x t dt K, has_sizes (q_dofs q) size x -> q_hessian q (q_dofs q) hist x t dt = Ok K ->
    @shapes_fit RR K (q_dofs q) size size
}.

(** the vector [x] fulfils the constraint equations at time [t], with the right hand sides rounded to single precision (C15) *)
Definition constraints_hold (c : constraints) (dofs : list Z) (num : Z -> dofkey -> nat) (x : dofvec RR) (t : R) : Prop :=
  forall d e, In d dofs -> In e (equations c d) -> lhs (num d) (dval x d) e = to_float (erhs e t).

(** length of the vector w *)
Definition length_of (size : Z -> nat) (dofs : list Z) (w : Z -> nat -> R) : R := sqrt (virtual_work size dofs w w).

(** a linear problem: constant matrix, loads that depend on time *)
Definition linear_problem {H} (q : quasi_data H) (size : Z -> nat) (K : dofmat RR) (p : R -> Z -> nat -> R) : Prop :=
  (forall hist x t dt, has_sizes (q_dofs q) size x -> exists g, q_gradient q (q_dofs q) hist x t dt = Ok g /\
     forall d i, In d (q_dofs q) -> (i < size d)%nat -> dval g d i = residual K size (q_dofs q) (dval x) (p t) d i) /\
  (forall hist x t dt, has_sizes (q_dofs q) size x -> q_hessian q (q_dofs q) hist x t dt = Ok K).

(** [x] is in equilibrium with the loads p on the supports *)
Definition equilibrium (c : constraints) (dofs : list Z) (size : Z -> nat) (num : Z -> dofkey -> nat) (K : dofmat RR) (p : Z -> nat -> R) (x : Z -> nat -> R) : Prop :=
  forall w, admissible c dofs num w -> virtual_work size dofs w (residual K size dofs x p) = 0.
