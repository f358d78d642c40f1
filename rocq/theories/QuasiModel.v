(** * Model of QuasistaticSolver on block vectors, nuto/mechanics/tools/QuasistaticSolver.cpp
    The step itself is [do_step] of NewtonModel; here its vectors, norms and solvers are the ones of the class. *)
From Coq Require Import List ZArith Arith Bool Reals.
From Verif Require Import RSum Algebra Outcome DofModel ConstraintModel SolveModel NewtonModel.
Import ListNotations.
Local Open Scope R_scope.

(** mCmatUnit, SetConstraints, QuasistaticSolver.cpp:37-42.  [mCmatUnit(dofI, dofJ)] creates an empty matrix (0 x 0) and
    setZero keeps its size; the diagonal blocks are built first here, which gives the same map.  The sizes are those of the
    vector that RenumberDofs returns (C83), so a missing block ([Throw] here) does not occur. *)
Definition zero_block (acc : dofmat RR) (p : Z * Z) : dofmat RR :=
  let (i, j) := p in if Z.eqb i j then acc else mset lt_dofpair (i, j) (mkMat (F := RR) 0 0 []) acc.
Definition unit_blocks (h : nodes) (c : constraints) (x : dofvec RR) (dofs : list Z) : outcome (dofmat RR) :=
  omap (fun acc => fold_left zero_block (list_prod dofs dofs) acc) (diag_blocks h c x dofs []).

(** Norm, QuasistaticSolver.cpp:84-90: |C^T r|; the product asserts its dimensions *)
Definition dof_norm (Cd : dofmat RR) (dofs : list Z) (r : dofvec RR) : outcome R :=
  obind (olift (to_eigen r dofs)) (fun tmp =>
  obind (olift (mat_to_eigen Cd dofs)) (fun C =>
  if Nat.eqb (length tmp) (srows C)
  then Ok (sqrt (rsum (scols C) (fun j => rsum (srows C) (fun i => mentry C i j * nth i tmp 0) ^ 2)))
  else UB)).

(** x - alpha * dx, DofVector.h:35-89; [None]: blocks of different size are subtracted (failed Eigen assertion) *)
Definition dof_move (x : option (dofvec RR)) (alpha : R) (dx : dofvec RR) : option (dofvec RR) :=
  match x with Some x => dv_sub x (dv_scale dx (alpha : car RR)) | None => None end.

(** what a QuasistaticSolver is made of: TimeDependentProblem with its gradient, Hessian and update functions (C83), the
    constraints [c] on the nodes [h], the dof types and mCmatUnit.  The functions get the dof types they are called with *)
Record quasi_data (H : Type) := mkData {
  q_linsolve : nat -> (nat -> nat -> R) -> list R -> outcome (list R);
  q_nodes : nodes;
  q_constraints : constraints;
  q_dofs : list Z;
  q_unit : dofmat RR;
  q_tolerance : R;
  q_gradient : list Z -> H -> dofvec RR -> R -> R -> outcome (dofvec RR);
  q_hessian : list Z -> H -> dofvec RR -> R -> R -> outcome (dofmat RR);
  q_update : list Z -> H -> dofvec RR -> R -> R -> H * bool
}.
Arguments mkData {H}. Arguments q_linsolve {H}. Arguments q_nodes {H}. Arguments q_constraints {H}. Arguments q_dofs {H}. Arguments q_unit {H}.
Arguments q_tolerance {H}. Arguments q_gradient {H}. Arguments q_hessian {H}. Arguments q_update {H}.

(** the problem that DoStep hands to NewtonRaphson::Solve, QuasistaticSolver.cpp:50-90, with ConstrainedSystemSolver,
    Solve.cpp:83-100.  Newton evaluates the norm of gradients only; a norm that is not defined counts as 0 here, the
    theorems are about gradients with the sizes of the solution, where it is defined. *)
Definition quasi_on_dofs {H} (q : quasi_data H) : quasi_problem (option (dofvec RR)) (dofvec RR) (dofvec RR) (dofmat RR) H :=
  mkQuasi (option (dofvec RR)) (dofvec RR) (dofvec RR) (dofmat RR) H
    (fun hist x t dt => obind (oassert x) (fun x => q_gradient q (q_dofs q) hist x t dt))
    (fun hist x t dt => obind (oassert x) (fun x => q_hessian q (q_dofs q) hist x t dt))
    (fun hist x t dt => match x with Some x => q_update q (q_dofs q) hist x t dt | None => (hist, true) end)
    (fun r => match dof_norm (q_unit q) (q_dofs q) r with Ok v => v | _ => 0 end)
    (fun x => match x with Some x => match dof_norm (q_unit q) (q_dofs q) x with Ok v => v | _ => 0 end | None => 0 end)
    (q_tolerance q)
    (fun K r => solve (q_linsolve q) (q_nodes q) (q_constraints q) K r (q_dofs q))
    (fun K r oldTime newTime => solve_trial (q_linsolve q) (q_nodes q) (q_constraints q) K r oldTime newTime (q_dofs q))
    dof_move.

(** operator()(dof, numbers), DofVector.h:104-111: a missing dof type throws, a number outside of the block is an assertion *)
Fixpoint values_at (b : list R) (numbers : list nat) : option (list R) :=
  match numbers with
  | [] => Some []
  | n :: ns => match nth_error b n, values_at b ns with Some v, Some vs => Some (v :: vs) | _, _ => None end
  end.
Definition dof_values (v : dofvec RR) (d : Z) (numbers : list nat) : outcome (list R) :=
  obind (olift (mfind lt_dof d v)) (fun b => oassert (values_at b numbers)).

(** WriteTimeDofResidual, QuasistaticSolver.cpp:97-116: time, mean of the dof values, sum of the residual.  Without numbers
    the mean is 0 / 0, not a number; x / 0 of the reals stands for it *)
Definition write_time_dof_residual {H} (q : quasi_data H) (s : quasi_state (option (dofvec RR)) H) (d : Z) (numbers : list nat) : outcome (R * R * R) :=
  obind (oassert (mX s)) (fun x =>
  obind (q_gradient q [d] (mHistory s) x (mGlobalTime s - mTimeStep s) (mTimeStep s)) (fun residual =>
  obind (dof_values x d numbers) (fun us =>
  obind (dof_values residual d numbers) (fun rs =>
  Ok (mGlobalTime s, fold_left Rplus us 0 / INR (length numbers), fold_left Rplus rs 0))))).
