(** * Model of nuto/mechanics/solver/Solve.cpp *)
From Coq Require Import List ZArith Arith Bool Reals.
From Verif Require Import Algebra Outcome DofModel ConstraintModel.
Import ListNotations.
Local Open Scope R_scope.

Notation RR := R_cring.
(** const operator[] throws for a missing entry *)
Definition olift {A} (o : option A) : outcome A := match o with Some a => Ok a | None => Throw end.
(** failed Eigen assertions *)
Definition oassert {A} (o : option A) : outcome A := match o with Some a => Ok a | None => UB end.

(** ToEigen of a matrix: const operator() throws for a missing block *)

(** Solve.cpp:14-16 *)
Fixpoint diag_blocks (h : nodes) (c : constraints) (f : dofvec RR) (dofs : list Z) (acc : dofmat RR) : outcome (dofmat RR) :=
  match dofs with
  | [] => Ok acc
  | d :: ds =>
    obind (olift (mfind lt_dof d f)) (fun b =>
      obind (unit_constraint_matrix h c d (length b)) (fun C =>
        diag_blocks h c f ds (mset lt_dofpair (d, d) C acc)))
  end.
(** Solve.cpp:18-21 *)
Definition off_block (acc : dofmat RR) (p : Z * Z) : dofmat RR :=
  let (r, c) := p in
  if Z.eqb r c then acc
  else mset lt_dofpair (r, c)
         (mkMat (F := RR) (match mat_at acc r r with Some m => srows m | None => 0%nat end)
                (match mat_at acc c c with Some m => scols m | None => 0%nat end) []) acc.
Definition constraint_blocks (h : nodes) (c : constraints) (f : dofvec RR) (dofs : list Z) : outcome (dofmat RR) :=
  omap (fun acc => fold_left off_block (list_prod dofs dofs) acc) (diag_blocks h c f dofs []).

Definition mentry (M : smat RR) (i j : nat) : R := @entry RR M i j.
Definition rsumn (n : nat) (f : nat -> R) : R := @sum_n RR n f.

(** Kmod = C^T K C and C^T f, Solve.cpp:24-25; the dimensions are asserted by Eigen *)
Definition reduced_matrix (C K : smat RR) (i j : nat) : R :=
  rsumn (srows C) (fun a => rsumn (srows C) (fun b => mentry C a i * mentry K a b * mentry C b j)).
Definition reduced_rhs (C : smat RR) (f : list R) : list R :=
  map (fun i => rsumn (srows C) (fun a => mentry C a i * nth a f 0)) (seq 0 (scols C)).
Definition dims_fit (C K : smat RR) (f : list R) : bool :=
  andb (andb (Nat.eqb (srows K) (srows C)) (Nat.eqb (scols K) (srows C))) (Nat.eqb (length f) (srows C)).
Definition times (C : smat RR) (x : list R) : list R :=
  map (fun i => @mat_vec RR C (fun j => nth j x 0) i) (seq 0 (srows C)).

Section Solve.
  (** EigenSparseSolve for the n x n matrix A and the right hand side b *)
  Variable linsolve : nat -> (nat -> nat -> R) -> list R -> outcome (list R).

  (** Solve, Solve.cpp:8-34 *)
  Definition solve (h : nodes) (c : constraints) (K : dofmat RR) (f : dofvec RR) (dofs : list Z) : outcome (dofvec RR) :=
    obind (olift (mat_to_eigen K dofs)) (fun Kf =>
    obind (olift (to_eigen f dofs)) (fun ff =>
    obind (constraint_blocks h c f dofs) (fun Cd =>
    obind (olift (mat_to_eigen Cd dofs)) (fun C =>
    if dims_fit C Kf ff then
      obind (linsolve (scols C) (reduced_matrix C Kf) (reduced_rhs C ff)) (fun x =>
      oassert (from_eigen (F := RR) (times C x) (bv_keys f) f))
    else UB)))).

  (** Solve.cpp:55-61 *)
  Fixpoint delta_rhs (h : nodes) (c : constraints) (f : dofvec RR) (oldTime newTime : R) (dofs : list Z) (acc : dofvec RR)
    : outcome (dofvec RR) :=
    match dofs with
    | [] => Ok acc
    | d :: ds =>
      obind (olift (mfind lt_dof d f)) (fun b =>
      obind (sparse_global_rhs h c d (length b) newTime) (fun new =>
      obind (sparse_global_rhs h c d (length b) oldTime) (fun old =>
      obind (olift (mfind lt_dof d acc)) (fun cur =>
      delta_rhs h c f oldTime newTime ds
        (mset lt_dof d (map (fun i => nth i cur 0 + (sparse_at new i - sparse_at old i)) (seq 0 (length b))) acc)))))
    end.

  (** SolveTrialState, Solve.cpp:36-81 *)
  Definition solve_trial (h : nodes) (c : constraints) (K : dofmat RR) (f : dofvec RR) (oldTime newTime : R) (dofs : list Z)
    : outcome (dofvec RR) :=
    obind (olift (mat_to_eigen K dofs)) (fun Kf =>
    obind (olift (to_eigen f dofs)) (fun ff =>
    obind (constraint_blocks h c f dofs) (fun Cd =>
    obind (olift (mat_to_eigen Cd dofs)) (fun C =>
    obind (delta_rhs h c f oldTime newTime dofs (dv_set_zero f)) (fun db =>
    obind (olift (to_eigen db dofs)) (fun dB =>
    if dims_fit C Kf ff then
      let rhs := map (fun a => nth a ff 0 + @mat_vec RR Kf (fun b => nth b dB 0) a) (seq 0 (srows C)) in
      obind (linsolve (scols C) (reduced_matrix C Kf) (reduced_rhs C rhs)) (fun x =>
      oassert (from_eigen (F := RR)
        (map (fun i => nth i (times C x) 0 - nth i dB 0) (seq 0 (srows C))) (bv_keys f) f))
    else UB)))))).
End Solve.
