(** * C24, C25: systems in which a listed dof type is missing

    Solve and SolveTrialState reject a list of dof types of which the right hand side has no vector or the matrix has no
    block; they do not take the missing part as zero. *)
From Coq Require Import List ZArith Arith Bool Reals Lra Lia.
From Verif Require Import Algebra Outcome DofModel DofProofs ConstraintModel SolveModel.
Import ListNotations.
Local Open Scope R_scope.

Lemma missing_vector (f : dofvec RR) d : ~ In d (bv_keys f) -> mfind lt_dof d f = None.
Proof.
  intros H. destruct (mfind lt_dof d f) as [b|] eqn:E; [|reflexivity]. exfalso. apply H. apply mfind_in in E; [|exact ltdof_total].
  apply in_map_iff. exists (d, b). auto.
Qed.
Lemma missing_block (K : dofmat RR) a b : ~ In (a, b) (bv_keys K) -> mat_at K a b = None.
Proof.
  intros H. unfold mat_at. destruct (mfind lt_dofpair (a, b) K) as [m|] eqn:E; [|reflexivity]. exfalso. apply H.
  apply mfind_in in E; [|exact ltpair_total]. apply in_map_iff. exists ((a, b), m). auto.
Qed.
Lemma to_eigen_missing (f : dofvec RR) d dofs : In d dofs -> ~ In d (bv_keys f) -> to_eigen f dofs = None.
Proof.
  intros Hi Hm. induction dofs as [|e dofs IH]; [destruct Hi|]. cbn [to_eigen]. destruct Hi as [-> |Hi].
  - rewrite missing_vector by exact Hm. reflexivity.
  - rewrite (IH Hi). destruct (mfind lt_dof e f); reflexivity.
Qed.
Lemma row_missing (K : dofmat RR) a b s c dofs : In b dofs -> mat_at K a b = None -> row_triplets K a s c dofs = None.
Proof.
  intros Hi Hm. revert c. induction dofs as [|e dofs IH]; intros c; [destruct Hi|]. cbn [row_triplets]. destruct Hi as [-> |Hi].
  - rewrite Hm. reflexivity.
  - destruct (mat_at K a e); [|reflexivity]. rewrite (IH Hi). reflexivity.
Qed.
Lemma all_missing (K : dofmat RR) a b rows dofs : In a rows -> In b dofs -> mat_at K a b = None -> forall s, all_triplets K s rows dofs = None.
Proof.
  intros Ha Hb Hm. induction rows as [|e rows IH]; intros s; [destruct Ha|]. cbn [all_triplets]. destruct Ha as [-> |Ha].
  - rewrite (row_missing K a b) by assumption. reflexivity.
  - destruct (row_triplets K e s 0 dofs); [|reflexivity]. destruct (mat_at K e e); [|reflexivity]. rewrite (IH Ha). reflexivity.
Qed.
Lemma mat_to_eigen_missing (K : dofmat RR) a b dofs : In a dofs -> In b dofs -> ~ In (a, b) (bv_keys K) -> mat_to_eigen K dofs = None.
Proof.
  intros Ha Hb Hm. apply missing_block in Hm. unfold mat_to_eigen. destruct dofs as [|d [|d' dofs]]; [destruct Ha| |].
  - destruct Ha as [<- |[]], Hb as [<- |[]]. exact Hm.
  - rewrite (all_missing K a b) by assumption. reflexivity.
Qed.

Theorem C24_missing_dof_rejected : forall linsolve h c K f dofs,
  (exists d, In d dofs /\ ~ In d (bv_keys f)) \/ (exists a b, In a dofs /\ In b dofs /\ ~ In (a, b) (bv_keys K)) ->
  solve linsolve h c K f dofs = Throw.
Proof.
  intros linsolve h c K f dofs [(d & Hi & Hm)|(a & b & Ha & Hb & Hm)]; unfold solve.
  - rewrite (to_eigen_missing f d) by assumption. destruct (mat_to_eigen K dofs); reflexivity.
  - rewrite (mat_to_eigen_missing K a b) by assumption. reflexivity.
Qed.
Print Assumptions C24_missing_dof_rejected.

Theorem C25_missing_dof_rejected : forall linsolve h c K f oldTime newTime dofs,
  (exists d, In d dofs /\ ~ In d (bv_keys f)) \/ (exists a b, In a dofs /\ In b dofs /\ ~ In (a, b) (bv_keys K)) ->
  solve_trial linsolve h c K f oldTime newTime dofs = Throw.
Proof.
  intros linsolve h c K f t0 t1 dofs [(d & Hi & Hm)|(a & b & Ha & Hb & Hm)]; unfold solve_trial.
  - rewrite (to_eigen_missing f d) by assumption. destruct (mat_to_eigen K dofs); reflexivity.
  - rewrite (mat_to_eigen_missing K a b) by assumption. reflexivity.
Qed.
Print Assumptions C25_missing_dof_rejected.

(** two dof types, the coupling block of the second and the first is missing *)
Example C24_missing_case linsolve h c :
  let block := mkMat (F := RR) 1 1 [(0%nat, 0%nat, 1)] in
  solve linsolve h c [((0, 0)%Z, block); ((0, 1)%Z, block); ((1, 1)%Z, block)] [(0%Z, [1]); (1%Z, [2])] [0; 1]%Z = Throw.
Proof.
  intros block. apply C24_missing_dof_rejected. right. exists 1%Z, 0%Z. split; [cbn; auto|]. split; [cbn; auto|].
  cbn. intuition discriminate.
Qed.
