(** * Proofs for C99: stiffness matrix *)
From Coq Require Import List Arith ZArith Reals Lra Lia.
From Verif Require Import Outcome RSum CellModel CellSpec CellProofs CellProofs2 ElasticModel ElasticSpec ElasticProofs PropElastic IntegrandModel InterpolationModel
  InterpolationSpec PropInterpolation EquilibriumModel EquilibriumSpec EquilibriumProofs EquilibriumProofs2.
Import ListNotations.
Local Open Scope R_scope.

Lemma apply_as_sum d n K w a : apply_stiffness d n K w a = rsum (n * d) (fun b => K a b * nth b (extract_node_values d n w) 0).
Proof.
  rewrite rsum_blocks. unfold apply_stiffness. apply rsum_ext. intros k Hk. apply rsum_ext. intros i Hi. f_equal.
  symmetry. apply nth_flat_blocks; assumption.
Qed.

Section Stiffness.
  Variables (d : nat) (E nu : R) (ps : ePlaneState) (ex eu : element) (X : nat -> nat -> R).
  Variables (cellId : Z) (numIps : nat) (ipCoord : nat -> list R) (ipWeight : nat -> R).
  Hypotheses (Ux : usable ex numIps ipCoord) (Uu : usable eu numIps ipCoord) (Dx : e_dim ex = d) (Du : e_dim eu = d).
  Let l := le_make d E nu ps.
  Let n := length (e_nodes eu).
  Let coords := flat d (length (e_nodes ex)) X.
  Let detw q := geometry_det ex d X (ipCoord q) * ipWeight q.
  Let B := the_B d ex eu X cellId ipCoord.
  Let st := the_strain d ex eu X cellId ipCoord.

  Lemma make_ip_ok q : In q (seq 0 numIps) -> make_ip cellId ipCoord coords (length (e_nodes ex)) (e_dim ex)
                (fun x => as_matrix (e_deriv ex (as_point x))) q = Ok (the_ip d ex X cellId ipCoord q).
  Proof. intros _. apply (ip_facts d ex X cellId numIps ipCoord Ux Dx q). Qed.
  Lemma det_ok q : jDet (ipJac (the_ip d ex X cellId ipCoord q)) * ipWeight q = detw q.
  Proof. unfold detw. f_equal. apply (ip_facts d ex X cellId numIps ipCoord Ux Dx q). Qed.

  Lemma elastic_gradient U : exists f, cell_Gradient d (fun _ s => Ok (le_Stress d l s)) ex coords eu d U cellId numIps ipCoord ipWeight = Ok f /\
    forall a, f a = rsum numIps (fun q => tmat_vec (Voigt_Dim d) (B q) (le_Stress d l (st q U)) a * detw q).
  Proof.
    destruct (vec_loop_Ok cellId ipCoord ipWeight _ _ _ _ (the_ip d ex X cellId ipCoord)
      (ip_Gradient d (fun _ s => Ok (le_Stress d l s)) eu d U) (fun q => tmat_vec (Voigt_Dim d) (B q) (le_Stress d l (st q U))) (seq 0 numIps) make_ip_ok) with (r := fun _ : nat => 0) as (h & Eh & V).
    - intros q Hq. destruct (B_facts d ex eu X cellId numIps ipCoord Ux Dx q) as (EB & _). unfold ip_Gradient. rewrite EB. cbn [obind].
      rewrite Nat.eqb_refl. reflexivity.
    - exists h. split; [exact Eh|]. intros a. rewrite V, rlsum_map_seq, Rplus_0_l. apply rsum_ext. intros q Hq. rewrite det_ok. reflexivity.
  Qed.

  Definition Kq (q : nat) : mat := mat_mat (Voigt_Dim d) (tmat_mat (Voigt_Dim d) (B q) (le_C l)) (B q).
  Lemma elastic_hessian U : exists K, cell_Hessian0 d (fun _ s => Ok (le_Tangent l s)) ex coords eu d U cellId numIps ipCoord ipWeight = Ok K /\
    forall a b, K a b = rsum numIps (fun q => Kq q a b * detw q).
  Proof.
    destruct (mat_loop_Ok cellId ipCoord ipWeight _ _ _ _ (the_ip d ex X cellId ipCoord)
      (ip_Hessian0 d (fun _ s => Ok (le_Tangent l s)) eu d U) Kq (seq 0 numIps) make_ip_ok) with (r := fun _ _ : nat => 0) as (h & Eh & V).
    - intros q Hq. destruct (B_facts d ex eu X cellId numIps ipCoord Ux Dx q) as (EB & _). unfold ip_Hessian0. rewrite EB. cbn [obind].
      rewrite Nat.eqb_refl. reflexivity.
    - exists h. split; [exact Eh|]. intros a b. rewrite V, rlsum_map_seq, Rplus_0_l. apply rsum_ext. intros q Hq. rewrite det_ok. reflexivity.
  Qed.

  Lemma Kq_symmetric q a b : Kq q a b = Kq q b a.
  Proof.
    unfold Kq, mat_mat, tmat_mat.
    rewrite (rsum_ext _ _ (fun j => rsum (Voigt_Dim d) (fun i => B q i a * le_C l i j * B q j b)))
      by (intros; rewrite rsum_scal_r; reflexivity).
    rewrite rsum_swap.
    apply rsum_ext. intros i Hi. rewrite <- rsum_scal_r. apply rsum_ext. intros j Hj.
    unfold l, le_make. cbn [le_C]. rewrite (C_symmetric d E nu ps i j Hi Hj). ring.
  Qed.
  Lemma Kq_apply q w a : rsum (n * d) (fun b => Kq q a b * nth b (extract_node_values d n w) 0) = tmat_vec (Voigt_Dim d) (B q) (le_Stress d l (st q w)) a.
  Proof.
    unfold Kq, mat_mat, tmat_mat, tmat_vec, le_Stress, mat_vec.
    rewrite (rsum_ext (n * d) _ (fun b => rsum (Voigt_Dim d) (fun j => rsum (Voigt_Dim d) (fun i => B q i a * le_C l i j * (B q j b * nth b (extract_node_values d n w) 0))))).
    - rewrite rsum_swap.
      rewrite (rsum_ext _ _ (fun j => rsum (Voigt_Dim d) (fun i => B q i a * le_C l i j * st q w j))).
      + rewrite rsum_swap. apply rsum_ext. intros i Hi. rewrite <- rsum_scal. apply rsum_ext. intros j Hj. ring.
      + intros j Hj. rewrite rsum_swap. apply rsum_ext. intros i Hi. rewrite rsum_scal. reflexivity.
    - intros b Hb. rewrite <- rsum_scal_r. apply rsum_ext. intros j Hj. rewrite Rmult_assoc, <- rsum_scal_r. apply rsum_ext. intros; ring.
  Qed.
  Lemma K_apply K w a : (forall a b, K a b = rsum numIps (fun q => Kq q a b * detw q)) ->
    apply_stiffness d n K w a = rsum numIps (fun q => tmat_vec (Voigt_Dim d) (B q) (le_Stress d l (st q w)) a * detw q).
  Proof.
    intros HK. rewrite apply_as_sum.
    rewrite (rsum_ext _ _ (fun b => rsum numIps (fun q => Kq q a b * nth b (extract_node_values d n w) 0 * detw q)))
      by (intros; rewrite HK, <- rsum_scal_r; apply rsum_ext; intros; ring).
    rewrite rsum_swap. apply rsum_ext. intros q Hq. rewrite rsum_scal_r, Kq_apply. reflexivity.
  Qed.
  Lemma K_energy K v w : (forall a b, K a b = rsum numIps (fun q => Kq q a b * detw q)) ->
    nodal_work d n (apply_stiffness d n K w) v = rsum numIps (fun q => rsum (Voigt_Dim d) (fun i => st q v i * le_Stress d l (st q w) i) * detw q).
  Proof.
    intros HK. rewrite work_as_sum.
    rewrite (rsum_ext _ _ (fun a => rsum numIps (fun q => rsum (Voigt_Dim d) (fun i => le_Stress d l (st q w) i * (B q i a * nth a (extract_node_values d n v) 0)) * detw q))).
    - rewrite rsum_swap. apply rsum_ext. intros q Hq. rewrite rsum_scal_r. f_equal. rewrite rsum_swap. apply rsum_ext. intros i Hi.
      rewrite rsum_scal. rewrite Rmult_comm. reflexivity.
    - intros a Ha. rewrite K_apply by exact HK. rewrite <- rsum_scal_r. apply rsum_ext. intros q Hq. unfold tmat_vec. rewrite <- !rsum_scal_r.
      apply rsum_ext. intros. ring.
  Qed.

  Hypotheses (HE : 0 < E) (Hnu : -1 < nu < 1/2).
  Lemma energy_point s : 0 <= rsum (Voigt_Dim d) (fun i => s i * le_Stress d l s i) /\
    (rsum (Voigt_Dim d) (fun i => s i * le_Stress d l s i) = 0 -> forall i, (i < Voigt_Dim d)%nat -> s i = 0).
  Proof.
    assert (D : forall m, (forall i, (i < m)%nat -> s i = 0) \/ exists i, (i < m)%nat /\ s i <> 0).
    { induction m as [|m [IH|(i & Hi & H)]]; [left; intros; lia| |right; exists i; split; [lia|exact H]].
      destruct (Req_dec (s m) 0) as [Z|Z]; [left|right; exists m; split; [lia|exact Z]].
      intros i Hi. destruct (Nat.eq_dec i m) as [->|]; [exact Z|apply IH; lia]. }
    destruct (D (Voigt_Dim d)) as [Z|Z].
    - split; [|intros _; exact Z]. right. symmetry. apply rsum_zero. intros i Hi. rewrite Z by exact Hi. ring.
    - pose proof (C40_positive_definite d E nu ps s (d_range d ex numIps ipCoord Ux Dx) HE Hnu Z) as P. fold l in P. split; [lra|intros; lra].
  Qed.
End Stiffness.

Lemma rsum_nonneg_zero n f : (forall i, (i < n)%nat -> 0 <= f i) -> rsum n f = 0 -> forall i, (i < n)%nat -> f i = 0.
Proof.
  induction n as [|n IH]; intros P Z i Hi; [lia|]. cbn [rsum] in Z.
  assert (0 <= rsum n f) by (apply rsum_nonneg; intros; apply P; lia). assert (0 <= f n) by (apply P; lia).
  destruct (Nat.eq_dec i n) as [->|]; [lra|]. apply IH; [intros; apply P; lia|lra|lia].
Qed.
