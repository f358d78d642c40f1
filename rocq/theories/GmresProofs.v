(** * Proofs for C85 *)
From Coq Require Import List Arith Bool Reals Lra Lia Psatz.
From Verif Require Import RSum Outcome AdaptiveModel AdaptiveProofs CollisionModel CollisionProofs2 GmresModel.
Import ListNotations.
Local Open Scope R_scope.

(** ** rotations *)
Lemma two_changed m l (f g : nat -> R) : (S l < m)%nat -> (forall r, r <> l -> r <> S l -> f r = g r) -> f l + f (S l) = g l + g (S l) ->
  rsum m f = rsum m g.
Proof.
  intros Hm Ho He. replace m with (S (S l) + (m - S (S l)))%nat by lia. rewrite !rsum_split. f_equal.
  - cbn [rsum]. rewrite (rsum_ext l f g) by (intros i Hi; apply Ho; lia). lra.
  - apply rsum_ext. intros i Hi. apply Ho; lia.
Qed.
Lemma rot_l l g v : rot l g v l = fst g * v l - snd g * v (S l).
Proof. unfold rot. rewrite Nat.eqb_refl. reflexivity. Qed.
Lemma rot_Sl l g v : rot l g v (S l) = snd g * v l + fst g * v (S l).
Proof. unfold rot. destruct (Nat.eqb_spec (S l) l); [lia|]. rewrite Nat.eqb_refl. reflexivity. Qed.
Lemma rot_other l g v r : r <> l -> r <> S l -> rot l g v r = v r.
Proof. intros H1 H2. unfold rot. apply Nat.eqb_neq in H1, H2. rewrite H1, H2. reflexivity. Qed.
Definition rotation (g : R * R) : Prop := fst g * fst g + snd g * snd g = 1.
Lemma rot_norm m l g v : (S l < m)%nat -> rotation g -> rsum m (fun r => rot l g v r * rot l g v r) = rsum m (fun r => v r * v r).
Proof.
  intros Hm Hg. apply (two_changed m l); [exact Hm| |].
  - intros r H1 H2. rewrite rot_other by assumption. reflexivity.
  - rewrite rot_l, rot_Sl. unfold rotation in Hg.
    transitivity ((fst g * fst g + snd g * snd g) * (v l * v l + v (S l) * v (S l))); [ring|rewrite Hg; ring].
Qed.
Lemma rot_ext l g v w : (forall r, v r = w r) -> forall r, rot l g v r = rot l g w r.
Proof. intros H r. unfold rot. rewrite !H. reflexivity. Qed.
Lemma rots_ext G m v w : (forall r, v r = w r) -> forall r, rots G m v r = rots G m w r.
Proof. intros H. induction m as [|m IH]; cbn [rots]; [exact H|]. apply rot_ext. exact IH. Qed.
Lemma rots_G G G' m v : (forall j, (j < m)%nat -> G j = G' j) -> forall r, rots G m v r = rots G' m v r.
Proof.
  induction m as [|m IH]; intros H r; cbn [rots]; [reflexivity|]. rewrite (H m) by lia. apply rot_ext. apply IH. intros j Hj. apply H. lia.
Qed.
Lemma rot_lin l g v w c r : rot l g (fun k => v k - c * w k) r = rot l g v r - c * rot l g w r.
Proof. unfold rot. destruct (Nat.eqb r l); [ring|]. destruct (Nat.eqb r (S l)); ring. Qed.
Lemma rots_lin G m v w c r : rots G m (fun k => v k - c * w k) r = rots G m v r - c * rots G m w r.
Proof. revert r. induction m as [|m IH]; intros r; cbn [rots]; [reflexivity|]. rewrite <- rot_lin. apply rot_ext. exact IH. Qed.
Lemma rots_sum G m v (W : nat -> gvec) (y : nat -> R) k r :
  rots G m (fun i => v i - rsum k (fun j => W j i * y j)) r = rots G m v r - rsum k (fun j => rots G m (W j) r * y j).
Proof.
  revert r. induction k as [|k IH]; intros r; cbn [rsum].
  - rewrite (rots_ext G m _ v) by (intros; ring). ring.
  - rewrite (rots_ext G m _ (fun i => (v i - rsum k (fun j => W j i * y j)) - y k * W k i)) by (intros; ring).
    rewrite rots_lin, IH. ring.
Qed.
Lemma rots_norm G m k v : (m < k)%nat -> (forall j, (j < m)%nat -> rotation (G j)) ->
  rsum k (fun r => rots G m v r * rots G m v r) = rsum k (fun r => v r * v r).
Proof.
  induction m as [|m IH]; intros Hk HG; cbn [rots]; [reflexivity|]. rewrite rot_norm; [apply IH; [lia|intros; apply HG; lia]|lia|apply HG; lia].
Qed.
(** rows beyond the last rotated one are untouched *)
Lemma rots_above G m v r : (m < r)%nat -> rots G m v r = v r.
Proof. induction m as [|m IH]; intros H; cbn [rots]; [reflexivity|]. rewrite rot_other by lia. apply IH. lia. Qed.
(** rotations of zero entries change nothing *)
Lemma rot_zero l g v : v l = 0 -> v (S l) = 0 -> forall r, rot l g v r = v r.
Proof. intros H1 H2 r. unfold rot. destruct (Nat.eqb_spec r l) as [->|]; [rewrite H1, H2; ring|]. destruct (Nat.eqb_spec r (S l)) as [->|]; [rewrite H1, H2; ring|reflexivity]. Qed.
Lemma rots_more G j m v : (j <= m)%nat -> (forall r, (j <= r)%nat -> rots G j v r = 0) -> forall r, rots G m v r = rots G j v r.
Proof.
  intros Hj Hz. induction m as [|m IH]; intros r.
  - replace j with O by lia. reflexivity.
  - destruct (Nat.eq_dec j (S m)) as [->|Hne]; [reflexivity|]. cbn [rots]. rewrite rot_zero; [apply IH; lia| |]; rewrite IH by lia; apply Hz; lia.
Qed.

(** ** scalar products *)
Lemma gdot_sub n x y z c : gdot n (fun k => x k - c * y k) z = gdot n x z - c * gdot n y z.
Proof. unfold gdot. rewrite <- rsum_scal, <- rsum_minus. apply rsum_ext. intros. ring. Qed.
Lemma gdot_sym n x y : gdot n x y = gdot n y x.
Proof. apply rsum_ext. intros. ring. Qed.
Lemma gdot_nonneg n x : 0 <= gdot n x x.
Proof. apply rsum_nonneg. intros i _. apply Rle_0_sqr. Qed.
Lemma gdot_ext n x x' y y' : (forall k, (k < n)%nat -> x k = x' k) -> (forall k, (k < n)%nat -> y k = y' k) -> gdot n x y = gdot n x' y'.
Proof. intros H1 H2. apply rsum_ext. intros i Hi. rewrite H1, H2 by exact Hi. reflexivity. Qed.
Lemma gnorm_sq n x : gnorm n x * gnorm n x = gdot n x x.
Proof. apply sqrt_sqrt. apply gdot_nonneg. Qed.
Lemma gnorm_nonneg n x : 0 <= gnorm n x.
Proof. apply sqrt_pos. Qed.
Lemma gdot_zero n x : gdot n x x = 0 -> forall k, (k < n)%nat -> x k = 0.
Proof.
  unfold gdot. induction n as [|n IH]; intros H k Hk; [lia|]. cbn [rsum] in H.
  assert (A: 0 <= rsum n (fun i => x i * x i)) by (apply rsum_nonneg; intros; apply Rle_0_sqr). pose proof (Rle_0_sqr (x n)) as B. unfold Rsqr in B.
  assert (rsum n (fun i => x i * x i) = 0) by lra. assert (x n * x n = 0) by lra.
  destruct (Nat.eq_dec k n) as [->|]; [apply Rmult_integral in H1; tauto|apply IH; [assumption|lia]].
Qed.

(** [V 0 .. V (m-1)] are orthonormal *)
Definition ortho (n : nat) (V : nat -> gvec) (m : nat) : Prop :=
  forall l j, (l < m)%nat -> (j < m)%nat -> gdot n (V l) (V j) = if Nat.eqb l j then 1 else 0.

(** a combination of orthonormal vectors *)
Lemma dot_comb n V m d j : ortho n V m -> (j < m)%nat -> gdot n (fun k => rsum m (fun l => d l * V l k)) (V j) = d j.
Proof.
  intros Ho Hj. unfold gdot. rewrite (rsum_ext n _ (fun i => rsum m (fun l => d l * (V l i * V j i)))) by (intros; rewrite <- rsum_scal_r; apply rsum_ext; intros; ring).
  rewrite rsum_swap. rewrite (rsum_single m j); [|exact Hj|].
  - rewrite rsum_scal. change (rsum n (fun i => V j i * V j i)) with (gdot n (V j) (V j)). rewrite Ho, Nat.eqb_refl by assumption. ring.
  - intros l Hl Hne. rewrite rsum_scal. change (rsum n (fun i => V l i * V j i)) with (gdot n (V l) (V j)). rewrite Ho by assumption.
    apply Nat.eqb_neq in Hne. rewrite Hne. ring.
Qed.
Lemma norm_comb n V m d : ortho n V m -> 
  gdot n (fun k => rsum m (fun l => d l * V l k)) (fun k => rsum m (fun l => d l * V l k)) = rsum m (fun l => d l * d l).
Proof.
  intros Ho. unfold gdot at 1.
  rewrite (rsum_ext n _ (fun i => rsum m (fun j => d j * (rsum m (fun l => d l * V l i) * V j i)))) by (intros; rewrite <- rsum_scal; apply rsum_ext; intros; ring).
  rewrite rsum_swap. apply rsum_ext. intros j Hj. rewrite rsum_scal. f_equal. apply (dot_comb n V m d j Ho Hj).
Qed.

(** ** Gram-Schmidt *)
Lemma gram_spec n V w m : ortho n V m -> let h := fst (gram n V m w) in let w' := snd (gram n V m w) in
  (forall k, w' k = w k - rsum m (fun l => h l * V l k)) /\ (forall l, (l < m)%nat -> gdot n w' (V l) = 0) /\ (forall l, (m <= l)%nat -> h l = 0).
Proof.
  induction m as [|m IH]; intros Ho; cbv zeta; cbn [gram].
  - cbn [fst snd rsum]. split; [intros; ring|]. split; [intros; lia|reflexivity].
  - assert (Ho': ortho n V m) by (intros l j Hl Hj; apply Ho; lia). specialize (IH Ho'). cbv zeta in IH.
    destruct (gram n V m w) as [h w1]. cbn [fst snd] in *. destruct IH as (A & B & C). split; [|split].
    + intros k. rewrite A. cbn [rsum]. rewrite Nat.eqb_refl. rewrite (rsum_ext m (fun l => (if Nat.eqb l m then _ else h l) * V l k) (fun l => h l * V l k)); [ring|].
      intros l Hl. destruct (Nat.eqb_spec l m); [lia|reflexivity].
    + intros l Hl. rewrite gdot_sub. destruct (Nat.eq_dec l m) as [->|Hne].
      * rewrite Ho, Nat.eqb_refl by lia. ring.
      * rewrite B by lia. rewrite Ho by lia. destruct (Nat.eqb_spec m l); [lia|]. ring.
    + intros l Hl. destruct (Nat.eqb_spec l m); [lia|]. apply C. lia.
Qed.

(** ** the triangular system *)
Definition solves (Hc : nat -> gvec) (s y : gvec) (m l : nat) : Prop := rsum m (fun j => Hc j l * y j) = s l.
Lemma back_solve_spec Hc s m : (forall j l, (j < m)%nat -> (j < l)%nat -> Hc j l = 0) -> forall k acc y, (k <= m)%nat ->
  (forall l, (k <= l < m)%nat -> solves Hc s acc m l) -> (forall j, (j < k)%nat -> acc j = 0) -> back_solve Hc s m k acc = Some y ->
  forall l, (l < m)%nat -> solves Hc s y m l.
Proof.
  intros Hup. induction k as [|k IH]; intros acc y Hk Hs Hz E; cbn [back_solve] in E.
  - injection E as <-. intros l Hl. apply Hs. lia.
  - set (num := s k - rsum m (fun j => if Nat.ltb k j then Hc j k * acc j else 0)) in *.
    assert (Split: forall a, rsum m (fun j => Hc j k * (if Nat.eqb j k then a else acc j)) = Hc k k * a + rsum m (fun j => if Nat.ltb k j then Hc j k * acc j else 0)).
    { intros a. transitivity (rsum m (fun j => (if Nat.eqb j k then Hc k k * a else 0) + (if Nat.ltb k j then Hc j k * acc j else 0))).
      - apply rsum_ext. intros j Hj. destruct (Nat.eqb_spec j k) as [->|Hne]; [rewrite Nat.ltb_irrefl; ring|].
        destruct (Nat.ltb_spec k j); [ring|]. rewrite Hz by lia. ring.
      - rewrite rsum_plus. f_equal. rewrite (rsum_single m k); [rewrite Nat.eqb_refl; reflexivity|lia|]. intros i Hi Hne. apply Nat.eqb_neq in Hne. rewrite Hne. reflexivity. }
    assert (Step: forall a, Hc k k * a = num -> forall l, (k <= l < m)%nat -> solves Hc s (fun j => if Nat.eqb j k then a else acc j) m l).
    { intros a Ha l Hl. unfold solves. destruct (Nat.eq_dec l k) as [->|Hne]; [rewrite Split; unfold num in Ha; lra|].
      rewrite <- (Hs l ltac:(lia)). apply rsum_ext. intros j Hj. destruct (Nat.eqb_spec j k) as [->|]; [|reflexivity]. rewrite (Hup k l) by lia. ring. }
    assert (Zero: forall a j, (j < k)%nat -> (if Nat.eqb j k then a else acc j) = 0).
    { intros a j Hj. destruct (Nat.eqb_spec j k); [lia|]. apply Hz. lia. }
    destruct (reqb_spec num 0) as [(Eq & H0)|(Eq & H0)]; rewrite Eq in E.
    + apply (IH _ y ltac:(lia) (Step 0 ltac:(lra)) (Zero 0) E).
    + destruct (reqb_spec (Hc k k) 0) as [(Eq2 & H1)|(Eq2 & H1)]; rewrite Eq2 in E; [discriminate|].
      apply (IH _ y ltac:(lia) (Step (num / Hc k k) ltac:(field; exact H1)) (Zero _) E).
Qed.
Lemma back_solve_defined Hc s m k acc : (forall l, (l < k)%nat -> Hc l l <> 0) -> exists y, back_solve Hc s m k acc = Some y.
Proof.
  revert acc. induction k as [|k IH]; intros acc H; cbn [back_solve]; [eauto|].
  destruct (reqb_spec (s k - rsum m (fun j => if Nat.ltb k j then Hc j k * acc j else 0)) 0) as [(-> & _)|(-> & _)].
  - apply IH. intros; apply H; lia.
  - destruct (reqb_spec (Hc k k) 0) as [(_ & F)|(-> & _)]; [exfalso; apply (H k); [lia|exact F]|]. apply IH. intros; apply H; lia.
Qed.

(** ** the loop over the columns *)
Section Columns.
  Variables (n : nat) (A P : gmat) (b : gvec) (givens : R -> R -> R * R) (tolerance : R) (krylovDimension maxNumRestarts : nat).
  (** what makeGivens delivers: a rotation, which turns (p, q) into (_, 0) *)
  Hypothesis Hg : forall p q, rotation (givens p q) /\ snd (givens p q) * p + fst (givens p q) * q = 0.

  Local Notation M v := (gmul n P (gmul n A v)).
  Local Notation res := (residual n A P b).
  Definition first (rN : R) : gvec := fun k => if Nat.eqb k 0 then rN else 0.

  Record inv (r : gvec) (rN : R) (m : nat) (st : arnoldi) (raw : nat -> gvec) (nan : bool) : Prop := mkInv {
    i_nan : nan = true -> (0 < m)%nat /\ raw (pred m) m = 0;
    i_V : ortho n (aV st) (if nan then m else S m);
    i_r : forall k, (k < n)%nat -> r k = rN * aV st 0%nat k;
    i_M : forall j k, (j < m)%nat -> (k < n)%nat -> M (aV st j) k = rsum (S (S j)) (fun l => raw j l * aV st l k);
    i_raw : forall j l, (j < m)%nat -> (S (S j) <= l)%nat -> raw j l = 0;
    i_H : forall j l, (j < m)%nat -> aH st j l = rots (aG st) (S j) (raw j) l;
    i_tri : forall j l, (j < m)%nat -> (j < l)%nat -> aH st j l = 0;
    i_S : forall l, aS st l = rots (aG st) m (first rN) l;
    i_G : forall j, (j < m)%nat -> rotation (aG st j) }.

  Lemma gmul_ext B v w : (forall k, (k < n)%nat -> v k = w k) -> forall k, gmul n B v k = gmul n B w k.
  Proof. intros H k. apply rsum_ext. intros j Hj. rewrite H by exact Hj. reflexivity. Qed.
  Lemma gmul_comb B m (V : nat -> gvec) y k : gmul n B (fun i => rsum m (fun j => V j i * y j)) k = rsum m (fun j => gmul n B (V j) k * y j).
  Proof.
    unfold gmul. rewrite (rsum_ext n _ (fun j => rsum m (fun l => B k j * V l j * y l))) by (intros; rewrite <- rsum_scal; apply rsum_ext; intros; ring).
    rewrite rsum_swap. apply rsum_ext. intros l _. rewrite <- rsum_scal_r. apply rsum_ext. intros; ring.
  Qed.
  Lemma gmul_sub B v w k : gmul n B (fun i => v i - w i) k = gmul n B v k - gmul n B w k.
  Proof. unfold gmul. rewrite <- rsum_minus. apply rsum_ext. intros; ring. Qed.
  Lemma gmul_add B v w k : gmul n B (fun i => v i + w i) k = gmul n B v k + gmul n B w k.
  Proof. unfold gmul. rewrite <- rsum_plus. apply rsum_ext. intros; ring. Qed.
  Lemma M_comb m (V : nat -> gvec) y k : M (fun i => rsum m (fun j => V j i * y j)) k = rsum m (fun j => M (V j) k * y j).
  Proof. rewrite (gmul_ext P _ (fun i => rsum m (fun j => gmul n A (V j) i * y j))) by (intros; apply gmul_comb). apply (gmul_comb P m (fun j => gmul n A (V j)) y k). Qed.
  Lemma res_add x d k : res (fun i => x i + d i) k = res x k - M d k.
  Proof.
    unfold residual. rewrite <- gmul_sub. apply gmul_ext. intros i _. rewrite gmul_add. ring.
  Qed.

  (** the residual of every point of the affine space, in the rotated coordinates *)
  Lemma residual_of x rN m st raw nan (y : gvec) : inv (res x) rN m st raw nan ->
    gdot n (res (fun k => x k + rsum m (fun j => aV st j k * y j))) (res (fun k => x k + rsum m (fun j => aV st j k * y j)))
    = rsum m (fun l => (aS st l - rsum m (fun j => aH st j l * y j)) * (aS st l - rsum m (fun j => aH st j l * y j))) + aS st m * aS st m.
  Proof.
    intros I. set (d := fun l => first rN l - rsum m (fun j => raw j l * y j)).
    assert (E: forall k, (k < n)%nat -> res (fun i => x i + rsum m (fun j => aV st j i * y j)) k = rsum (S m) (fun l => d l * aV st l k)).
    { intros k Hk. rewrite res_add, M_comb. rewrite (i_r _ _ _ _ _ _ I k Hk).
      rewrite (rsum_ext m _ (fun j => rsum (S m) (fun l => raw j l * y j * aV st l k))).
      2:{ intros j Hj. rewrite (i_M _ _ _ _ _ _ I j k Hj Hk), <- rsum_scal_r.
          replace (S m) with (S (S j) + (m - S j))%nat by lia. rewrite rsum_split. rewrite (rsum_zero (m - S j)).
          - rewrite Rplus_0_r. apply rsum_ext. intros; ring.
          - intros l Hl. rewrite (i_raw _ _ _ _ _ _ I j) by lia. ring. }
      rewrite rsum_swap.
      rewrite (rsum_ext (S m) (fun l => d l * aV st l k) (fun l => first rN l * aV st l k - rsum m (fun j => raw j l * y j * aV st l k))).
      2:{ intros l _. unfold d. rewrite rsum_scal_r. ring. }
      rewrite rsum_minus. f_equal. rewrite (rsum_single (S m) 0); [reflexivity|lia|]. intros l Hl Hne. unfold first. apply Nat.eqb_neq in Hne. rewrite Hne. ring. }
    rewrite (gdot_ext n _ _ _ _ E E).
    assert (Norm: gdot n (fun k => rsum (S m) (fun l => d l * aV st l k)) (fun k => rsum (S m) (fun l => d l * aV st l k)) = rsum (S m) (fun l => d l * d l)).
    { destruct nan.
      - destruct (i_nan _ _ _ _ _ _ I eq_refl) as [Hm Hz].
        assert (D: d m = 0).
        { unfold d, first. destruct (Nat.eqb_spec m 0); [lia|]. rewrite rsum_zero; [ring|]. intros j Hj.
          destruct (Nat.eq_dec j (pred m)) as [->|]; [rewrite Hz; ring|]. rewrite (i_raw _ _ _ _ _ _ I j) by lia. ring. }
        rewrite (gdot_ext n _ (fun k => rsum m (fun l => d l * aV st l k)) _ (fun k => rsum m (fun l => d l * aV st l k)))
          by (intros; cbn [rsum]; rewrite D; ring).
        rewrite norm_comb by exact (i_V _ _ _ _ _ _ I). cbn [rsum]. rewrite D. ring.
      - apply norm_comb. exact (i_V _ _ _ _ _ _ I). }
    rewrite Norm. rewrite <- (rots_norm (aG st) m (S m) d); [|lia|exact (i_G _ _ _ _ _ _ I)]. cbn [rsum].
    assert (L: forall l, rots (aG st) m d l = aS st l - rsum m (fun j => aH st j l * y j)).
    { intros l. unfold d. rewrite rots_sum. rewrite (i_S _ _ _ _ _ _ I l). f_equal. apply rsum_ext. intros j Hj. f_equal.
      rewrite (i_H _ _ _ _ _ _ I j l Hj). apply rots_more; [lia|]. intros r Hr. rewrite <- (i_H _ _ _ _ _ _ I j r Hj). apply (i_tri _ _ _ _ _ _ I); lia. }
    rewrite (rsum_ext m (fun r => rots (aG st) m d r * rots (aG st) m d r) (fun l => (aS st l - rsum m (fun j => aH st j l * y j)) * (aS st l - rsum m (fun j => aH st j l * y j))))
      by (intros; rewrite L; reflexivity).
    rewrite L. rewrite (rsum_zero m (fun j => aH st j m * y j)); [ring|]. intros j Hj. rewrite (i_tri _ _ _ _ _ _ I) by lia. ring.
  Qed.

  Lemma s_bound r rN m st raw nan : inv r rN m st raw nan -> aS st m * aS st m <= rN * rN.
  Proof.
    intros I. pose proof (rots_norm (aG st) m (S m) (first rN) ltac:(lia) (i_G _ _ _ _ _ _ I)) as E.
    rewrite (rsum_ext (S m) (fun k => rots (aG st) m (first rN) k * _) (fun k => aS st k * aS st k)) in E by (intros; rewrite (i_S _ _ _ _ _ _ I); reflexivity).
    cut (rsum (S m) (fun k => first rN k * first rN k) = rN * rN).
    - intros F. rewrite F in E. cbn [rsum] in E. assert (0 <= rsum m (fun k => aS st k * aS st k)) by (apply rsum_nonneg; intros; apply Rle_0_sqr). lra.
    - rewrite (rsum_single (S m) 0); [reflexivity|lia|]. intros l Hl Hne. unfold first. apply Nat.eqb_neq in Hne. rewrite Hne. ring.
  Qed.

  Lemma corrected_residual x rN m st raw nan x' : inv (res x) rN m st raw nan -> corrected st m x = Some x' ->
    gdot n (res x') (res x') = aS st m * aS st m /\
    (forall y : gvec, gdot n (res x') (res x') <= gdot n (res (fun k => x k + rsum m (fun j => aV st j k * y j))) (res (fun k => x k + rsum m (fun j => aV st j k * y j)))).
  Proof.
    intros I E. unfold corrected in E. destruct (back_solve (aH st) (aS st) m m (fun _ => 0)) as [y|] eqn:B; [|discriminate]. injection E as <-.
    assert (Z: gdot n (res (fun k => x k + rsum m (fun j => aV st j k * y j))) (res (fun k => x k + rsum m (fun j => aV st j k * y j))) = aS st m * aS st m).
    { rewrite (residual_of x rN m st raw nan y I). rewrite rsum_zero; [ring|]. intros l Hl.
      pose proof (back_solve_spec (aH st) (aS st) m (i_tri _ _ _ _ _ _ I) m (fun _ => 0) y (le_n m) ltac:(intros; lia) ltac:(reflexivity) B l Hl) as F.
      unfold solves in F. rewrite F. ring. }
    split; [exact Z|]. intros y'. rewrite Z, (residual_of x rN m st raw nan y' I).
    assert (0 <= rsum m (fun l => (aS st l - rsum m (fun j => aH st j l * y' j)) * (aS st l - rsum m (fun j => aH st j l * y' j))))
      by (apply rsum_nonneg; intros; apply Rle_0_sqr). lra.
  Qed.

  (** one more column *)
  Lemma column_inv r rN m st raw st' nan' : inv r rN m st raw false -> column n A P givens st m = (st', nan') ->
    exists raw', inv r rN (S m) st' raw' nan' /\ (forall j, (j < S m)%nat -> aV st' j = aV st j) /\
      (forall j, (j < m)%nat -> aH st' j = aH st j) /\ (nan' = true -> aH st' m m <> 0 -> aS st' (S m) = 0).
  Proof.
    intros I E. unfold column in E. pose proof (i_V _ _ _ _ _ _ I) as HV. cbv iota in HV.
    pose proof (gram_spec n (aV st) (M (aV st m)) (S m) HV) as Gr. cbv zeta in Gr.
    destruct (gram n (aV st) (S m) (M (aV st m))) as [h w] eqn:Eg. cbn [fst snd] in Gr. destruct Gr as (G1 & G2 & G3).
    set (nw := gnorm n w) in *. set (col := upd_col h (S m) nw) in *. set (col1 := rots (aG st) m col) in *.
    set (g := givens (col1 m) (col1 (S m))) in *. injection E as <- <-. destruct (Hg (col1 m) (col1 (S m))) as [R0 R1]. fold g in R0, R1.
    set (V' := upd_col (aV st) (S m) (fun k => w k / nw)) in *. set (G' := upd_col (aG st) m g).
    assert (Vold: forall j, (j < S m)%nat -> V' j = aV st j) by (intros j Hj; unfold V', upd_col; destruct (Nat.eqb_spec j (S m)); [lia|reflexivity]).
    assert (Vnew: V' (S m) = fun k => w k / nw) by (unfold V', upd_col; rewrite Nat.eqb_refl; reflexivity).
    assert (Gold: forall j, (j < m)%nat -> G' j = aG st j) by (intros j Hj; unfold G', upd_col; destruct (Nat.eqb_spec j m); [lia|reflexivity]).
    assert (Gnew: G' m = g) by (unfold G', upd_col; rewrite Nat.eqb_refl; reflexivity).
    assert (nwsq: nw * nw = gdot n w w) by apply gnorm_sq.
    assert (col_m: col (S m) = nw) by (unfold col, upd_col; rewrite Nat.eqb_refl; reflexivity).
    assert (col_above: forall l, (S (S m) <= l)%nat -> col l = 0) by (intros l Hl; unfold col, upd_col; destruct (Nat.eqb_spec l (S m)); [lia|]; apply G3; lia).
    assert (wV: forall k, (k < n)%nat -> M (aV st m) k = rsum (S (S m)) (fun l => col l * V' l k)).
    { intros k Hk. change (rsum (S (S m)) (fun l => col l * V' l k)) with (rsum (S m) (fun l => col l * V' l k) + col (S m) * V' (S m) k).
      rewrite col_m, Vnew.
      rewrite (rsum_ext (S m) (fun l => col l * V' l k) (fun l => h l * aV st l k)).
      2:{ intros l Hl. rewrite Vold by exact Hl. unfold col, upd_col. destruct (Nat.eqb_spec l (S m)); [lia|reflexivity]. }
      replace (nw * (w k / nw)) with (w k); [rewrite G1; ring|]. destruct (Req_dec nw 0) as [Hz|Hnz].
      - rewrite Hz in *. rewrite (gdot_zero n w) by (try exact Hk; lra). unfold Rdiv. ring.
      - field. exact Hnz. }
    exists (fun j => if Nat.eqb j m then col else raw j). split; [|split; [|split]].
    - constructor; cbn [aV aH aG aS].
      + intros En. destruct (reqb_spec nw 0) as [(_ & Hz)|(F & _)]; [|congruence]. split; [lia|]. cbn [pred]. rewrite Nat.eqb_refl, col_m. exact Hz.
      + destruct (reqb_spec nw 0) as [(-> & Hz)|(-> & Hnz)].
        * intros l j Hl Hj. rewrite !Vold by assumption. apply HV; assumption.
        * assert (Half: forall l, (l < S m)%nat -> gdot n (V' (S m)) (V' l) = 0).
          { intros l Hl. rewrite Vnew, Vold by exact Hl. transitivity (/ nw * gdot n w (aV st l)); [|rewrite G2 by exact Hl; ring].
            unfold gdot. rewrite <- rsum_scal. apply rsum_ext. intros; unfold Rdiv; ring. }
          intros l j Hl Hj. destruct (Nat.eq_dec l (S m)) as [->|H1]; destruct (Nat.eq_dec j (S m)) as [->|H2].
          { rewrite Nat.eqb_refl, Vnew. transitivity (/ nw * / nw * gdot n w w); [|rewrite <- nwsq; field; exact Hnz].
            unfold gdot. rewrite <- rsum_scal. apply rsum_ext. intros; unfold Rdiv; ring. }
          { destruct (Nat.eqb_spec (S m) j); [lia|]. apply Half. lia. }
          { destruct (Nat.eqb_spec l (S m)); [lia|]. rewrite gdot_sym. apply Half. lia. }
          { rewrite !Vold by lia. apply HV; lia. }
      + intros k Hk. rewrite Vold by lia. apply (i_r _ _ _ _ _ _ I k Hk).
      + intros j k Hj Hk. destruct (Nat.eqb_spec j m) as [->|Hne].
        * rewrite Vold by lia. apply wV. exact Hk.
        * rewrite Vold by lia. rewrite (i_M _ _ _ _ _ _ I j k) by (try exact Hk; lia). apply rsum_ext. intros l Hl. rewrite Vold by lia. reflexivity.
      + intros j l Hj Hl. destruct (Nat.eqb_spec j m) as [->|Hne]; [apply col_above; exact Hl|]. apply (i_raw _ _ _ _ _ _ I); lia.
      + intros j l Hj. destruct (Nat.eqb_spec j m) as [->|Hne].
        * unfold upd_col. rewrite Nat.eqb_refl. cbn [rots]. fold G'. rewrite Gnew. apply rot_ext. intros q. apply rots_G. intros i Hi. symmetry. apply Gold. exact Hi.
        * unfold upd_col at 1. apply Nat.eqb_neq in Hne as Hne'. rewrite Hne'. rewrite (i_H _ _ _ _ _ _ I) by lia. apply rots_G. intros i Hi. symmetry. apply Gold. lia.
      + intros j l Hj Hl. unfold upd_col. destruct (Nat.eqb_spec j m) as [->|Hne]; [|apply (i_tri _ _ _ _ _ _ I); lia].
        destruct (Nat.eq_dec l (S m)) as [->|]; [rewrite rot_Sl; exact R1|]. rewrite rot_other by lia. unfold col1. rewrite rots_above by lia. apply col_above. lia.
      + intros l. cbn [rots]. fold G'. rewrite Gnew. apply rot_ext. intros q. rewrite (i_S _ _ _ _ _ _ I). apply rots_G. intros i Hi. symmetry. apply Gold. exact Hi.
      + intros j Hj. fold G'. destruct (Nat.eq_dec j m) as [->|]; [rewrite Gnew; exact R0|]. rewrite Gold by lia. apply (i_G _ _ _ _ _ _ I). lia.
    - intros j Hj. cbn [aV]. apply Vold. exact Hj.
    - intros j Hj. cbn [aH]. unfold upd_col. destruct (Nat.eqb_spec j m); [lia|reflexivity].
    - intros En Hd. cbn [aH aS] in *. destruct (reqb_spec nw 0) as [(_ & Hz)|(F & _)]; [|congruence].
      assert (C: col1 (S m) = 0) by (unfold col1; rewrite rots_above by lia; rewrite col_m; exact Hz).
      unfold upd_col in Hd. rewrite Nat.eqb_refl, rot_l, C in Hd. rewrite C in R1. rewrite rot_Sl.
      assert (S1: aS st (S m) = 0) by (rewrite (i_S _ _ _ _ _ _ I), rots_above by lia; reflexivity). rewrite S1.
      assert (snd g * col1 m = 0) by lra. apply Rmult_integral in H. destruct H as [->|H]; [ring|]. exfalso. apply Hd. rewrite H. ring.
  Qed.

  (** the start *)
  Lemma inv_start x : gnorm n (res x) <> 0 ->
    inv (res x) (gnorm n (res x)) 0 (mkArn (fun _ k => res x k / gnorm n (res x)) (fun _ _ => 0) (fun _ => (1, 0)) (first (gnorm n (res x)))) (fun _ _ => 0) false.
  Proof.
    intros Hn. set (N := gnorm n (res x)) in *. constructor; cbn [aV aH aG aS]; try (intros; lia); try discriminate.
    - intros l j Hl Hj. replace l with O by lia. replace j with O by lia. cbn [Nat.eqb].
      transitivity (/ N * / N * gdot n (res x) (res x)).
      + unfold gdot. rewrite <- rsum_scal. apply rsum_ext. intros; unfold Rdiv; ring.
      + rewrite <- gnorm_sq. fold N. field. exact Hn.
    - intros k _. field. exact Hn.
    - reflexivity.
  Qed.

  (** no column is a combination of the others if P A is injective *)
  Lemma diagonal_nonzero r rN m st raw nan : inv r rN m st raw nan ->
    (forall v, (forall k, (k < n)%nat -> M v k = 0) -> forall k, (k < n)%nat -> v k = 0) ->
    forall j, (j < m)%nat -> aH st j j <> 0.
  Proof.
    intros I Inj j. induction j as [j IH] using lt_wf_ind. intros Hj Hz.
    destruct (back_solve_defined (aH st) (aH st j) j j (fun _ => 0)) as [y B]; [intros l Hl; apply IH; lia|].
    assert (F: forall l, (l < j)%nat -> rsum j (fun i => aH st i l * y i) = aH st j l).
    { intros l Hl. apply (back_solve_spec (aH st) (aH st j) j (fun i q Hi Hq => i_tri _ _ _ _ _ _ I i q ltac:(lia) Hq) j (fun _ => 0) y (le_n j)); auto; intros; lia. }
    set (d := fun l => raw j l - rsum j (fun i => raw i l * y i)).
    assert (Rd: forall l, rots (aG st) (S j) d l = 0).
    { intros l. unfold d. rewrite rots_sum. rewrite <- (i_H _ _ _ _ _ _ I j l Hj).
      rewrite (rsum_ext j _ (fun i => aH st i l * y i)).
      2:{ intros i Hi. f_equal. rewrite (i_H _ _ _ _ _ _ I i l) by lia. apply rots_more; [lia|]. intros q Hq. rewrite <- (i_H _ _ _ _ _ _ I i q) by lia. apply (i_tri _ _ _ _ _ _ I); lia. }
      destruct (lt_eq_lt_dec l j) as [[Hl|Hl]|Hl].
      - rewrite F by exact Hl. ring.
      - subst l. rewrite Hz. rewrite rsum_zero; [ring|]. intros i Hi. rewrite (i_tri _ _ _ _ _ _ I) by lia. ring.
      - rewrite (i_tri _ _ _ _ _ _ I j l Hj Hl). rewrite rsum_zero; [ring|]. intros i Hi. rewrite (i_tri _ _ _ _ _ _ I) by lia. ring. }
    assert (D: forall l, (l < S (S j))%nat -> d l = 0).
    { apply gdot_zero. unfold gdot. rewrite <- (rots_norm (aG st) (S j)); [|lia|intros; apply (i_G _ _ _ _ _ _ I); lia].
      apply rsum_zero. intros l _. rewrite Rd. ring. }
    set (v := fun k => aV st j k - rsum j (fun i => aV st i k * y i)).
    assert (Zv: forall k, (k < n)%nat -> v k = 0).
    { apply Inj. intros k Hk. unfold v.
      rewrite (gmul_ext P _ (fun i => gmul n A (aV st j) i - gmul n A (fun q => rsum j (fun i => aV st i q * y i)) i)) by (intros; apply gmul_sub).
      rewrite gmul_sub, M_comb. rewrite (i_M _ _ _ _ _ _ I j k Hj Hk).
      rewrite (rsum_ext j _ (fun i => rsum (S (S j)) (fun l => raw i l * y i * aV st l k))).
      2:{ intros i Hi. rewrite (i_M _ _ _ _ _ _ I i k) by (try exact Hk; lia). rewrite <- rsum_scal_r.
          replace (S (S j)) with (S (S i) + (j - i))%nat by lia. rewrite rsum_split. rewrite (rsum_zero (j - i)).
          - rewrite Rplus_0_r. apply rsum_ext. intros; ring.
          - intros l Hl. rewrite (i_raw _ _ _ _ _ _ I i) by lia. ring. }
      rewrite rsum_swap, <- rsum_minus. apply rsum_zero. intros l Hl. rewrite rsum_scal_r, <- Rmult_minus_distr_r.
      change ((d l) * aV st l k = 0). rewrite D by exact Hl. ring. }
    assert (O: ortho n (aV st) (S j)).
    { intros p q Hp Hq. apply (i_V _ _ _ _ _ _ I); destruct nan; lia. }
    assert (One: gdot n (aV st j) (aV st j) = 1) by (rewrite O, Nat.eqb_refl by lia; reflexivity).
    assert (Zero: gdot n (fun k => rsum j (fun i => y i * aV st i k)) (aV st j) = 0).
    { unfold gdot. rewrite (rsum_ext n _ (fun k => rsum j (fun i => y i * (aV st i k * aV st j k)))) by (intros; rewrite <- rsum_scal_r; apply rsum_ext; intros; ring).
      rewrite rsum_swap. apply rsum_zero. intros i Hi. rewrite rsum_scal. change (y i * gdot n (aV st i) (aV st j) = 0). rewrite O by lia.
      destruct (Nat.eqb_spec i j); [lia|]. ring. }
    rewrite (gdot_ext n _ (aV st j) _ (aV st j)) in Zero; [lra| |reflexivity].
    intros k Hk. pose proof (Zv k Hk) as X. unfold v in X. rewrite (rsum_ext j _ (fun i => aV st i k * y i)) by (intros; ring). lra.
  Qed.

  (** powers of P A on the first residual *)
  Fixpoint krylov (r : gvec) (k : nat) : gvec := match k with O => r | S k' => M (krylov r k') end.
  Lemma krylov_span r rN m st raw nan : inv r rN m st raw nan -> forall q, (q < (if nan then m else S m))%nat -> 
    exists y : gvec, (forall j, (q < j)%nat -> y j = 0) /\ forall k, (k < n)%nat -> krylov r q k = rsum (S q) (fun j => aV st j k * y j).
  Proof.
    intros I q. induction q as [|q IH]; intros Hq.
    - exists (fun j => if Nat.eqb j 0 then rN else 0). split; [intros j Hj; destruct (Nat.eqb_spec j 0); [lia|reflexivity]|].
      intros k Hk. cbn [krylov rsum Nat.eqb]. rewrite (i_r _ _ _ _ _ _ I k Hk). ring.
    - destruct IH as [y [Hy E]]; [lia|]. assert (Hm: (q < m)%nat) by (destruct nan; lia).
      exists (fun l => rsum (S q) (fun j => raw j l * y j)). split.
      + intros l Hl. apply rsum_zero. intros j Hj. rewrite (i_raw _ _ _ _ _ _ I) by lia. ring.
      + intros k Hk. cbn [krylov]. rewrite (gmul_ext P _ (gmul n A (fun i => rsum (S q) (fun j => aV st j i * y j)))) by (intros; apply gmul_ext; exact E).
        rewrite M_comb. rewrite (rsum_ext (S q) _ (fun j => rsum (S (S q)) (fun l => aV st l k * (raw j l * y j)))).
        2:{ intros j Hj. rewrite (i_M _ _ _ _ _ _ I j k) by (try exact Hk; lia). rewrite <- rsum_scal_r.
            replace (S (S q)) with (S (S j) + (q - j))%nat by lia. rewrite rsum_split. rewrite (rsum_zero (q - j)).
            - rewrite Rplus_0_r. apply rsum_ext. intros; ring.
            - intros l Hl. rewrite (i_raw _ _ _ _ _ _ I j) by lia. ring. }
        rewrite rsum_swap. apply rsum_ext. intros l Hl. rewrite rsum_scal. reflexivity.
  Qed.
  Lemma krylov_combination r rN m st raw nan c : inv r rN m st raw nan -> 
    exists y : gvec, forall k, (k < n)%nat -> rsum m (fun q => c q * krylov r q k) = rsum m (fun j => aV st j k * y j).
  Proof.
    intros I. assert (Hall: forall p, (p <= m)%nat -> exists y : gvec, forall k, (k < n)%nat -> rsum p (fun q => c q * krylov r q k) = rsum m (fun j => aV st j k * y j)).
    { induction p as [|p IH]; intros Hp.
      - exists (fun _ => 0). intros k Hk. cbn [rsum]. rewrite rsum_zero by (intros; ring). reflexivity.
      - destruct IH as [y E]; [lia|]. destruct (krylov_span r rN m st raw nan I p ltac:(destruct nan; lia)) as [z [Hz Ez]].
        exists (fun j => y j + c p * z j). intros k Hk. cbn [rsum]. rewrite E, Ez by exact Hk.
        replace m with (S p + (m - S p))%nat at 2 by lia. rewrite rsum_split.
        replace m with (S p + (m - S p))%nat at 1 by lia. rewrite rsum_split.
        rewrite (rsum_ext (S p) (fun j => aV st j k * (y j + c p * z j)) (fun j => aV st j k * y j + c p * (aV st j k * z j))) by (intros; ring).
        rewrite rsum_plus, rsum_scal.
        rewrite (rsum_ext (m - S p) (fun i => aV st (S p + i)%nat k * (y (S p + i)%nat + c p * z (S p + i)%nat)) (fun i => aV st (S p + i)%nat k * y (S p + i)%nat)); [ring|].
        intros i Hi. rewrite (Hz (S p + i)%nat) by lia. ring. }
    apply Hall. lia.
  Qed.

  (** ** the for loop *)
  Definition good_cycle (x : gvec) (m : nat) (o : outcome cycle) : Prop :=
    match o with
    | Ok (Early x') => gnorm n (res x') < tolerance * rhsNorm n b /\ gnorm n (res x') <= gnorm n (res x)
    | Ok (EndOfCycle x') => gnorm n (res x') <= gnorm n (res x) /\ 
        forall c, gnorm n (res x') <= gnorm n (res (fun k => x k + rsum m (fun q => c q * krylov (res x) q k)))
    | _ => True
    end.
  Lemma gnorm_abs v s : gdot n v v = s * s -> gnorm n v = Rabs s.
  Proof. intros E. unfold gnorm. rewrite E. apply sqrt_Rsqr_abs. Qed.
  Lemma res_ext x y : (forall k, (k < n)%nat -> x k = y k) -> forall k, res x k = res y k.
  Proof. intros E k. unfold residual. apply gmul_ext. intros i _. rewrite (gmul_ext A x y) by exact E. reflexivity. Qed.

  Lemma columns_good x : forall left i st raw nan, inv (res x) (gnorm n (res x)) i st raw nan -> (nan = true -> left = O) ->
    good_cycle x (i + left) (columns n A P b givens tolerance x st i left).
  Proof.
    assert (Bound: forall i st raw nan x', inv (res x) (gnorm n (res x)) i st raw nan -> corrected st i x = Some x' -> 
              gnorm n (res x') = Rabs (aS st i) /\ gnorm n (res x') <= gnorm n (res x)).
    { intros i st raw nan x' I E. destruct (corrected_residual x _ i st raw nan x' I E) as [N _].
      rewrite (gnorm_abs _ _ N). split; [reflexivity|]. pose proof (s_bound _ _ _ _ _ _ I) as B.
      apply Rsqr_incr_0_var; [|apply gnorm_nonneg]. rewrite <- Rsqr_abs. exact B. }
    induction left as [|left IH]; intros i st raw nan I Hn; cbn [columns].
    - destruct (corrected st i x) as [x'|] eqn:E; cbn [good_cycle]; [|exact Logic.I]. split; [apply (Bound i st raw nan x' I E)|].
      intros c. destruct (corrected_residual x _ i st raw nan x' I E) as [_ Opt]. rewrite Nat.add_0_r.
      destruct (krylov_combination _ _ _ _ _ _ c I) as [y Ey]. apply sqrt_le_1_alt. 
      refine (Rle_trans _ _ _ (Opt y) (Req_le _ _ _)). apply gdot_ext; intros k _; apply res_ext; intros l Hl; rewrite Ey by exact Hl; reflexivity.
    - destruct nan; [specialize (Hn eq_refl); discriminate|]. destruct (Nat.ltb_spec (S i) n) as [Hi|Hi]; [|exact Logic.I].
      destruct (column n A P givens st i) as [st' nan'] eqn:Ec. destruct (column_inv _ _ _ _ _ _ _ I Ec) as (raw' & I' & _ & _ & _).
      destruct (rltb_spec (Rabs (aS st' (S i))) (tolerance * rhsNorm n b)) as [(-> & Hl)|(-> & Hl)].
      + destruct (corrected st' (S i) x) as [x'|] eqn:E; cbn [good_cycle]; [|exact Logic.I]. destruct (Bound _ _ _ _ _ I' E) as [B1 B2]. split; [rewrite B1; exact Hl|exact B2].
      + destruct (nan' && negb (Nat.eqb left 0))%bool eqn:En.
        * destruct (Nat.ltb (S i + left) n); exact Logic.I.
        * replace (i + S left)%nat with (S i + left)%nat by lia. apply (IH (S i) st' raw' nan' I'). intros ->. cbn [andb] in En.
          destruct (Nat.eqb_spec left 0) as [->|]; [reflexivity|discriminate].
  Qed.

  Lemma rhsNorm_pos : 0 < rhsNorm n b.
  Proof. unfold rhsNorm. destruct (rltb_spec (gnorm n b) (1 / 100000)) as [(-> & H)|(-> & H)]; lra. Qed.

  Lemma cycle_good x : 0 < gnorm n (res x) -> good_cycle x krylovDimension (one_cycle n A P b givens tolerance krylovDimension x (res x) (gnorm n (res x))).
  Proof.
    intros H. unfold one_cycle. apply (columns_good x krylovDimension 0 _ (fun _ _ => 0) false); [|discriminate].
    apply inv_start. lra.
  Qed.

  Lemma restarts_good : 0 <= tolerance -> forall left x done x' q, restarts n A P b givens tolerance krylovDimension x done left = Ok (Answer x' q) ->
    gnorm n (res x') <= gnorm n (res x) /\ (done <= q <= done + left)%nat /\ ((q < done + left)%nat -> gnorm n (res x') <= tolerance * rhsNorm n b).
  Proof.
    intros Ht. pose proof rhsNorm_pos as Hp. induction left as [|left IH]; intros x done x' q E; cbn [restarts] in E.
    - destruct (rltb (tolerance * rhsNorm n b) (gnorm n (res x))); injection E as <- <-; split; [lra|split; [lia|intros; lia]|lra|split; [lia|intros; lia]].
    - destruct (rltb_spec (tolerance * rhsNorm n b) (gnorm n (res x))) as [(Er & Hl)|(Er & Hl)]; rewrite Er in E.
      + assert (Hpos: 0 < gnorm n (res x)) by (assert (0 <= tolerance * rhsNorm n b) by (apply Rmult_le_pos; lra); lra).
        pose proof (cycle_good x Hpos) as Gc.
        destruct (one_cycle n A P b givens tolerance krylovDimension x (res x) (gnorm n (res x))) as [[x1|x1|e]| |]; cbn [good_cycle] in Gc; try discriminate.
        * injection E as <- <-. split; [lra|]. split; [lia|]. intros _. lra.
        * destruct (IH x1 (S done) x' q E) as (A1 & A2 & A3). split; [lra|]. split; [lia|]. intros Hq. apply A3. lia.
      + injection E as <- <-. split; [lra|]. split; [lia|]. intros _. exact Hl.
  Qed.

  (** ** no breakdown *)
  Section Regular.
    Hypothesis Inj : forall v, (forall k, (k < n)%nat -> M v k = 0) -> forall k, (k < n)%nat -> v k = 0.
    Hypothesis Ht : 0 < tolerance.
    Lemma columns_defined x : forall left i st raw, inv (res x) (gnorm n (res x)) i st raw false -> (i + left < n)%nat ->
      (exists x', columns n A P b givens tolerance x st i left = Ok (Early x')) \/ (exists x', columns n A P b givens tolerance x st i left = Ok (EndOfCycle x')).
    Proof.
      assert (Def: forall i st raw nan, inv (res x) (gnorm n (res x)) i st raw nan -> exists x', corrected st i x = Some x').
      { intros i st raw nan I. unfold corrected. destruct (back_solve_defined (aH st) (aS st) i i (fun _ => 0)) as [y ->]; [|eauto].
        exact (diagonal_nonzero _ _ _ _ _ _ I Inj). }
      induction left as [|left IH]; intros i st raw I Hn; cbn [columns].
      - right. destruct (Def _ _ _ _ I) as [x' ->]. eauto.
      - destruct (Nat.ltb_spec (S i) n) as [Hi|Hi]; [|lia].
        destruct (column n A P givens st i) as [st' nan'] eqn:Ec. destruct (column_inv _ _ _ _ _ _ _ I Ec) as (raw' & I' & _ & _ & Hz).
        destruct (Def _ _ _ _ I') as [x' E'].
        destruct (rltb_spec (Rabs (aS st' (S i))) (tolerance * rhsNorm n b)) as [(-> & Hl)|(-> & Hl)].
        + left. rewrite E'. eauto.
        + destruct nan'.
          * exfalso. rewrite Hz in Hl; [|reflexivity|apply (diagonal_nonzero _ _ _ _ _ _ I' Inj); lia].
            rewrite Rabs_R0 in Hl. pose proof rhsNorm_pos. assert (0 < tolerance * rhsNorm n b) by (apply Rmult_lt_0_compat; assumption). lra.
          * cbn [andb]. apply (IH (S i) st' raw' I'). lia.
    Qed.
    Lemma restarts_defined : (krylovDimension < n)%nat -> forall left x done, exists x' q, restarts n A P b givens tolerance krylovDimension x done left = Ok (Answer x' q).
    Proof.
      intros Hk. pose proof rhsNorm_pos as Hp. induction left as [|left IH]; intros x done; cbn [restarts].
      - destruct (rltb _ _); eauto.
      - destruct (rltb_spec (tolerance * rhsNorm n b) (gnorm n (res x))) as [(-> & Hl)|(-> & Hl)]; [|eauto].
        assert (Hpos: 0 < gnorm n (res x)) by (assert (0 < tolerance * rhsNorm n b) by (apply Rmult_lt_0_compat; lra); lra).
        unfold one_cycle.
        destruct (columns_defined x krylovDimension 0 _ (fun _ _ => 0) (inv_start x ltac:(lra)) Hk) as [[x' E]|[x' E]];
          unfold first in E; rewrite E; [eauto|apply IH].
    Qed.
  End Regular.
End Columns.
