(** Derivatives of the integrands. *)
From Coq Require Import List Arith Bool Reals Lra Lia FunctionalExtensionality.
From Coquelicot Require Import Coquelicot.
From Verif Require Import RSum Outcome AdaptiveModel AdaptiveProofs ElasticModel ElasticSpec ElasticProofs PropElastic IntegrandModel.
Import ListNotations.
Local Open Scope R_scope.

Lemma is_derive_rsum n (f : nat -> R -> R) (f' : nat -> R) x :
  (forall i, (i < n)%nat -> is_derive (f i) x (f' i)) -> is_derive (fun t => rsum n (fun i => f i t)) x (rsum n f').
Proof.
  induction n as [|n IH]; intros H; cbn [rsum].
  - apply (is_derive_const (0:R)).
  - apply (is_derive_plus (fun t => rsum n (fun i => f i t)) (f n)); [apply IH; auto|apply H; auto].
Qed.
Lemma affine_derive (a b : R) : is_derive (fun t => a + t * b) 0 b.
Proof. auto_derive; auto. ring. Qed.

Lemma mat_vec_shift n A u p t : mat_vec n A (fun i => u i + t * p i) = fun i => mat_vec n A u i + t * mat_vec n A p i.
Proof.
  apply functional_extensionality. intros i. unfold mat_vec. rewrite <- rsum_scal, <- rsum_plus. apply rsum_ext. intros. ring.
Qed.
Lemma rsum_mat n m (w : nat -> R) (A : mat) p :
  rsum n (fun i => w i * rsum m (fun b => A i b * p b)) = rsum m (fun b => rsum n (fun i => w i * A i b) * p b).
Proof.
  rewrite (rsum_ext n _ (fun i => rsum m (fun b => w i * A i b * p b))).
  - rewrite rsum_swap. apply rsum_ext. intros. rewrite rsum_scal_r. reflexivity.
  - intros. rewrite <- rsum_scal. apply rsum_ext. intros. ring.
Qed.

(** ** the parts of the damage model *)
Lemma led_affine d l s w i : led_Stress d l s w i = led_Stress d l s 0 i + w * led_DstressDomega d l s 0 i.
Proof. unfold led_Stress, led_DstressDomega. ring. Qed.
Lemma led_dstrain_affine d l s w i j :
  led_DstressDstrain d l s w i j = led_DstressDstrain d l s 0 i j + w * (led_DstressDstrain d l s 1 i j - led_DstressDstrain d l s 0 i j).
Proof. unfold led_DstressDstrain. ring. Qed.
Lemma led_domega_indep d l s w i : led_DstressDomega d l s w i = led_DstressDomega d l s 0 i.
Proof. reflexivity. Qed.

Lemma stress_derive d E nu app ps s s' (om : R -> R) om' i : (1 <= d <= 3)%nat -> -1 < nu < 1/2 -> (i < Voigt_Dim d)%nat ->
  app = FULL \/ rsum d (fun j => s j) <> 0 -> is_derive om 0 om' ->
  let l := led_make d E nu app ps in
  is_derive (fun t => led_Stress d l (fun j => s j + t * s' j) (om t) i) 0
    (rsum (Voigt_Dim d) (fun j => led_DstressDstrain d l s (om 0) i j * s' j) + led_DstressDomega d l s (om 0) i * om').
Proof.
  intros Hd Hn Hi Hs Ho l.
  pose proof (C43_dstrain d E nu app ps s 0 i Hd Hn Hi Hs s') as D0. pose proof (C43_dstrain d E nu app ps s 1 i Hd Hn Hi Hs s') as D1. fold l in D0, D1.
  apply (is_derive_ext (fun t => led_Stress d l (fun j => s j + t * s' j) 0 i +
    om t * (led_Stress d l (fun j => s j + t * s' j) 1 i - led_Stress d l (fun j => s j + t * s' j) 0 i))).
  { intros t. rewrite (led_affine d l _ 1 i), (led_affine d l _ (om t) i). lra. }
  set (A := rsum (Voigt_Dim d) (fun j => led_DstressDstrain d l s 0 i j * s' j)) in *.
  set (B := rsum (Voigt_Dim d) (fun j => led_DstressDstrain d l s 1 i j * s' j)) in *.
  assert (V: forall w, led_Stress d l (fun j => s j + 0 * s' j) w i = led_Stress d l s w i).
  { intros w. f_equal. apply functional_extensionality. intros. ring. }
  evar (r : R). replace (rsum _ _ + _) with r.
  - apply (is_derive_plus (fun t => led_Stress d l (fun j => s j + t * s' j) 0 i)); [exact D0|].
    apply (is_derive_mult om (fun t => led_Stress d l (fun j => s j + t * s' j) 1 i - led_Stress d l (fun j => s j + t * s' j) 0 i)); [exact Ho| |].
    + apply (is_derive_minus (fun t => led_Stress d l (fun j => s j + t * s' j) 1 i)); [exact D1|exact D0].
    + intros. apply Rmult_comm.
  - unfold r, plus, mult, minus, opp, plus. simpl. rewrite !V, (led_affine d l s 1 i), (led_domega_indep d l s (om 0)).
    rewrite (rsum_ext _ (fun j => led_DstressDstrain d l s (om 0) i j * s' j)
       (fun j => led_DstressDstrain d l s 0 i j * s' j + om 0 * (led_DstressDstrain d l s 1 i j * s' j - led_DstressDstrain d l s 0 i j * s' j)))
      by (intros; rewrite (led_dstrain_affine d l s (om 0)); ring).
    rewrite rsum_plus, rsum_scal, rsum_minus. fold A B. match goal with |- ?a = ?b => change (@eq R a b) end. ring.
Qed.

(** kappa = max(k, e + t e') is differentiable unless e = k *)
Lemma near_zero (P : R -> Prop) : (exists eps, 0 < eps /\ forall t, Rabs t < eps -> P t) -> locally 0 P.
Proof.
  intros (eps & He & H). exists (mkposreal eps He). intros t Ht. apply H. cbn in Ht. unfold ball in Ht. cbn in Ht.
  unfold AbsRing_ball, abs, minus, plus, opp in Ht. cbn in Ht. rewrite Ropp_0, Rplus_0_r in Ht. exact Ht.
Qed.
Lemma linear_sign a b : 0 < a -> locally 0 (fun t => 0 < a + t * b).
Proof.
  intros Ha. apply near_zero. exists (a / (Rabs b + 1)). pose proof (Rabs_pos b).
  split; [apply Rdiv_lt_0_compat; lra|]. intros t Ht.
  assert (Rabs (t * b) < a).
  { rewrite Rabs_mult. apply (Rle_lt_trans _ (Rabs t * (Rabs b + 1))); [apply Rmult_le_compat_l; [apply Rabs_pos|lra]|].
    apply (Rmult_lt_compat_r (Rabs b + 1)) in Ht; [|lra]. unfold Rdiv in Ht. rewrite Rmult_assoc, Rinv_l, Rmult_1_r in Ht; lra. }
  apply Rabs_def2 in H0. lra.
Qed.
Lemma kappa_cases k e e' : (e < k /\ locally 0 (fun t => std_max k (e + t * e') = k) /\ rleb k e = false /\ std_max k e = k) \/
  (k < e /\ locally 0 (fun t => std_max k (e + t * e') = e + t * e') /\ rleb k e = true /\ std_max k e = e) \/ k = e.
Proof.
  destruct (Rtotal_order e k) as [H|[H|H]]; [left|right; right; auto|right; left].
  - split; auto. split.
    + generalize (linear_sign (k - e) (- e') ltac:(lra)). apply filter_imp. intros t Ht. unfold std_max.
      destruct (rltb_spec k (e + t * e')) as [(-> & F)|(-> & _)]; [nra|reflexivity].
    + destruct (rleb_spec k e) as [(_ & F)|(-> & _)]; [lra|]. unfold std_max. destruct (rltb_spec k e) as [(-> & F)|(-> & _)]; [lra|auto].
  - split; auto. split.
    + generalize (linear_sign (e - k) e' ltac:(lra)). apply filter_imp. intros t Ht. unfold std_max.
      destruct (rltb_spec k (e + t * e')) as [(-> & _)|(-> & F)]; [reflexivity|nra].
    + destruct (rleb_spec k e) as [(-> & _)|(_ & F)]; [|lra]. unfold std_max. destruct (rltb_spec k e) as [(-> & _)|(_ & F)]; [auto|lra].
Qed.
(** a function of kappa, with the code's dKappa/dEeq *)
Lemma of_kappa_derive (F : R -> R) F' k e e' : e < k \/ (k < e /\ is_derive F e F') ->
  is_derive (fun t => F (std_max k (e + t * e'))) 0 (F' * (if rleb k e then 1 else 0) * e').
Proof.
  intros H. destruct (kappa_cases k e e') as [(A & L & -> & S)|[(A & L & -> & S)|A]].
  - apply (is_derive_ext_loc (fun _ => F k)).
    + revert L. apply filter_imp. intros t ->. reflexivity.
    + replace (F' * 0 * e') with (@zero R_NormedModule) by (unfold zero; simpl; ring). apply (is_derive_const (F k)).
  - apply (is_derive_ext_loc (fun t => F (e + t * e'))).
    + revert L. apply filter_imp. intros t ->. reflexivity.
    + destruct H as [H|(_ & H)]; [lra|]. replace (F' * 1 * e') with (scal e' F') by (unfold scal; simpl; unfold mult; simpl; ring).
      apply (is_derive_comp F (fun t => e + t * e')); [|apply affine_derive]. rewrite Rmult_0_l, Rplus_0_r. exact H.
  - destruct H as [H|(H & _)]; lra.
Qed.
Lemma all_zero_or n (s : nat -> R) : (forall i, (i < n)%nat -> s i = 0) \/ exists i, (i < n)%nat /\ s i <> 0.
Proof.
  induction n as [|n [IH|(i & Hi & H)]].
  - left. intros i Hi. lia.
  - destruct (Req_dec (s n) 0) as [E|E].
    + left. intros i Hi. destruct (Nat.eq_dec i n) as [->|N]; [auto|apply IH; lia].
    + right. exists n. split; [lia|auto].
  - right. exists i. split; [lia|auto].
Qed.
Lemma exp_le' x y : x <= y -> exp x <= exp y.
Proof. intros [H| ->]; [apply Rlt_le, exp_increasing; auto|lra]. Qed.
