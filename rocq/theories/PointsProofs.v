(** * Lemmas for C88: positivity of integrals, Gauss and Lobatto points *)
From Coq Require Import List Arith Bool Reals Lra Lia.
From Coquelicot Require Import Coquelicot.
From Verif Require Import RSum PolyProofs LobattoProofs.
Import ListNotations.
Local Open Scope R_scope.

Lemma avoid (l : list R) : forall a b, a < b -> exists c, a < c < b /\ ~ In c l.
Proof.
  induction l as [|x l IH]; intros a b Hab; [exists ((a + b) / 2); split; [lra|intros []]|].
  destruct (Rle_lt_dec x a) as [H|H]; [destruct (IH a b Hab) as (c & Hc & Hn); exists c; split; [lra|intros [->|]; [lra|auto]]|].
  destruct (Rle_lt_dec b x) as [H1|H1]; [destruct (IH a b Hab) as (c & Hc & Hn); exists c; split; [lra|intros [->|]; [lra|auto]]|].
  destruct (IH a x H) as (c & Hc & Hn); exists c; split; [lra|intros [->|]; [lra|auto]].
Qed.

(** a continuous function that is nonnegative on [-1, 1] and positive somewhere inside has a positive integral *)
Lemma positive_integral f v c : (forall x, continuous f x) -> (forall x, -1 < x < 1 -> 0 <= f x) -> -1 < c < 1 -> 0 < f c ->
  is_RInt f (-1) 1 v -> 0 < v.
Proof.
  intros Hf Hn Hc Hp HI.
  assert (Hloc : locally (f c) (fun y => f c / 2 < y)).
  { exists (mkposreal (f c / 2) ltac:(lra)). intros y Hy. unfold ball in Hy; simpl in Hy; unfold AbsRing_ball, abs, minus, plus, opp in Hy; simpl in Hy.
    apply Rabs_def2 in Hy. lra. }
  destruct (Hf c _ Hloc) as (d & Hd).
  set (e := Rmin (d / 2) (Rmin ((1 + c) / 2) ((1 - c) / 2))).
  assert (He : 0 < e /\ e <= d / 2 /\ e <= (1 + c) / 2 /\ e <= (1 - c) / 2).
  { unfold e. pose proof (cond_pos d). split; [repeat apply Rmin_glb_lt; lra|]. pose proof (Rmin_l (d / 2) (Rmin ((1 + c) / 2) ((1 - c) / 2))).
    pose proof (Rmin_r (d / 2) (Rmin ((1 + c) / 2) ((1 - c) / 2))). pose proof (Rmin_l ((1 + c) / 2) ((1 - c) / 2)). pose proof (Rmin_r ((1 + c) / 2) ((1 - c) / 2)). lra. }
  assert (EX : forall a b, ex_RInt f a b) by (intros; apply (ex_RInt_continuous (V := R_CompleteNormedModule)); intros; apply Hf).
  rewrite <- (is_RInt_unique _ _ _ _ HI).
  rewrite <- (RInt_Chasles f (-1) (c - e) 1) by apply EX. rewrite <- (RInt_Chasles f (c - e) (c + e) 1) by apply EX.
  assert (A : 0 <= RInt f (-1) (c - e)) by (apply RInt_ge_0; [lra|apply EX|intros; apply Hn; lra]).
  assert (B : 0 <= RInt f (c + e) 1) by (apply RInt_ge_0; [lra|apply EX|intros; apply Hn; lra]).
  assert (C : 0 < RInt f (c - e) (c + e)).
  { apply RInt_gt_0; [lra| |intros; apply Hf]. intros x Hx. apply Rlt_trans with (f c / 2); [lra|]. apply Hd.
    unfold ball; simpl; unfold AbsRing_ball, abs, minus, plus, opp; simpl. apply Rabs_def1; lra. }
  unfold plus; simpl. lra.
Qed.

Lemma poly_const c : polylt 1 (fun _ => c).
Proof. apply (polylt_ext 1 (fun x => c * x ^ 0)); [intros; simpl; ring|]. apply polylt_scal. apply polylt_pow. Qed.
Lemma poly_lin a b : polylt 2 (fun x => a + b * x).
Proof.
  apply polylt_plus; [apply polylt_S; apply poly_const|]. apply (polylt_ext 2 (fun x => b * x ^ 1)); [intros; simpl; ring|]. apply polylt_scal. apply polylt_pow.
Qed.
Lemma poly_square n f : polylt (S n) f -> polylt (S (n + n)) (fun x => f x * f x).
Proof. intros H. apply (polylt_mult n (S n) f f) in H; auto. revert H. apply polylt_mono. lia. Qed.
Lemma rprod_lin n (p : nat -> R) : polylt (S n) (fun x => rprod n (fun i => x - p i)).
Proof. apply (rprod_poly n (fun i x => x - p i)). intros i _. apply (polylt_ext 2 (fun x => - p i + 1 * x)); [intros; ring|apply poly_lin]. Qed.

(** a rule with distinct points and its exactness; w and p are the weights and points *)
Section Rule.
  Variables (n : nat) (w : nat -> R) (l : list R).
  Hypothesis Hl : NoDup l.
  Notation p i := (nth i l 0).
  Lemma L_nonzero c : ~ In c l -> forall j, (j < length l)%nat -> L l j c <> 0.
  Proof.
    intros Hc j Hj. unfold L, bw. apply Rmult_integral_contrapositive_currified.
    - apply Rinv_neq_0_compat. apply rprod_nonzero. intros i Hi. destruct (Nat.eqb_spec i j) as [->|Hne]; [lra|]. intros E. apply Hne. apply (p_inj l Hl); auto. lra.
    - apply rprod_nonzero. intros i Hi. destruct (Nat.eqb_spec i j); [lra|]. intros E. apply Hc. replace c with (p i) by lra. apply nth_In. exact Hi.
  Qed.
  Lemma L_S j : (j < length l)%nat -> polylt (S (length l - 1)) (L l j).
  Proof. intros Hj. pose proof (L_poly l j Hj) as H. replace (S (length l - 1)) with (length l) by lia. exact H. Qed.
  Lemma L2_poly j : (j < length l)%nat -> polylt (2 * length l - 1) (fun x => L l j x * L l j x).
  Proof. intros Hj. pose proof (poly_square _ _ (L_S j Hj)) as H. revert H. apply polylt_mono. lia. Qed.
  Lemma L2_sum g j : (j < length l)%nat -> rsum (length l) (fun i => w i * (g (p i) * (L l j (p i) * L l j (p i)))) = w j * g (p j).
  Proof.
    intros Hj. rewrite (rsum_single _ j) by (auto; intros i Hi Hne; rewrite (L_off l i j) by auto; ring). rewrite (L_diag l Hl) by auto. ring.
  Qed.
End Rule.

(** Gauss: any n distinct points with exactness for degree 2 n - 1 are inside and have positive weights *)
Lemma gauss_inside (w : nat -> R) (l : list R) : NoDup l ->
  (forall f, polylt (2 * length l) f -> is_RInt f (-1) 1 (rsum (length l) (fun i => w i * f (nth i l 0)))) ->
  forall j, (j < length l)%nat -> 0 < w j /\ -1 < nth j l 0 < 1.
Proof.
  intros Hl Hx j Hj. set (q := nth j l 0). destruct (avoid l (-1) 1 ltac:(lra)) as (c & Hc & Hnc).
  assert (LP := L_nonzero l Hl c Hnc j Hj).
  assert (SQ : 0 < L l j c * L l j c) by (apply Rsqr_pos_lt in LP; exact LP).
  assert (NN : forall x, 0 <= L l j x * L l j x) by (intros x; apply Rle_0_sqr).
  assert (Lin : forall a b, (forall x, -1 < x < 1 -> 0 < a + b * x) -> 0 < w j * (a + b * q)).
  { intros a b Hab. assert (Q : polylt (2 * length l) (fun x => (a + b * x) * (L l j x * L l j x))).
    { pose proof (polylt_mult 1 (2 * length l - 1) _ _ (poly_lin a b) (L2_poly l j Hj)) as H. revert H. apply polylt_mono. lia. }
    pose proof (Hx _ Q) as I. cbv beta in I. pose proof (L2_sum w l Hl (fun x => a + b * x) j Hj) as E; cbv beta in E; rewrite E in I; clear E. fold q in I.
    eapply (positive_integral _ _ c); [|intros x Hxx; apply Rmult_le_pos; [apply Rlt_le, Hab; exact Hxx|apply NN]|exact Hc| |exact I].
    - intros x. eapply polylt_continuous. exact Q.
    - apply Rmult_lt_0_compat; [apply Hab; exact Hc|exact SQ]. }
  assert (W : 0 < w j) by (specialize (Lin 1 0 ltac:(intros; lra)); lra).
  split; [exact W|].
  pose proof (Lin 1 1 ltac:(intros; lra)) as A. pose proof (Lin 1 (-1) ltac:(intros; lra)) as B.
  split; apply (Rmult_lt_reg_l (w j)); lra.
Qed.

(** Lobatto: interior points l, weights w 0 .. w (n + 1), exactness for degree 2 n + 1 where n = length l *)
Lemma lobatto_inside (w : nat -> R) (l : list R) : NoDup l ->
  (forall f, polylt (2 * length l + 2) f -> is_RInt f (-1) 1 (w 0%nat * f (-1) + rsum (length l) (fun i => w (S i) * f (nth i l 0)) + w (S (length l)) * f 1)) ->
  (forall j, (j < length l)%nat -> 0 < w (S j) /\ -1 < nth j l 0 < 1) /\ 0 < w 0%nat /\ 0 < w (S (length l)).
Proof.
  intros Hl Hx. destruct (avoid l (-1) 1 ltac:(lra)) as (c & Hc & Hnc). split; [|split].
  - intros j Hj. set (q := nth j l 0).
    assert (LP := L_nonzero l Hl c Hnc j Hj).
    assert (SQ : 0 < L l j c * L l j c) by (apply Rsqr_pos_lt in LP; exact LP).
    assert (NN : forall x, 0 <= L l j x * L l j x) by (intros x; apply Rle_0_sqr).
    assert (Lin : forall a b, (forall x, -1 < x < 1 -> 0 < a + b * x) -> 0 < w (S j) * ((1 - q * q) * (a + b * q))).
    { intros a b Hab. set (g := fun x => (1 + 1 * x) * ((1 + -1 * x) * (a + b * x))).
      assert (Q : polylt (2 * length l + 2) (fun x => g x * (L l j x * L l j x))).
      { assert (G : polylt 4 g).
        { pose proof (polylt_mult 1 3 _ _ (poly_lin 1 1) (polylt_mult 1 2 _ _ (poly_lin 1 (-1)) (poly_lin a b))) as H. exact H. }
        pose proof (polylt_mult 3 (2 * length l - 1) _ _ G (L2_poly l j Hj)) as H. revert H. apply polylt_mono. lia. }
      pose proof (Hx _ Q) as I. cbv beta in I. rewrite (L2_sum (fun i => w (S i)) l Hl g j Hj) in I. fold q in I.
      replace (w 0%nat * (g (-1) * (L l j (-1) * L l j (-1))) + w (S j) * g q + w (S (length l)) * (g 1 * (L l j 1 * L l j 1)))
        with (w (S j) * ((1 - q * q) * (a + b * q))) in I by (unfold g; ring).
      assert (gp : forall x, -1 < x < 1 -> 0 < g x) by (intros x X; unfold g; apply Rmult_lt_0_compat; [lra|apply Rmult_lt_0_compat; [lra|apply Hab; exact X]]).
      eapply (positive_integral _ _ c); [|intros x Hxx; apply Rmult_le_pos; [apply Rlt_le, gp; exact Hxx|apply NN]|exact Hc| |exact I].
      - intros x. eapply polylt_continuous. exact Q.
      - apply Rmult_lt_0_compat; [apply gp; exact Hc|exact SQ]. }
    pose proof (Lin 1 0 ltac:(intros; lra)) as A0. pose proof (Lin 1 1 ltac:(intros; lra)) as A. pose proof (Lin 1 (-1) ltac:(intros; lra)) as B.
    set (z := w (S j) * (1 - q * q)) in *.
    assert (z0 : 0 < z) by (unfold z; lra).
    assert (q1 : -1 < q < 1) by (split; apply (Rmult_lt_reg_l z); auto; unfold z in *; lra).
    split; [|exact q1]. apply (Rmult_lt_reg_r (1 - q * q)); [nra|]. rewrite Rmult_0_l. exact z0.
  - pose (g := fun x => rprod (length l) (fun i => x - nth i l 0)).
    assert (G : polylt (S (length l)) g) by apply rprod_lin.
    assert (gc : g c <> 0) by (apply rprod_nonzero; intros i Hi E; apply Hnc; replace c with (nth i l 0) by lra; apply nth_In; exact Hi).
    assert (g0 : forall i, (i < length l)%nat -> g (nth i l 0) = 0) by (intros i Hi; apply (rprod_zero _ _ i Hi); ring).
    assert (Q : polylt (2 * length l + 2) (fun x => (1 + -1 * x) * (g x * g x))).
    { pose proof (polylt_mult 1 _ _ _ (poly_lin 1 (-1)) (poly_square _ _ G)) as H. revert H. apply polylt_mono. lia. }
    pose proof (Hx _ Q) as I. cbv beta in I. rewrite (rsum_zero (length l)) in I by (intros i Hi; rewrite g0 by exact Hi; ring).
    assert (V : 0 < w 0%nat * ((1 + -1 * -1) * (g (-1) * g (-1))) + 0 + w (S (length l)) * ((1 + -1 * 1) * (g 1 * g 1))).
    { refine (positive_integral _ _ c _ _ Hc _ I); [|intros x Hxx; apply Rmult_le_pos; [lra|apply Rle_0_sqr]|].
      - intros x. eapply polylt_continuous. exact Q.
      - apply Rmult_lt_0_compat; [lra|]. apply Rsqr_pos_lt in gc. exact gc. }
    assert (N : 0 <= g (-1) * g (-1)) by apply Rle_0_sqr. replace (_ + 0 + _) with (w 0%nat * (2 * (g (-1) * g (-1)))) in V by ring. destruct (Rlt_le_dec 0 (w 0%nat)); auto. exfalso. set (u := g (-1) * g (-1)) in *. nra.
  - pose (g := fun x => rprod (length l) (fun i => x - nth i l 0)).
    assert (G : polylt (S (length l)) g) by apply rprod_lin.
    assert (gc : g c <> 0) by (apply rprod_nonzero; intros i Hi E; apply Hnc; replace c with (nth i l 0) by lra; apply nth_In; exact Hi).
    assert (g0 : forall i, (i < length l)%nat -> g (nth i l 0) = 0) by (intros i Hi; apply (rprod_zero _ _ i Hi); ring).
    assert (Q : polylt (2 * length l + 2) (fun x => (1 + 1 * x) * (g x * g x))).
    { pose proof (polylt_mult 1 _ _ _ (poly_lin 1 1) (poly_square _ _ G)) as H. revert H. apply polylt_mono. lia. }
    pose proof (Hx _ Q) as I. cbv beta in I. rewrite (rsum_zero (length l)) in I by (intros i Hi; rewrite g0 by exact Hi; ring).
    assert (V : 0 < w 0%nat * ((1 + 1 * -1) * (g (-1) * g (-1))) + 0 + w (S (length l)) * ((1 + 1 * 1) * (g 1 * g 1))).
    { refine (positive_integral _ _ c _ _ Hc _ I); [|intros x Hxx; apply Rmult_le_pos; [lra|apply Rle_0_sqr]|].
      - intros x. eapply polylt_continuous. exact Q.
      - apply Rmult_lt_0_compat; [lra|]. apply Rsqr_pos_lt in gc. exact gc. }
    assert (N : 0 <= g 1 * g 1) by apply Rle_0_sqr. replace (_ + 0 + _) with (w (S (length l)) * (2 * (g 1 * g 1))) in V by ring. destruct (Rlt_le_dec 0 (w (S (length l)))); auto. exfalso. set (u := g 1 * g 1) in *. nra.
Qed.
