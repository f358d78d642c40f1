(** * Exactness of the Gauss and Gauss-Lobatto rules (C73, C74) *)
From Coq Require Import List Arith Bool Reals Lra Lia ZArith.
From Coquelicot Require Import Coquelicot.
From Verif Require Import RSum Outcome LegendreModel LegendreSpec LegendreProofs PolyProofs.
Import ListNotations.
Local Open Scope R_scope.

(** ** Legendre polynomials as polynomials *)
Fixpoint la (n : nat) : R := match n with O => 1 | S m => (2 * INR m + 1) / (INR m + 1) * la m end.
Lemma la_nz n : la n <> 0.
Proof.
  induction n as [|n IH]; simpl; [lra|]. pose proof (pos_INR n). apply Rmult_integral_contrapositive_currified; auto.
  unfold Rdiv. apply Rmult_integral_contrapositive_currified; [lra|]. apply Rinv_neq_0_compat. lra.
Qed.

Lemma P_lead n : lead n (P n) (la n).
Proof.
  induction n as [| |n IH0 IH1] using two_ind.
  - exists (fun _ => 0). split; [apply polylt_zero|]. intros x. rewrite P0. simpl. ring.
  - exists (fun _ => 0). split; [apply polylt_zero|]. intros x. rewrite P1. simpl. field.
  - pose proof (pos_INR n).
    apply (lead_ext _ (fun x => (2 * INR n + 3) / (INR n + 2) * (x * P (S n) x) + (- (INR n + 1) / (INR n + 2)) * P n x)).
    { intros x. rewrite P_rec. field. lra. }
    apply lead_plus_low.
    + replace (la (S (S n))) with ((2 * INR n + 3) / (INR n + 2) * la (S n)).
      * apply lead_scal. apply lead_x. exact IH1.
      * change (la (S (S n))) with ((2 * INR (S n) + 1) / (INR (S n) + 1) * la (S n)). rewrite S_INR. field. lra.
    + apply polylt_scal. apply (polylt_mono (S n)); [lia|]. apply (lead_polylt _ _ _ IH0).
Qed.
Lemma P_polylt n : polylt (S n) (P n).
Proof. apply (lead_polylt _ _ _ (P_lead n)). Qed.
Lemma D_lead n : lead n (D (S n)) (INR (S n) * la (S n)).
Proof.
  induction n as [|n IH].
  - exists (fun _ => 0). split; [apply polylt_zero|]. intros x. unfold D. simpl. field.
  - pose proof (pos_INR n). apply (lead_ext _ (fun x => x * D (S n) x + (INR (S n) + 1) * P (S n) x)).
    { intros x. destruct (D_identities (S n) x) as (I & _). rewrite I. reflexivity. }
    destruct IH as (g & Hg & Eg). destruct (P_lead (S n)) as (h & Hh & Eh).
    exists (fun x => x * g x + (INR (S n) + 1) * h x). split; [apply polylt_plus; [apply polylt_x; auto|apply polylt_scal; auto]|].
    intros x. rewrite Eg, Eh. change (la (S (S n))) with ((2 * INR (S n) + 1) / (INR (S n) + 1) * la (S n)). rewrite !S_INR. simpl pow. field. lra.
Qed.
Lemma D_polylt n : polylt n (D n).
Proof. destruct n as [|n]; [exists (fun _ => 0); intros; reflexivity|]. apply (lead_polylt _ _ _ (D_lead n)). Qed.

Lemma P_at_1 n : P n 1 = 1.
Proof.
  induction n as [| |n IH0 IH1] using two_ind; [reflexivity|reflexivity|]. rewrite P_rec, IH0, IH1. pose proof (pos_INR n). field. lra.
Qed.
Lemma P_at_m1 n : P n (-1) = (-1) ^ n.
Proof.
  induction n as [| |n IH0 IH1] using two_ind; [reflexivity|simpl; rewrite P1; ring|]. rewrite P_rec, IH0, IH1. pose proof (pos_INR n). simpl. field. lra.
Qed.

Ltac pcont := intros; eapply polylt_continuous; eauto.

(** orthogonality to lower powers *)
Lemma orth_pow k : forall n, (k < n)%nat -> Int (fun x => P n x * x ^ k) 0.
Proof.
  induction k as [|k IH]; intros n Hk; destruct n as [|m]; try lia; pose proof (pos_INR m).
  - assert (H1 : Int (fun x => D (S (S m)) x - D m x) 0).
    { replace 0 with ((P (S (S m)) 1 - P m 1) - (P (S (S m)) (-1) - P m (-1))) by (rewrite !P_at_1, !P_at_m1; simpl; ring).
      apply (Int_derive (fun x => P (S (S m)) x - P m x)).
      - intros x. apply (is_derive_minus (P (S (S m))) (P m)); apply D_derive.
      - apply (polylt_continuous (S (S m))). apply polylt_minus; [apply D_polylt|apply (polylt_mono m); [lia|apply D_polylt]]. }
    apply (Int_scal _ _ (/ (2 * INR m + 3))) in H1. rewrite Rmult_0_r in H1. revert H1. apply Int_ext. intros x. rewrite D_difference. simpl. field. lra.
  - assert (HF : Int (fun x => (2 * INR m + 3) * P (S m) x * x ^ S k + (P (S (S m)) x - P m x) * (INR (S k) * x ^ k)) 0).
    { replace 0 with ((P (S (S m)) 1 - P m 1) * 1 ^ S k - (P (S (S m)) (-1) - P m (-1)) * (-1) ^ S k) by (rewrite !P_at_1, !P_at_m1; simpl; ring).
      apply (Int_derive (fun x => (P (S (S m)) x - P m x) * x ^ S k)).
      - intros x. rewrite <- D_difference.
        apply (is_derive_mult (fun x => P (S (S m)) x - P m x) (fun x => x ^ S k) x (D (S (S m)) x - D m x) (INR (S k) * x ^ k)).
        + apply (is_derive_minus (P (S (S m))) (P m)); apply D_derive.
        + pose proof (is_derive_pow (fun x => x) (S k) x 1 (is_derive_id x)) as Hd. simpl pred in Hd.
          replace (INR (S k) * x ^ k) with (INR (S k) * 1 * x ^ k) by ring. exact Hd.
        + intros; apply Rmult_comm.
      - apply (polylt_continuous (S (S m) + S (S k))%nat). apply polylt_plus.
        + apply (polylt_ext _ (fun x => (2 * INR m + 3) * (P (S m) x * x ^ S k))); [intros; ring|]. apply polylt_scal.
          apply (polylt_mono (S m + S (S k))); [lia|]. apply polylt_mult; [apply P_polylt|apply polylt_pow].
        + apply (polylt_ext _ (fun x => INR (S k) * ((P (S (S m)) x - P m x) * x ^ k))); [intros; ring|]. apply polylt_scal.
          apply (polylt_mono (S (S m) + S k)); [lia|]. apply polylt_mult; [|apply polylt_pow].
          apply polylt_minus; [apply P_polylt|apply (polylt_mono (S m)); [lia|apply P_polylt]]. }
    assert (H1 := IH (S (S m)) ltac:(lia)). assert (H2 := IH m ltac:(lia)).
    assert (H3 := Int_minus _ _ _ _ HF (Int_scal _ _ (INR (S k)) (Int_minus _ _ _ _ H1 H2))).
    apply (Int_scal _ _ (/ (2 * INR m + 3))) in H3.
    replace (/ (2 * INR m + 3) * (0 - INR (S k) * (0 - 0))) with 0 in H3 by ring. revert H3. apply Int_ext. intros x. field. lra.
Qed.

Lemma orth n q : polylt n q -> Int (fun x => q x * P n x) 0.
Proof.
  intros (c & E). apply (Int_ext (fun x => rsum n (fun k => c k * (P n x * x ^ k)))).
  - intros x. rewrite E, <- rsum_scal_r. apply rsum_ext. intros; ring.
  - replace 0 with (rsum n (fun k => c k * 0)) by (apply rsum_zero; intros; ring).
    apply (Int_sum n (fun k x => c k * (P n x * x ^ k))). intros k Hk. apply Int_scal. apply orth_pow; auto.
Qed.

(** the norm *)
Lemma P_step m x : (INR m + 1) * P (S m) x = (2 * INR m + 1) * x * P m x - INR m * P (m - 1) x.
Proof.
  destruct m as [|m]; [rewrite P1, P0; simpl; ring|]. replace (S m - 1)%nat with m by lia. pose proof (bonnet m x). rewrite S_INR. lra.
Qed.
Lemma norm n : Int (fun x => P n x * P n x) (2 / (2 * INR n + 1)).
Proof.
  induction n as [|m IH].
  - replace (2 / (2 * INR 0 + 1)) with (1 - -1) by (simpl; field).
    apply (Int_ext (fun _ => 1)); [intros; rewrite P0; ring|]. apply (Int_derive (fun x => x)).
    + intros x. apply (is_derive_id x).
    + intros x. apply continuous_const.
  - pose proof (pos_INR m).
    assert (A : Int (fun x => P m x * P (S (S m)) x) 0) by (apply (orth (S (S m))); apply (polylt_mono (S m)); [lia|apply P_polylt]).
    assert (B : Int (fun x => x * P m x * P (S m) x) ((INR m + 1) * (2 / (2 * INR m + 1)) / (2 * INR m + 3))).
    { assert (H1 := Int_plus _ _ _ _ (Int_scal _ _ ((INR m + 2) / (2 * INR m + 3)) A) (Int_scal _ _ ((INR m + 1) / (2 * INR m + 3)) IH)).
      replace ((INR m + 1) * (2 / (2 * INR m + 1)) / (2 * INR m + 3)) with ((INR m + 2) / (2 * INR m + 3) * 0 + (INR m + 1) / (2 * INR m + 3) * (2 / (2 * INR m + 1))) by (field; lra).
      revert H1. apply Int_ext. intros x. apply (Rmult_eq_reg_l (2 * INR m + 3)); [|lra].
      transitivity (P m x * ((INR m + 2) * P (S (S m)) x + (INR m + 1) * P m x)); [field; lra|]. rewrite bonnet. ring. }
    assert (C : Int (fun x => INR m * P (m - 1) x * P (S m) x) 0).
    { apply (orth (S m) (fun x => INR m * P (m - 1) x)). apply polylt_scal. apply (polylt_mono (S (m - 1))); [lia|apply P_polylt]. }
    assert (H1 := Int_scal _ _ (/ (INR m + 1)) (Int_minus _ _ _ _ (Int_scal _ _ (2 * INR m + 1) B) C)).
    rewrite S_INR. replace (2 / (2 * (INR m + 1) + 1)) with (/ (INR m + 1) * ((2 * INR m + 1) * ((INR m + 1) * (2 / (2 * INR m + 1)) / (2 * INR m + 3)) - 0)) by (field; lra).
    revert H1. apply Int_ext. intros x. apply (Rmult_eq_reg_l (INR m + 1)); [|lra].
    transitivity (P (S m) x * ((2 * INR m + 1) * x * P m x - INR m * P (m - 1) x)); [field; lra|]. rewrite <- P_step. ring.
Qed.

(** consecutive Legendre polynomials have no common zero *)
Lemma no_common n x : P n x = 0 -> P (S n) x = 0 -> False.
Proof.
  induction n as [|n IH]; intros H0 H1; [rewrite P0 in H0; lra|]. apply IH; auto. pose proof (bonnet n x) as B. rewrite H1, H0 in B.
  pose proof (pos_INR n). apply (Rmult_eq_reg_l (INR n + 1)); lra.
Qed.
(** zeros are simple *)
Lemma simple n x : P (S n) x = 0 -> D (S n) x <> 0.
Proof.
  intros H0 H1. pose proof (D_closed n x) as C. rewrite H0, H1 in C. pose proof (pos_INR n). apply (no_common n x); auto.
  apply (Rmult_eq_reg_l (INR n + 1)); lra.
Qed.

(** ** Gauss *)
Lemma gauss_weights n (p : nat -> R) f :
  (forall i j, (i < S n)%nat -> (j < S n)%nat -> p i = p j -> i = j) -> (forall i, (i < S n)%nat -> P (S n) (p i) = 0) ->
  polylt (S n + S n) f ->
  Int f (rsum (S n) (fun i => 2 / (1 - p i * p i) / (D (S n) (p i) * D (S n) (p i)) * f (p i))).
Proof.
  intros Hp Hz Hf. set (N := S n) in *. set (w := P N). set (dw := D N).
  assert (Hn0 : forall i, (i < N)%nat -> dw (p i) <> 0) by (intros; apply simple; apply Hz; auto).
  assert (HW : forall i, (i < N)%nat -> Int (fun x => quot w dw (p i) x / dw (p i)) (RInt (fun x => quot w dw (p i) x / dw (p i)) (-1) 1)).
  { intros i Hi. apply Int_RInt. apply (polylt_continuous N).
    apply (polylt_ext _ (fun x => / dw (p i) * quot w dw (p i) x)); [intros t; unfold Rdiv; ring|]. apply polylt_scal.
    apply (quot_polylt N w dw (la N)); auto. apply P_lead. apply D_derive. }
  set (W := fun i => RInt (fun x => quot w dw (p i) x / dw (p i)) (-1) 1 : R) in HW.
  assert (Hex := exact_high N w dw (la N) p (P_lead N) (la_nz N) (D_derive N) Hp Hz Hn0 W HW N).
  specialize (Hex f (fun q Hq => orth N q Hq) Hf).
  match goal with |- Int _ ?v => replace v with (rsum N (fun i => W i * f (p i))) end; [exact Hex|].
  apply rsum_ext. intros i Hi. f_equal. pose proof (pos_INR n) as Hn.
  (* test function quot * P n *)
  destruct (quot_spec N w dw (la N) p (P_lead N) (D_derive N) Hp Hz Hn0 i Hi) as (Hq & Efac). replace (N - 1)%nat with n in Hq by (unfold N; lia).
  assert (Ht : W i * (quot w dw (p i) (p i) * P n (p i)) = 2 / (INR n + 1)).
  { apply (weight_from_test N w dw (la N) p (P_lead N) (la_nz N) (D_derive N) Hp Hz Hn0 W HW N (fun x => quot w dw (p i) x * P n x)).
    - intros q. apply orth.
    - apply (polylt_mono (n + N)); [unfold N; lia|]. apply polylt_mult; [apply (lead_polylt _ _ _ Hq)|apply P_polylt].
    - exact Hi.
    - intros j Hj Hne. rewrite (quot_at N w dw p Hp Hz i j Hi Hj). destruct (Nat.eqb_spec i j); [congruence|ring].
    - destruct Hq as (g & Hg & Eg). destruct (P_lead n) as (h & Hh & Eh).
      assert (H1 : Int (fun x => (la N / la n) * (P n x * P n x)) (la N / la n * (2 / (2 * INR n + 1)))) by (apply Int_scal; apply norm).
      assert (H2 : Int (fun x => (g x - (la N / la n) * h x) * P n x) 0) by (apply orth; apply polylt_minus; auto; apply polylt_scal; auto).
      assert (H3 := Int_plus _ _ _ _ H1 H2).
      replace (2 / (INR n + 1)) with (la N / la n * (2 / (2 * INR n + 1)) + 0).
      + revert H3. apply Int_ext. intros x. rewrite Eg. rewrite (Eh x) at 2. pose proof (la_nz n). field. auto.
      + unfold N. simpl la. pose proof (la_nz n). field. repeat split; auto; lra. }
  rewrite (quot_at N w dw p Hp Hz i i Hi Hi), Nat.eqb_refl in Ht. unfold dw in Ht.
  pose proof (D_closed n (p i)) as C. fold N in C. rewrite (Hz i Hi) in C. pose proof (Hn0 i Hi) as Hd. unfold dw in Hd.
  assert (E : P n (p i) = (1 - p i * p i) * D N (p i) / (INR n + 1)) by (apply (Rmult_eq_reg_l (INR n + 1)); [|lra]; rewrite C; field_simplify; lra).
  rewrite E in Ht.
  assert (Hx : 1 - p i * p i <> 0).
  { intros H0. rewrite H0 in Ht. unfold Rdiv in Ht. rewrite !Rmult_0_l, !Rmult_0_r in Ht.
    assert (0 < 2 * / (INR n + 1)) by (apply Rmult_lt_0_compat; [lra|apply Rinv_0_lt_compat; lra]). lra. }
  apply (Rmult_eq_reg_r (D N (p i) * ((1 - p i * p i) * D N (p i) / (INR n + 1)))).
  - rewrite Ht. unfold dw. field. repeat split; auto; lra.
  - apply Rmult_integral_contrapositive_currified; auto. unfold Rdiv. repeat apply Rmult_integral_contrapositive_currified; auto. apply Rinv_neq_0_compat. lra.
Qed.

(** ** Gauss-Lobatto: zeros of (1 - x^2) D N *)
Definition lw (N : nat) (x : R) : R := (1 - x * x) * D N x.
Lemma lw_P n x : lw (S n) x = (INR n + 1) * (P n x - x * P (S n) x).
Proof. apply D_closed. Qed.
Lemma lw_derive n x : is_derive (lw (S n)) x (- (INR n + 1) * (INR n + 2) * P (S n) x).
Proof.
  apply (is_derive_ext (fun x => (INR n + 1) * (P n x - x * P (S n) x))); [intros t; symmetry; apply lw_P|].
  assert (H : is_derive (fun x => (INR n + 1) * (P n x - x * P (S n) x)) x ((INR n + 1) * (D n x - (1 * P (S n) x + x * D (S n) x)))).
  { apply (is_derive_scal (fun x => P n x - x * P (S n) x)). apply (is_derive_minus (P n) (fun x => x * P (S n) x)); [apply D_derive|].
    apply (is_derive_mult (fun x => x) (P (S n)) x 1 (D (S n) x)); [exact (is_derive_id x)|apply D_derive|intros; apply Rmult_comm]. }
  destruct (D_identities n x) as (_ & II).
  replace (- (INR n + 1) * (INR n + 2) * P (S n) x) with ((INR n + 1) * (D n x - (1 * P (S n) x + x * D (S n) x))); [exact H|].
  replace (D n x) with (x * D (S n) x - (INR n + 1) * P (S n) x) by lra. ring.
Qed.
Lemma lw_lead n : lead (S (S n)) (lw (S n)) (- (INR (S n) * la (S n))).
Proof.
  apply (lead_ext _ (fun x => (-1) * (x * (x * D (S n) x)) + D (S n) x)); [intros; unfold lw; ring|]. apply lead_plus_low.
  - replace (- (INR (S n) * la (S n))) with ((-1) * (INR (S n) * la (S n))) by ring. apply lead_scal. do 2 apply lead_x. apply D_lead.
  - apply (polylt_mono (S n)); [lia|]. apply D_polylt.
Qed.
Lemma lw_lead_nz n : - (INR (S n) * la (S n)) <> 0.
Proof.
  apply Ropp_neq_0_compat. apply Rmult_integral_contrapositive_currified; [apply not_0_INR; lia|apply la_nz].
Qed.

Lemma derive_poly n f : polylt (S n) f -> exists df, polylt n df /\ forall x, is_derive f x (df x).
Proof.
  revert f. induction n as [|n IH]; intros f Hf; destruct (polylt_lead _ _ Hf) as (a & g & Hg & E).
  - exists (fun _ => 0). split; [apply polylt_zero|]. intros x. apply (is_derive_ext (fun _ => a)); [|apply (is_derive_const (K := R_AbsRing) (V := R_NormedModule) a x)].
    intros t. change (a = f t). rewrite E, (polylt_0 g Hg). simpl. ring.
  - destruct (IH g Hg) as (dg & Hdg & Ed). exists (fun x => dg x + a * INR (S n) * x ^ n). split.
    + apply polylt_plus; [apply polylt_S; auto|]. apply polylt_scal. apply polylt_pow.
    + intros x. apply (is_derive_ext (fun x => g x + a * x ^ S n)); [intros t; symmetry; apply E|].
      apply (is_derive_plus g (fun x => a * x ^ S n)); [apply Ed|]. rewrite Rmult_assoc. apply (is_derive_scal (fun x => x ^ S n)).
      pose proof (is_derive_pow (fun x => x) (S n) x 1 (is_derive_id x)) as Hd. simpl pred in Hd.
      replace (INR (S n) * x ^ n) with (INR (S n) * 1 * x ^ n) by ring. exact Hd.
Qed.

(** (1 - x^2) D (n+1) is orthogonal to degree below n: integration by parts *)
Lemma lw_parts n q dq : polylt (S n) q -> polylt n dq -> (forall x, is_derive q x (dq x)) ->
  forall v, Int (fun x => q x * ((INR n + 1) * (INR n + 2) * P (S n) x)) v -> Int (fun x => dq x * lw (S n) x) v.
Proof.
  intros Hq Hdq Ed v Hv.
  assert (H : Int (fun x => dq x * lw (S n) x + q x * (- (INR n + 1) * (INR n + 2) * P (S n) x)) (q 1 * lw (S n) 1 - q (-1) * lw (S n) (-1))).
  { apply (Int_derive (fun x => q x * lw (S n) x)).
    - intros x. apply (is_derive_mult q (lw (S n))); [apply Ed|apply lw_derive|intros; apply Rmult_comm].
    - apply (polylt_continuous (n + S (S (S n)))). apply polylt_plus.
      + apply polylt_mult; [apply polylt_S; auto|]. apply (lead_polylt _ _ _ (lw_lead n)).
      + apply polylt_mult; [exact Hq|]. apply polylt_scal. apply (polylt_mono (S (S n))); [lia|apply P_polylt]. }
  assert (H2 := Int_plus _ _ _ _ H Hv).
  replace (q 1 * lw (S n) 1 - q (-1) * lw (S n) (-1) + v) with v in H2 by (unfold lw; ring).
  revert H2. apply Int_ext. intros x. ring.
Qed.

(** every polynomial has a primitive *)
Lemma primitive_poly n f : polylt n f -> exists F, polylt (S n) F /\ forall x, is_derive F x (f x).
Proof.
  intros (c & E). exists (fun x => rsum n (fun k => c k / INR (S k) * x ^ S k)). split.
  - apply polylt_sum. intros k Hk. apply polylt_scal. apply (polylt_mono (S (S k))); [lia|]. apply polylt_pow.
  - intros x. rewrite E. clear E. induction n as [|n IH]; simpl rsum.
    + apply (is_derive_const (K := R_AbsRing) (V := R_NormedModule) 0 x).
    + apply (is_derive_plus (fun x => rsum n (fun k => c k / INR (S k) * x ^ S k)) (fun x => c n / INR (S n) * x ^ S n)); [exact IH|].
      replace (c n * x ^ n) with (c n / INR (S n) * (INR (S n) * 1 * x ^ n)) by (field; apply not_0_INR; lia).
      apply (is_derive_scal (fun x => x ^ S n)). exact (is_derive_pow (fun x => x) (S n) x 1 (is_derive_id x)).
Qed.

Lemma lw_orth n q : polylt n q -> Int (fun x => q x * lw (S n) x) 0.
Proof.
  intros Hq. destruct (primitive_poly n q Hq) as (F & HF & Ed). apply (lw_parts n F q HF Hq Ed).
  apply (Int_ext (fun x => ((INR n + 1) * (INR n + 2) * F x) * P (S n) x)); [intros; ring|]. apply orth. apply polylt_scal. exact HF.
Qed.

(** norm of the derivatives in the weight 1 - x^2 *)
Lemma D_norm n : Int (fun x => D (S n) x * lw (S n) x) ((INR n + 1) * (INR n + 2) * (2 / (2 * INR n + 3))).
Proof.
  assert (H : Int (fun x => (INR n + 1) * (INR n + 2) * (P (S n) x * P (S n) x)) ((INR n + 1) * (INR n + 2) * (2 / (2 * INR n + 3)))).
  { apply Int_scal. pose proof (norm (S n)) as H. replace (2 * INR n + 3) with (2 * INR (S n) + 1) by (rewrite S_INR; ring). exact H. }
  assert (F : Int (fun x => D (S n) x * lw (S n) x + P (S n) x * (- (INR n + 1) * (INR n + 2) * P (S n) x)) (P (S n) 1 * lw (S n) 1 - P (S n) (-1) * lw (S n) (-1))).
  { apply (Int_derive (fun x => P (S n) x * lw (S n) x)).
    - intros x. apply (is_derive_mult (P (S n)) (lw (S n))); [apply D_derive|apply lw_derive|intros; apply Rmult_comm].
    - apply (polylt_continuous (S n + S (S (S n)))). apply polylt_plus.
      + apply (polylt_mono (n + S (S (S n)))); [lia|]. apply polylt_mult; [apply D_polylt|]. apply (lead_polylt _ _ _ (lw_lead n)).
      + apply polylt_mult; [apply P_polylt|]. apply polylt_scal. apply (polylt_mono (S (S n))); [lia|apply P_polylt]. }
  assert (H2 := Int_plus _ _ _ _ F H).
  replace (P (S n) 1 * lw (S n) 1 - P (S n) (-1) * lw (S n) (-1) + (INR n + 1) * (INR n + 2) * (2 / (2 * INR n + 3))) with ((INR n + 1) * (INR n + 2) * (2 / (2 * INR n + 3))) in H2
    by (unfold lw; ring).
  revert H2. apply Int_ext. intros x. ring.
Qed.

Lemma D_at_1 n : D n 1 = INR n * (INR n + 1) / 2.
Proof.
  induction n as [|n IH]; [unfold D; simpl; field|]. destruct (D_identities n 1) as (I & _). rewrite I, IH, P_at_1, S_INR. field.
Qed.
Lemma D_at_m1 n : D n (-1) = - (-1) ^ n * (INR n * (INR n + 1) / 2).
Proof.
  induction n as [|n IH]; [unfold D; simpl; field|]. destruct (D_identities n (-1)) as (I & _). rewrite I, IH, P_at_m1, S_INR. simpl pow. field.
Qed.

(** the points: -1, the zeros of D (n+1) and 1 *)
Lemma lobatto_weights n (p : nat -> R) f :
  p 0%nat = -1 -> p (S n) = 1 ->
  (forall i j, (i < S (S n))%nat -> (j < S (S n))%nat -> p i = p j -> i = j) -> (forall i, (0 < i < S n)%nat -> D (S n) (p i) = 0) ->
  polylt (n + S (S n)) f ->
  Int f (rsum (S (S n)) (fun i => 2 / ((INR n + 2) * (INR n + 1)) / (P (S n) (p i) * P (S n) (p i)) * f (p i))).
Proof.
  intros Hp0 Hp1 Hp HzD Hf. set (N := S (S n)) in *. set (w := lw (S n)). set (dw := fun x => - (INR n + 1) * (INR n + 2) * P (S n) x).
  pose proof (pos_INR n) as Hn.
  assert (Hz : forall i, (i < N)%nat -> w (p i) = 0).
  { intros i Hi. unfold w, lw. destruct (Nat.eq_dec i 0) as [->|H0]; [rewrite Hp0; ring|]. destruct (Nat.eq_dec i (S n)) as [->|H1]; [rewrite Hp1; ring|].
    rewrite HzD by (unfold N in Hi; lia). ring. }
  assert (HPn : forall i, (i < N)%nat -> P (S n) (p i) <> 0).
  { intros i Hi HP. destruct (Nat.eq_dec i 0) as [->|H0]; [rewrite Hp0, P_at_m1 in HP; apply (pow_nonzero (-1) (S n)); [lra|exact HP]|].
    destruct (Nat.eq_dec i (S n)) as [->|H1]; [rewrite Hp1, P_at_1 in HP; lra|]. apply (simple n (p i)); auto. apply HzD. unfold N in Hi. lia. }
  assert (Hn0 : forall i, (i < N)%nat -> dw (p i) <> 0).
  { intros i Hi. unfold dw. apply Rmult_integral_contrapositive_currified; [|apply HPn; auto].
    apply Rmult_integral_contrapositive_currified; lra. }
  assert (HW : forall i, (i < N)%nat -> Int (fun x => quot w dw (p i) x / dw (p i)) (RInt (fun x => quot w dw (p i) x / dw (p i)) (-1) 1)).
  { intros i Hi. apply Int_RInt. apply (polylt_continuous N).
    apply (polylt_ext _ (fun x => / dw (p i) * quot w dw (p i) x)); [intros t; unfold Rdiv; ring|]. apply polylt_scal.
    apply (quot_polylt N w dw _ p (lw_lead n) (lw_derive n)); auto. }
  set (W := fun i => RInt (fun x => quot w dw (p i) x / dw (p i)) (-1) 1 : R) in HW.
  assert (Hex := exact_high N w dw _ p (lw_lead n) (lw_lead_nz n) (lw_derive n) Hp Hz Hn0 W HW n).
  assert (Htest := weight_from_test N w dw _ p (lw_lead n) (lw_lead_nz n) (lw_derive n) Hp Hz Hn0 W HW n).
  specialize (Hex f (fun q Hq => lw_orth n q Hq) Hf).
  match goal with |- Int _ ?v => replace v with (rsum N (fun i => W i * f (p i))) end; [exact Hex|].
  apply rsum_ext. intros i Hi. f_equal.
  assert (HIP : Int (P (S n)) 0).
  { apply (Int_ext (fun x => 1 * P (S n) x)); [intros; ring|]. apply (orth (S n) (fun _ => 1)). apply (polylt_mono 1); [lia|]. apply (polylt_pow 0). }
  destruct (Nat.eq_dec i 0) as [->|H0]; [|destruct (Nat.eq_dec i (S n)) as [->|H1]].
  - (* -1 *)
    assert (Ht := Htest (fun x => (1 - x) * D (S n) x) 0%nat (- 2 * (-1) ^ S n) (fun q Hq => lw_orth n q Hq)). cbv beta in Ht.
    rewrite Hp0 in Ht |- *. rewrite D_at_m1 in Ht. rewrite P_at_m1.
    assert (Hs : (-1) ^ S n * (-1) ^ S n = 1) by (rewrite <- Rpow_mult_distr; replace (-1 * -1) with 1 by ring; apply pow1).
    assert (Hs0 : (-1) ^ S n <> 0) by (apply pow_nonzero; lra).
    assert (E : W 0%nat * ((1 - -1) * (- (-1) ^ S n * (INR (S n) * (INR (S n) + 1) / 2))) = - 2 * (-1) ^ S n).
    { apply Ht.
      - apply (polylt_mono (1 + S n)); [unfold N; lia|]. apply polylt_mult; [|apply D_polylt].
        apply polylt_minus; [apply (polylt_mono 1); [lia|apply (polylt_pow 0)]|].
        apply (polylt_ext _ (fun x => x ^ 1)); [intros; simpl; ring|apply polylt_pow].
      - lia.
      - intros j Hj Hne. destruct (Nat.eq_dec j (S n)) as [->|]; [rewrite Hp1; ring|]. rewrite HzD by (unfold N in Hj; lia). ring.
      - assert (HF : Int (fun x => (1 - x) * D (S n) x - P (S n) x) ((1 - 1) * P (S n) 1 - (1 - -1) * P (S n) (-1))).
        { apply (Int_derive (fun x => (1 - x) * P (S n) x)).
          - intros x. replace ((1 - x) * D (S n) x - P (S n) x) with ((-1) * P (S n) x + (1 - x) * D (S n) x) by ring.
            apply (is_derive_mult (fun x => 1 - x) (P (S n)) x (-1) (D (S n) x)); [|apply D_derive|intros; apply Rmult_comm].
            auto_derive; [auto|ring].
          - apply (polylt_continuous (1 + S n)). apply polylt_minus; [|apply (polylt_mono (S (S n))); [lia|apply P_polylt]].
            apply polylt_mult; [|apply D_polylt]. apply polylt_minus; [apply (polylt_mono 1); [lia|apply (polylt_pow 0)]|].
            apply (polylt_ext _ (fun x => x ^ 1)); [intros; simpl; ring|apply polylt_pow]. }
        assert (H2 := Int_plus _ _ _ _ HF HIP). rewrite P_at_m1 in H2.
        replace ((1 - 1) * P (S n) 1 - (1 - -1) * (-1) ^ S n + 0) with (- 2 * (-1) ^ S n) in H2 by ring.
        revert H2. apply Int_ext. intros x. ring. }
    rewrite Hs. rewrite S_INR in E. apply (Rmult_eq_reg_r (-1 * (-1) ^ S n * ((INR n + 1) * (INR n + 2)))).
    + transitivity (W 0%nat * ((1 - -1) * (- (-1) ^ S n * ((INR n + 1) * (INR n + 1 + 1) / 2)))); [field|]. rewrite E. field. lra.
    + apply Rmult_integral_contrapositive_currified; [apply Rmult_integral_contrapositive_currified; [lra|exact Hs0]|apply Rmult_integral_contrapositive_currified; lra].
  - (* 1 *)
    assert (Ht := Htest (fun x => (1 + x) * D (S n) x) (S n) 2 (fun q Hq => lw_orth n q Hq)). cbv beta in Ht.
    rewrite Hp1 in Ht |- *. rewrite D_at_1 in Ht. rewrite P_at_1.
    assert (E : W (S n) * ((1 + 1) * (INR (S n) * (INR (S n) + 1) / 2)) = 2).
    { apply Ht.
      - apply (polylt_mono (1 + S n)); [unfold N; lia|]. apply polylt_mult; [|apply D_polylt].
        apply polylt_plus; [apply (polylt_mono 1); [lia|apply (polylt_pow 0)]|].
        apply (polylt_ext _ (fun x => x ^ 1)); [intros; simpl; ring|apply polylt_pow].
      - unfold N; lia.
      - intros j Hj Hne. destruct (Nat.eq_dec j 0) as [->|]; [rewrite Hp0; ring|]. rewrite HzD by (unfold N in Hj; lia). ring.
      - assert (HF : Int (fun x => (1 + x) * D (S n) x + P (S n) x) ((1 + 1) * P (S n) 1 - (1 + -1) * P (S n) (-1))).
        { apply (Int_derive (fun x => (1 + x) * P (S n) x)).
          - intros x. replace ((1 + x) * D (S n) x + P (S n) x) with (1 * P (S n) x + (1 + x) * D (S n) x) by ring.
            apply (is_derive_mult (fun x => 1 + x) (P (S n)) x 1 (D (S n) x)); [|apply D_derive|intros; apply Rmult_comm].
            auto_derive; [auto|ring].
          - apply (polylt_continuous (1 + S n)). apply polylt_plus; [|apply (polylt_mono (S (S n))); [lia|apply P_polylt]].
            apply polylt_mult; [|apply D_polylt]. apply polylt_plus; [apply (polylt_mono 1); [lia|apply (polylt_pow 0)]|].
            apply (polylt_ext _ (fun x => x ^ 1)); [intros; simpl; ring|apply polylt_pow]. }
        assert (H2 := Int_minus _ _ _ _ HF HIP). rewrite P_at_1 in H2.
        replace ((1 + 1) * 1 - (1 + -1) * P (S n) (-1) - 0) with 2 in H2 by ring.
        revert H2. apply Int_ext. intros x. ring. }
    rewrite S_INR in E. apply (Rmult_eq_reg_r ((INR n + 1) * (INR n + 2))).
    + transitivity (W (S n) * ((1 + 1) * ((INR n + 1) * (INR n + 1 + 1) / 2))); [field|]. rewrite E. field. lra.
    + apply Rmult_integral_contrapositive_currified; lra.
  - (* interior *)
    assert (Hin : (0 < i < S n)%nat) by (unfold N in Hi; lia). destruct n as [|m]; [lia|]. pose proof (HzD i Hin) as HDi.
    destruct (lead_factor (p i) m (D (S (S m))) _ (D_lead (S m))) as (s & Hs & Es). rewrite HDi in Es.
    destruct (derive_poly (S m) (D (S (S m))) (D_polylt _)) as (dD & HdD & EdD).
    destruct (polylt_derive _ s (lead_polylt _ _ _ Hs) (p i)) as (ds & Hds).
    assert (Hsv : (1 - p i * p i) * s (p i) = - (INR (S m) + 1) * (INR (S m) + 2) * P (S (S m)) (p i)).
    { assert (D2 : is_derive (fun x => (x - p i) * ((1 - x * x) * s x)) (p i) (1 * ((1 - p i * p i) * s (p i)) + (p i - p i) * (- (2 * p i) * s (p i) + (1 - p i * p i) * ds))).
      { apply (is_derive_mult (fun x => x - p i) (fun x => (1 - x * x) * s x) (p i) 1 (- (2 * p i) * s (p i) + (1 - p i * p i) * ds)).
        - auto_derive; [auto|ring].
        - apply (is_derive_mult (fun x => 1 - x * x) s (p i) (- (2 * p i)) ds); [auto_derive; [auto|ring]|exact Hds|intros; apply Rmult_comm].
        - intros; apply Rmult_comm. }
      assert (D1 : is_derive (fun x => (x - p i) * ((1 - x * x) * s x)) (p i) (- (INR (S m) + 1) * (INR (S m) + 2) * P (S (S m)) (p i))).
      { apply (is_derive_ext (lw (S (S m)))); [|apply lw_derive]. intros t. change (lw (S (S m)) t = (t - p i) * ((1 - t * t) * s t)). unfold lw. specialize (Es t). rewrite Rminus_0_r in Es. rewrite Es. ring. }
      apply is_derive_unique in D1. apply is_derive_unique in D2. rewrite D1 in D2. rewrite D2. ring. }
    assert (Ht : W i * (s (p i) * lw (S m) (p i)) = 2 * INR (S (S m))).
    { apply (Htest (fun x => s x * lw (S m) x) i (2 * INR (S (S m))) (fun q Hq => lw_orth (S m) q Hq)).
      - apply (polylt_mono (m + S (S (S m)))); [unfold N; lia|]. apply polylt_mult; [apply (lead_polylt _ _ _ Hs)|].
        apply (lead_polylt _ _ _ (lw_lead m)).
      - exact Hi.
      - intros j Hj Hne. destruct (Nat.eq_dec j 0) as [->|]; [rewrite Hp0; unfold lw; ring|]. destruct (Nat.eq_dec j (S (S m))) as [->|]; [rewrite Hp1; unfold lw; ring|].
        specialize (Es (p j)). rewrite (HzD j) in Es by (unfold N in Hj; lia).
        assert (Hne2 : p j - p i <> 0) by (intros H; apply Hne; apply Hp; auto; lra).
        assert (Hsj : s (p j) = 0) by (apply (Rmult_eq_reg_l (p j - p i)); [lra|exact Hne2]). rewrite Hsj. ring.
      - pose proof (D_norm m) as HN. destruct Hs as (g & Hg & Eg). destruct (D_lead m) as (h & Hh & Eh).
        set (c := (INR (S (S m)) * la (S (S m))) / (INR (S m) * la (S m))).
        assert (Hlm : INR (S m) * la (S m) <> 0) by (apply Rmult_integral_contrapositive_currified; [apply not_0_INR; lia|apply la_nz]).
        assert (H2 : Int (fun x => (g x - c * h x) * lw (S m) x) 0) by (apply lw_orth; apply polylt_minus; auto; apply polylt_scal; auto).
        assert (H3 := Int_plus _ _ _ _ (Int_scal _ _ c HN) H2).
        replace (2 * INR (S (S m))) with (c * ((INR m + 1) * (INR m + 2) * (2 / (2 * INR m + 3))) + 0).
        + revert H3. apply Int_ext. intros x. rewrite Eg, Eh. unfold c. field. split; [apply la_nz|apply not_0_INR; lia].
        + unfold c. change (la (S (S m))) with ((2 * INR (S m) + 1) / (INR (S m) + 1) * la (S m)). pose proof (la_nz (S m)) as Hl. set (l := la (S m)) in *. rewrite !S_INR. pose proof (pos_INR m).
          field. repeat split; auto; lra. }
    assert (Hlw : lw (S m) (p i) = (1 - p i * p i) * (- (INR (S m) + 1) * P (S (S m)) (p i))).
    { destruct (D_identities (S m) (p i)) as (_ & II). rewrite HDi in II.
      replace (- (INR (S m) + 1) * P (S (S m)) (p i)) with (D (S m) (p i)); [reflexivity|]. rewrite Ropp_mult_distr_l_reverse, <- II. ring. }
    rewrite Hlw in Ht.
    replace (s (p i) * ((1 - p i * p i) * (- (INR (S m) + 1) * P (S (S m)) (p i)))) with (((1 - p i * p i) * s (p i)) * (- (INR (S m) + 1) * P (S (S m)) (p i))) in Ht by ring.
    rewrite Hsv in Ht. pose proof (HPn i Hi) as HP. rewrite (S_INR (S m)) in Ht.
    apply (Rmult_eq_reg_r (- (INR (S m) + 1) * (INR (S m) + 2) * P (S (S m)) (p i) * (- (INR (S m) + 1) * P (S (S m)) (p i)))).
    + rewrite Ht. field. repeat split; auto; lra.
    + repeat apply Rmult_integral_contrapositive_currified; auto; lra.
Qed.
