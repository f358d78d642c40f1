(** * Proofs for the modified Mises strain norm *)
From Coq Require Import List Arith Bool Reals Lra Lia Psatz.
From Coquelicot Require Import Coquelicot.
From Verif Require Import RSum Outcome AdaptiveModel AdaptiveProofs ElasticModel ElasticSpec ElasticProofs.
Import ListNotations.
Local Open Scope R_scope.

(** the quantity under the root, and the bilinear form of J2 *)
Definition mm_Q (d : nat) (n : ModifiedMises) (s : vec) : R :=
  let s3 := Strain3D d s (mNu n) (mPlaneState n) in mK1 n * mK1 n * I1 s3 * I1 s3 + mK2 n * J2 s3.
Definition J2b (p q : vec) : R :=
  1 / 3 * ((p 0%nat - p 1%nat) * (q 0%nat - q 1%nat) + (p 1%nat - p 2%nat) * (q 1%nat - q 2%nat) + (p 2%nat - p 0%nat) * (q 2%nat - q 0%nat)) +
  1 / 2 * (p 3%nat * q 3%nat + p 4%nat * q 4%nat + p 5%nat * q 5%nat).
Lemma mm_A_Q d n s : mm_A d n s = sqrt (mm_Q d n s). Proof. reflexivity. Qed.

Lemma Strain3D_move d x v t nu ps i :
  Strain3D d (fun j => x j + t * v j) nu ps i = Strain3D d x nu ps i + t * Strain3D d v nu ps i.
Proof. destruct d as [|[|[|d]]]; destruct ps; destruct i as [|[|[|[|[|[|i]]]]]]; simpl; ring. Qed.
Lemma I1_move d x v t nu ps :
  I1 (Strain3D d (fun j => x j + t * v j) nu ps) = I1 (Strain3D d x nu ps) + t * I1 (Strain3D d v nu ps).
Proof. unfold I1. rewrite !Strain3D_move. ring. Qed.
Lemma J2_move d x v t nu ps :
  J2 (Strain3D d (fun j => x j + t * v j) nu ps) =
  J2 (Strain3D d x nu ps) + t * J2b (Strain3D d x nu ps) (Strain3D d v nu ps) + t * t * J2 (Strain3D d v nu ps).
Proof. unfold J2, J2b; cbv zeta. rewrite !Strain3D_move, half. field. Qed.
Definition mm_Qb (d : nat) (n : ModifiedMises) (x v : vec) : R :=
  let s := Strain3D d x (mNu n) (mPlaneState n) in let r := Strain3D d v (mNu n) (mPlaneState n) in
  2 * (mK1 n * mK1 n * I1 s * I1 r) + mK2 n * J2b s r.
Lemma mm_Q_move d n x v t : mm_Q d n (fun j => x j + t * v j) = mm_Q d n x + t * mm_Qb d n x v + t * t * mm_Q d n v.
Proof. unfold mm_Q, mm_Qb; cbv zeta. rewrite I1_move, J2_move. ring. Qed.

Section Params.
Variables (nu k : R) (ps : ePlaneState).
Hypothesis Hnu : -1 < nu < 1/2.
Hypothesis Hk : 1 <= k.
Let n := mm_make nu k ps.

Lemma K1_nonneg : 0 <= mK1 n.
Proof. simpl. unfold Rdiv. apply Rmult_le_pos; [lra|]. left. apply Rinv_0_lt_compat. nra. Qed.
Lemma K1_pos : 1 < k -> 0 < mK1 n.
Proof. intros H. simpl. apply Rdiv_lt_0_compat; [lra|nra]. Qed.
Lemma K2_pos : 0 < mK2 n.
Proof. simpl. apply Rdiv_lt_0_compat; [lra|]. apply Rmult_lt_0_compat; nra. Qed.
Lemma Q_ge d s : Rsqr (mK1 n * I1 (Strain3D d s nu ps)) <= mm_Q d n s.
Proof.
  unfold mm_Q, Rsqr; cbv zeta. change (mNu n) with nu. change (mPlaneState n) with ps.
  pose proof (Rmult_le_pos _ _ (Rlt_le _ _ K2_pos) (J2_nonneg (Strain3D d s nu ps))). lra.
Qed.
Lemma Q_nonneg d s : 0 <= mm_Q d n s.
Proof. eapply Rle_trans; [apply Rle_0_sqr|apply Q_ge]. Qed.
Lemma Value_nonneg d s : 0 <= mm_Value d n s.
Proof.
  unfold mm_Value. rewrite mm_A_Q. change (mNu n) with nu. change (mPlaneState n) with ps.
  pose proof (sqrt_le_1_alt _ _ (Q_ge d s)) as H. rewrite sqrt_Rsqr_abs in H.
  set (a := mK1 n * I1 (Strain3D d s nu ps)) in *. pose proof (Rle_abs (- a)) as H'. rewrite Rabs_Ropp in H'. lra.
Qed.

Lemma scal_as_move (s : vec) c : (fun i => 0 + c * s i) = (fun i => (fun _ : nat => 0) i + c * s i).
Proof. reflexivity. Qed.
Lemma Q_scal d s c : mm_Q d n (fun i => c * s i) = c * c * mm_Q d n s.
Proof. unfold mm_Q, I1, J2; cbv zeta.
  assert (H : forall i, Strain3D d (fun i => c * s i) (mNu n) (mPlaneState n) i = c * Strain3D d s (mNu n) (mPlaneState n) i).
  { intros i. destruct d as [|[|[|d']]]; destruct ps; destruct i as [|[|[|[|[|[|i]]]]]]; simpl; ring. }
  rewrite !H. ring. Qed.
Lemma I1_scal d s c : I1 (Strain3D d (fun i => c * s i) nu ps) = c * I1 (Strain3D d s nu ps).
Proof. unfold I1.
  assert (H : forall i, Strain3D d (fun i => c * s i) nu ps i = c * Strain3D d s nu ps i).
  { intros i. destruct d as [|[|[|d']]]; destruct ps; destruct i as [|[|[|[|[|[|i]]]]]]; simpl; ring. }
  rewrite !H. ring. Qed.
Lemma A_scal d s c : mm_A d n (fun i => c * s i) = Rabs c * mm_A d n s.
Proof.
  rewrite !mm_A_Q, Q_scal. rewrite sqrt_mult; [|apply sq|apply Q_nonneg].
  change (c * c) with (Rsqr c). rewrite sqrt_Rsqr_abs. reflexivity.
Qed.
Lemma Value_scal d s c : 0 <= c -> mm_Value d n (fun i => c * s i) = c * mm_Value d n s.
Proof.
  intros Hc. unfold mm_Value. change (mNu n) with nu. change (mPlaneState n) with ps. rewrite I1_scal, A_scal, (Rabs_pos_eq c Hc). ring.
Qed.

Lemma Value_neg_sum d s : mm_Value d n s + mm_Value d n (fun i => - s i) = 2 * mm_A d n s.
Proof.
  unfold mm_Value. change (mNu n) with nu. change (mPlaneState n) with ps.
  assert (H1 : I1 (Strain3D d (fun i => - s i) nu ps) = - I1 (Strain3D d s nu ps)).
  { transitivity (I1 (Strain3D d (fun i => (-1) * s i) nu ps)).
    - unfold I1. destruct d as [|[|[|d']]]; destruct ps; simpl; ring.
    - rewrite I1_scal. ring. }
  assert (H2 : mm_A d n (fun i => - s i) = mm_A d n s).
  { transitivity (mm_A d n (fun i => (-1) * s i)).
    - rewrite !mm_A_Q. f_equal. unfold mm_Q, I1, J2. destruct d as [|[|[|d']]]; destruct ps; simpl; ring.
    - rewrite A_scal, Rabs_left by lra. ring. }
  rewrite H1, H2. ring.
Qed.

(** ** the gradient *)
Lemma Value_derive d x v : 0 < mm_Q d n x ->
  is_derive (fun t => mm_Value d n (fun i => x i + t * v i)) 0
    (mK1 n * I1 (Strain3D d v nu ps) + mm_Qb d n x v / (2 * mm_A d n x)).
Proof.
  intros HQ. unfold mm_Value.
  apply (is_derive_ext (fun t => mK1 n * (I1 (Strain3D d x nu ps) + t * I1 (Strain3D d v nu ps)) + sqrt (mm_Q d n x + t * mm_Qb d n x v + t * t * mm_Q d n v))).
  { intros t. change (mNu n) with nu. change (mPlaneState n) with ps. rewrite I1_move, mm_A_Q, mm_Q_move. reflexivity. }
  rewrite mm_A_Q. set (q := mm_Q d n x) in *. set (b := mm_Qb d n x v). set (c := mm_Q d n v).
  generalize (I1 (Strain3D d x nu ps)) (I1 (Strain3D d v nu ps)) (mK1 n). intros i j K. clearbody q b c. clear n.
  assert (Hs : sqrt q <> 0) by (apply Rgt_not_eq, sqrt_lt_R0; exact HQ).
  auto_derive.
  - replace (q + 0 * b + 0 * 0 * c) with q by ring. lra.
  - replace (q + 0 * b + 0 * 0 * c) with q by ring. field. exact Hs.
Qed.

Lemma Derivative_sum d x v : (1 <= d <= 3)%nat -> 0 < mm_Q d n x ->
  rsum (Voigt_Dim d) (fun j => mm_Derivative d n x j * v j) = mK1 n * I1 (Strain3D d v nu ps) + mm_Qb d n x v / (2 * mm_A d n x).
Proof.
  intros Hd HQ. assert (HA : mm_A d n x <> 0) by (rewrite mm_A_Q; apply Rgt_not_eq, sqrt_lt_R0; exact HQ).
  destruct d as [|[|[|[|d]]]]; try lia; simpl Voigt_Dim.
  - unfold mm_Derivative, mm_Derivative1, iszero. cbv zeta. destruct (Req_EM_T (mm_A 1 n x) 0) as [E|_]; [contradiction|].
    unfold mm_Qb, J2b, I1. generalize dependent (mm_A 1 n x). intros A HA. clear HQ. simpl. field. split; [lra|]. split; [lra|]. split; lra.
  - unfold mm_Derivative, mm_Derivative2, iszero. cbv zeta. destruct (Req_EM_T (mm_A 2 n x) 0) as [E|_]; [contradiction|].
    unfold mm_Qb, J2b, I1. generalize dependent (mm_A 2 n x). intros A HA. clear HQ. unfold n. destruct ps; simpl; rewrite half; field; repeat split; lra.
  - unfold mm_Derivative, mm_Derivative3, iszero. cbv zeta. destruct (Req_EM_T (mm_A 3 n x) 0) as [E|_]; [contradiction|].
    unfold mm_Qb, J2b, I1. generalize dependent (mm_A 3 n x). intros A HA. clear HQ. simpl; rewrite half. field. repeat split; lra.
Qed.

Lemma Q_pos_iff d x : 0 < mm_Q d n x <-> 0 < mm_Value d n x + mm_Value d n (fun i => - x i).
Proof.
  rewrite Value_neg_sum, mm_A_Q. split; intros H.
  - pose proof (sqrt_lt_R0 _ H). lra.
  - destruct (Q_nonneg d x) as [H'|H']; [exact H'|]. rewrite <- H', sqrt_0 in H. lra.
Qed.

Lemma gradient d x : (1 <= d <= 3)%nat -> 0 < mm_Value d n x + mm_Value d n (fun i => - x i) ->
  differential (Voigt_Dim d) (mm_Value d n) x (mm_Derivative d n x).
Proof. intros Hd H v. apply Q_pos_iff in H. rewrite Derivative_sum by assumption. apply Value_derive. exact H. Qed.

(** where the norm is differentiable *)
Lemma Q_zero_J2 d x : mm_Q d n x = 0 -> J2 (Strain3D d x nu ps) = 0 /\ (1 < k -> I1 (Strain3D d x nu ps) = 0).
Proof.
  unfold mm_Q; cbv zeta. change (mNu n) with nu. change (mPlaneState n) with ps. set (s := Strain3D d x nu ps). intros H.
  pose proof K2_pos as HK2. pose proof (J2_nonneg s) as HJ. pose proof (sq (mK1 n * I1 s)) as Hsq.
  assert (Hp : 0 <= mK2 n * J2 s) by (apply Rmult_le_pos; lra).
  assert (H0 : mK2 n * J2 s = 0) by lra. assert (H1 : (mK1 n * I1 s) * (mK1 n * I1 s) = 0) by lra.
  split.
  - apply Rmult_integral in H0. lra.
  - intros Hk1. pose proof (K1_pos Hk1). apply Rmult_integral in H1. destruct H1 as [H1|H1]; apply Rmult_integral in H1; lra.
Qed.
Lemma positive_at_nonzero d x : (1 <= d <= 3)%nat -> 1 < k -> (exists i, (i < Voigt_Dim d)%nat /\ x i <> 0) ->
  0 < mm_Value d n x + mm_Value d n (fun i => - x i).
Proof.
  intros Hd Hk1 (i & Hi & Hx). apply Q_pos_iff. destruct (Q_nonneg d x) as [H|H]; [exact H|exfalso].
  symmetry in H. destruct (Q_zero_J2 d x H) as [HJ HI]. specialize (HI Hk1). apply J2_zero in HJ. destruct HJ as (A & B & C & D & E).
  unfold I1 in HI. destruct d as [|[|[|[|d]]]]; try lia.
  - idx i Hi. simpl in *. assert ((1 + nu) * x 0%nat = 0) by lra. apply Rmult_integral in H0. lra.
  - destruct ps; idx i Hi; simpl in *; lra.
  - idx i Hi; simpl in *; lra.
Qed.

Lemma quadratic_nonneg b c : (forall t, 0 <= t * b + t * t * c) -> b = 0.
Proof.
  intros H. destruct (Rtotal_order b 0) as [Hb|[Hb|Hb]]; [exfalso|exact Hb|exfalso].
  - specialize (H (- b / (2 * (1 + Rabs c)))). pose proof (Rle_abs c). pose proof (Rabs_pos c).
    assert (0 < - b / (2 * (1 + Rabs c))) by (apply Rdiv_lt_0_compat; lra). set (t := - b / (2 * (1 + Rabs c))) in *.
    assert (Ht : t * (2 * (1 + Rabs c)) = - b) by (unfold t; field; lra). nra.
  - specialize (H (- b / (2 * (1 + Rabs c)))). pose proof (Rle_abs c). pose proof (Rabs_pos c).
    assert (0 < b / (2 * (1 + Rabs c))) by (apply Rdiv_lt_0_compat; lra). set (t := b / (2 * (1 + Rabs c))) in *.
    assert (Ht : t * (2 * (1 + Rabs c)) = b) by (unfold t; field; lra).
    replace (- b / (2 * (1 + Rabs c))) with (- t) in H by (unfold t; field; lra). nra.
Qed.

Lemma abs_not_derivable c a b l : 0 < c -> ~ is_derive (fun t => a + t * b + Rabs t * c) 0 l.
Proof.
  intros Hc H. apply is_derive_Reals in H. destruct (H (c / 2) ltac:(lra)) as (del & Hdel).
  pose proof (cond_pos del) as Hp.
  assert (H1 := Hdel (del / 2) ltac:(lra) ltac:(rewrite Rabs_pos_eq; lra)).
  assert (H2 := Hdel (- (del / 2)) ltac:(lra) ltac:(rewrite Rabs_Ropp, Rabs_pos_eq; lra)).
  rewrite Rplus_0_l, Rabs_R0, (Rabs_pos_eq (del / 2)) in H1 by lra.
  rewrite Rplus_0_l, Rabs_R0, Rabs_Ropp, (Rabs_pos_eq (del / 2)) in H2 by lra.
  replace ((a + del / 2 * b + del / 2 * c - (a + 0 * b + 0 * c)) / (del / 2) - l) with (b + c - l) in H1 by (field; lra).
  replace ((a + - (del / 2) * b + del / 2 * c - (a + 0 * b + 0 * c)) / - (del / 2) - l) with (b - c - l) in H2 by (field; lra).
  apply Rabs_def2 in H1. apply Rabs_def2 in H2. lra.
Qed.

Definition last_unit (d : nat) : vec := fun i => if Nat.eqb i (pred (Voigt_Dim d)) then 1 else 0.
Lemma last_unit_Q d : (1 <= d <= 3)%nat -> 0 < mm_Q d n (last_unit d).
Proof.
  intros Hd. apply Rlt_le_trans with (mK2 n * J2 (Strain3D d (last_unit d) nu ps)).
  - apply Rmult_lt_0_compat; [apply K2_pos|]. destruct d as [|[|[|[|d]]]]; try lia; unfold J2, last_unit; destruct ps; simpl; rewrite ?half; try lra; nra.
  - unfold mm_Q; cbv zeta. change (mNu n) with nu. change (mPlaneState n) with ps. pose proof (sq (mK1 n * I1 (Strain3D d (last_unit d) nu ps))). lra.
Qed.
Lemma not_differentiable d x : (1 <= d <= 3)%nat -> mm_Value d n x + mm_Value d n (fun i => - x i) = 0 ->
  forall g, ~ differential (Voigt_Dim d) (mm_Value d n) x g.
Proof.
  intros Hd Hz g Hg.
  assert (HQ : mm_Q d n x = 0).
  { destruct (Q_nonneg d x) as [H|H]; [apply Q_pos_iff in H; lra|auto]. }
  set (v := last_unit d). specialize (Hg v). pose proof (last_unit_Q d Hd) as Hv. fold v in Hv.
  assert (Hb : mm_Qb d n x v = 0).
  { apply (quadratic_nonneg _ (mm_Q d n v)). intros t. pose proof (Q_nonneg d (fun j => x j + t * v j)) as H. rewrite mm_Q_move, HQ in H. lra. }
  refine (abs_not_derivable (sqrt (mm_Q d n v)) (mK1 n * I1 (Strain3D d x nu ps)) (mK1 n * I1 (Strain3D d v nu ps)) _ _ _); [apply sqrt_lt_R0; exact Hv|].
  refine (is_derive_ext _ _ _ _ _ Hg). intros t. unfold mm_Value. change (mNu n) with nu. change (mPlaneState n) with ps.
  rewrite I1_move, mm_A_Q, mm_Q_move, HQ, Hb.
  replace (0 + t * 0 + t * t * mm_Q d n v) with (Rsqr t * mm_Q d n v) by (unfold Rsqr; ring).
  rewrite sqrt_mult, sqrt_Rsqr_abs by (try apply Rle_0_sqr; lra). 
  match goal with |- ?a = ?b => change (a = b :> R) end. ring.
Qed.

(** ** the values the documentation promises *)
Lemma uniaxial_Q d s e : (d = 2%nat -> ps = PLANE_STRESS) -> (1 <= d <= 3)%nat ->
  s 0%nat = e -> (d <> 1%nat -> s 1%nat = - nu * e) -> (d = 2%nat -> s 2%nat = 0) ->
  (d = 3%nat -> s 2%nat = - nu * e /\ s 3%nat = 0 /\ s 4%nat = 0 /\ s 5%nat = 0) ->
  I1 (Strain3D d s nu ps) = (1 - 2 * nu) * e /\ mm_Q d n s = Rsqr ((k + 1) / (2 * k) * e).
Proof.
  intros Hps Hd H0 H1 H2 H3. unfold mm_Q, J2, I1, Rsqr, n; cbv zeta.
  destruct d as [|[|[|[|d]]]]; try lia.
  - simpl. rewrite H0, half. split; [ring|]. field. repeat split; lra.
  - rewrite (Hps eq_refl). simpl. rewrite H0, (H1 ltac:(lia)), (H2 eq_refl), half. split; [field; lra|]. field. repeat split; lra.
  - destruct (H3 eq_refl) as (A & B & C & D). simpl. rewrite H0, (H1 ltac:(lia)), A, B, C, D, half. split; [ring|]. field. repeat split; lra.
Qed.
Lemma uniaxial_value d s e : (d = 2%nat -> ps = PLANE_STRESS) -> (1 <= d <= 3)%nat ->
  s 0%nat = e -> (d <> 1%nat -> s 1%nat = - nu * e) -> (d = 2%nat -> s 2%nat = 0) ->
  (d = 3%nat -> s 2%nat = - nu * e /\ s 3%nat = 0 /\ s 4%nat = 0 /\ s 5%nat = 0) ->
  mm_Value d n s = if Rle_dec 0 e then e else - e / k.
Proof.
  intros Hps Hd H0 H1 H2 H3. destruct (uniaxial_Q d s e Hps Hd H0 H1 H2 H3) as [HI HQ].
  unfold mm_Value. change (mNu n) with nu. change (mPlaneState n) with ps. rewrite mm_A_Q, HI, HQ, sqrt_Rsqr_abs.
  simpl mK1. rewrite Rabs_mult, (Rabs_pos_eq ((k + 1) / (2 * k))) by (left; apply Rdiv_lt_0_compat; lra).
  destruct (Rle_dec 0 e) as [He|He]; [rewrite Rabs_pos_eq by lra|rewrite Rabs_left by lra]; field; lra.
Qed.

Lemma Value_rotated Q v w : orthogonal Q -> rotated Q v w -> mm_Value 3 n w = mm_Value 3 n v.
Proof.
  intros HQ HR. destruct (invariants_rotated Q v w HQ HR) as (A & B & _).
  unfold mm_Value, mm_A; simpl Strain3D. rewrite !J2_I, A, B. reflexivity.
Qed.

(** continuity along every line *)
Lemma Value_continuous_line d x v : continuous (fun t => mm_Value d n (fun i => x i + t * v i)) 0.
Proof.
  apply (continuous_ext (fun t => mK1 n * (I1 (Strain3D d x nu ps) + t * I1 (Strain3D d v nu ps)) + sqrt (mm_Q d n x + t * mm_Qb d n x v + t * t * mm_Q d n v))).
  { intros t. unfold mm_Value. change (mNu n) with nu. change (mPlaneState n) with ps. rewrite I1_move, mm_A_Q, mm_Q_move. reflexivity. }
  apply (continuous_plus (V := R_NormedModule)).
  - apply (ex_derive_continuous (V := R_NormedModule)). auto_derive. trivial.
  - apply (continuous_comp (fun t => mm_Q d n x + t * mm_Qb d n x v + t * t * mm_Q d n v) sqrt).
    + apply (ex_derive_continuous (V := R_NormedModule)). auto_derive. trivial.
    + apply continuity_pt_filterlim, continuity_pt_sqrt. pose proof (Q_nonneg d x). lra.
Qed.
End Params.
