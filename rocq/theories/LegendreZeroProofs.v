(** * Zeros of the Legendre polynomials (for C107) *)
From Coq Require Import Arith Bool Reals Lra Lia.
From Coquelicot Require Import Coquelicot.
From Verif Require Import RSum LegendreSpec LegendreProofs PolyProofs QuadratureProofs PhaseProofs.
Local Open Scope R_scope.

(** ** symmetry *)
Lemma P_odd n x : P n (- x) = (-1) ^ n * P n x.
Proof.
  induction n as [| |n IH0 IH1] using two_ind; [rewrite !P0; simpl; ring|rewrite !P1; simpl; ring|].
  rewrite !P_rec, IH0, IH1. simpl. field. pose proof (pos_INR n). lra.
Qed.
Lemma D_odd n x : D n (- x) = - (-1) ^ n * D n x.
Proof.
  induction n as [| |n IH0 IH1] using two_ind; [unfold D; simpl; ring|unfold D; simpl; ring|].
  rewrite !D_rec, IH0, IH1, P_odd. simpl. field. pose proof (pos_INR n). lra.
Qed.

Lemma finite_choice (Rel : nat -> R -> Prop) k : (forall i, (i < k)%nat -> exists t, Rel i t) -> exists f : nat -> R, forall i, (i < k)%nat -> Rel i (f i).
Proof.
  induction k as [|k IH]; intros H; [exists (fun _ => 0); intros; lia|].
  destruct IH as (f & Hf); [intros; apply H; lia|]. destruct (H k) as (t & Ht); [lia|].
  exists (fun i => if Nat.eqb i k then t else f i). intros i Hi. destruct (Nat.eqb_spec i k) as [->|Hne]; [exact Ht|]. apply Hf. lia.
Qed.

Definition half (n : nat) : R := INR n + 1 / 2.
(** the angle of the i-th first guess *)
Definition gangle (n i : nat) : R := (INR i - 1 / 4) * PI / half n.

Lemma half_pos n : 0 < half n.
Proof. unfold half. pose proof (pos_INR n). lra. Qed.

Lemma cos_half_odd k : cos (INR (2 * k + 1) * (PI / 2)) = 0.
Proof.
  apply cos_eq_0_1. exists (Z.of_nat k). rewrite <- INR_IZR_INZ, plus_INR, mult_INR. simpl. field.
Qed.
Lemma sin_half_even k : sin (INR (2 * k) * (PI / 2)) = 0.
Proof. apply sin_eq_0_1. exists (Z.of_nat k). rewrite <- INR_IZR_INZ, mult_INR. simpl. field. Qed.

Section Zeros.
Variable m : nat.
Let n : nat := S m.
Let N : R := half n.
Let a (t : R) : R := P n (cos t).
Let b (t : R) : R := (- lw n (cos t) / sin t + cos t / sin t * P n (cos t) / 2) / N.

Lemma a_derive t : 0 < t < PI -> is_derive a t (N * b t - (cos t / sin t / 2) * a t).
Proof.
  intros Ht. assert (Hs : 0 < sin t) by (apply sin_gt_0; lra). pose proof (half_pos n) as HN. fold N in HN.
  assert (DP : is_derive (fun x => P n x) (cos t) (D n (cos t))) by (apply D_derive).
  assert (EP : Derive (fun x : R => P n x) (cos t) = D n (cos t)) by (apply is_derive_unique; exact DP).
  unfold a. auto_derive; [repeat split; exact (ex_intro _ _ DP)|].
  rewrite EP. unfold b, lw.
  replace (1 - cos t * cos t) with (sin t * sin t) by (pose proof (sin2_cos2 t) as S; unfold Rsqr in S; lra). field. split; lra.
Qed.

Lemma b_derive t : 0 < t < PI -> is_derive b t (- (cos t / sin t / 2) * b t - (N + / (4 * N * (sin t * sin t))) * a t).
Proof.
  intros Ht. assert (Hs : 0 < sin t) by (apply sin_gt_0; lra). pose proof (half_pos n) as HN. fold N in HN.
  assert (DP : is_derive (fun x => P n x) (cos t) (D n (cos t))) by (apply D_derive).
  assert (EP : Derive (fun x : R => P n x) (cos t) = D n (cos t)) by (apply is_derive_unique; exact DP).
  assert (DL : is_derive (fun x => lw n x) (cos t) (- (INR m + 1) * (INR m + 2) * P n (cos t))) by (apply lw_derive).
  assert (EL0 : Derive (fun x : R => lw n x) (cos t) = - (INR m + 1) * (INR m + 2) * P n (cos t)) by (apply is_derive_unique; exact DL).
  unfold b. auto_derive; [repeat split; first [exact (ex_intro _ _ DP)|exact (ex_intro _ _ DL)|lra]|].
  rewrite EP, EL0.
  assert (EN : (INR m + 1) * (INR m + 2) = N * N - 1 / 4).
  { unfold N, half, n. rewrite S_INR. field. }
  replace (- (INR m + 1) * (INR m + 2) * P n (cos t)) with (- (N * N - 1 / 4) * P n (cos t)) by (rewrite <- EN; ring).
  assert (Ec : cos t * cos t = 1 - sin t * sin t) by (pose proof (sin2_cos2 t) as S; unfold Rsqr in S; lra).
  assert (EL : lw n (cos t) = sin t * sin t * D n (cos t)) by (unfold lw; rewrite Ec; ring).
  rewrite EL. unfold a. set (p := P n (cos t)). set (d := D n (cos t)). set (s := sin t) in *. set (c := cos t) in *.
  field_simplify_eq; [|split; lra]. replace (c ^ 2) with (1 - s ^ 2) by (replace (c ^ 2) with (c * c) by ring; rewrite Ec; ring). ring.
Qed.

Lemma ab_nz t : 0 < t < PI -> a t * a t + b t * b t <> 0.
Proof.
  intros Ht E. assert (Hs : 0 < sin t) by (apply sin_gt_0; lra). pose proof (half_pos n) as HN. fold N in HN.
  assert (Ea : a t = 0) by nra. assert (Eb : b t = 0) by nra.
  apply (simple m (cos t)); [exact Ea|]. unfold b in Eb. unfold a in Ea. rewrite Ea in Eb.
  assert (EL : lw n (cos t) = 0).
  { apply (Rmult_eq_reg_r (- / sin t / N)); [|unfold Rdiv; apply Rmult_integral_contrapositive_currified; [apply Ropp_neq_0_compat|]; apply Rinv_neq_0_compat; lra].
    rewrite Rmult_0_l. etransitivity; [|exact Eb]. field. split; lra. }
  unfold lw in EL. replace (1 - cos t * cos t) with (sin t * sin t) in EL by (pose proof (sin2_cos2 t) as S; unfold Rsqr in S; lra).
  apply (Rmult_eq_reg_l (sin t * sin t)); [rewrite Rmult_0_r; exact EL|]. apply Rgt_not_eq. apply Rmult_lt_0_compat; lra.
Qed.

Lemma start_angle : a (PI / 2) * cos (INR (n + 1) * (PI / 2)) = b (PI / 2) * sin (INR (n + 1) * (PI / 2)).
Proof.
  unfold a, b. rewrite cos_PI2, sin_PI2. destruct (Nat.Even_or_Odd n) as [(k & Ek)|(k & Ek)].
  - rewrite Ek. rewrite cos_half_odd. rewrite <- Ek. unfold lw. assert (E : D n 0 = 0).
    { pose proof (D_odd n 0) as E. rewrite Ropp_0 in E. rewrite Ek in E at 2. rewrite pow_1_even in E. lra. }
    rewrite E. field. apply Rgt_not_eq. apply half_pos.
  - replace (n + 1)%nat with (2 * (k + 1))%nat by lia. rewrite sin_half_even. assert (E : P n 0 = 0).
    { pose proof (P_odd n 0) as E. rewrite Ropp_0 in E. rewrite Ek in E at 2. replace (2 * k + 1)%nat with (S (2 * k)) in E by lia. rewrite pow_1_odd in E. lra. }
    rewrite E. ring.
Qed.

Lemma phase_legendre : exists psi : R -> R,
  psi (PI / 2) = INR (n + 1) * (PI / 2) /\
  (forall t, 0 < t < PI -> exists v, is_derive psi t v /\ N <= v <= N + / (4 * N * (sin t * sin t))) /\
  (forall t, 0 < t < PI -> (P n (cos t) = 0 <-> sin (psi t) = 0)).
Proof.
  pose proof (half_pos n) as HN. fold N in HN.
  destruct (phase_exists N (INR (n + 1) * (PI / 2)) a b (fun t => cos t / sin t / 2) (fun t => / (4 * N * (sin t * sin t)))) as (psi & H0 & HD & _ & HZ).
  - intros t Ht. apply a_derive. exact Ht.
  - intros t Ht. apply b_derive. exact Ht.
  - intros t Ht. assert (Hs : 0 < sin t) by (apply sin_gt_0; lra). apply (ex_derive_continuous (fun t => / (4 * N * (sin t * sin t)))).
    auto_derive. repeat split. apply Rgt_not_eq. apply Rmult_lt_0_compat; [lra|]. apply Rmult_lt_0_compat; lra.
  - intros t Ht. apply ab_nz. exact Ht.
  - exact start_angle.
  - exists psi. split; [exact H0|]. split; [|exact HZ].
    intros t Ht. eexists. split; [apply HD; exact Ht|]. assert (Hs : 0 < sin t) by (apply sin_gt_0; lra).
    assert (He : 0 < / (4 * N * (sin t * sin t))) by (apply Rinv_0_lt_compat; apply Rmult_lt_0_compat; [lra|]; apply Rmult_lt_0_compat; lra).
    pose proof (ab_nz t Ht) as Hnz. assert (Hp : 0 < a t * a t + b t * b t) by nra.
    assert (Hr : 0 <= (a t * a t) / (a t * a t + b t * b t) <= 1).
    { split.
      - apply Rmult_le_pos; [nra|]. left. apply Rinv_0_lt_compat. exact Hp.
      - apply (Rmult_le_reg_r (a t * a t + b t * b t)); [exact Hp|]. unfold Rdiv. rewrite Rmult_assoc, Rinv_l by exact Hnz. nra. }
    unfold Rdiv in *. rewrite Rmult_assoc. nra.
Qed.

(** for every i up to the middle there is a zero just below the i-th guess *)
Lemma zero_angle : exists th : nat -> R, forall i, (1 <= i)%nat -> (2 * i <= n + 1)%nat ->
  gangle n i <= th i <= PI / 2 /\ P n (cos (th i)) = 0 /\ 4 * N * N * (th i - gangle n i) * sin (th i) <= cos (th i) /\
  ((2 * i <= n)%nat -> th i < PI / 2) /\ (forall j, (1 <= j < i)%nat -> th j < th i).
Proof.
  destruct phase_legendre as (psi & H0 & HD & HZ). pose proof (half_pos n) as HN. fold N in HN. pose proof PI_RGT_0 as HPI.
  assert (Hdv : exists v : R -> R, forall t, 0 < t < PI -> is_derive psi t (v t) /\ N <= v t <= N + / (4 * N * (sin t * sin t))).
  { exists (Derive psi). intros t Ht. destruct (HD t Ht) as (v & Hv & Hb). rewrite (is_derive_unique _ _ _ Hv). auto. }
  destruct Hdv as (v & Hv).
  assert (Inc : forall s t, 0 < s -> s <= t -> t < PI -> N * (t - s) <= psi t - psi s).
  { intros s t Hs Hst Ht.
    assert (M := mono_le (fun u => psi u - N * u) (fun u => v u - N) s t Hst).
    assert (psi s - N * s <= psi t - N * t); [|nra]. apply M.
    - intros u Hu. apply (is_derive_minus psi (fun u => N * u) u (v u) N); [apply Hv; lra|]. auto_derive; auto. ring.
    - intros u Hu. destruct (Hv u) as (_ & B & _); lra. }
  assert (Up : forall s, 0 < s <= PI / 2 -> psi (PI / 2) - psi s <= N * (PI / 2 - s) + cos s / sin s / (4 * N)).
  { intros s Hs.
    assert (M := mono_le (fun u => N * u - psi u - cos u / sin u / (4 * N)) (fun u => N - v u + / (4 * N * (sin u * sin u))) s (PI / 2) (proj2 Hs)).
    cbv beta in M. rewrite cos_PI2 in M. unfold Rdiv in M. rewrite !Rmult_0_l in M. unfold Rdiv.
    assert (N * s - psi s - cos s * / sin s * / (4 * N) <= N * (PI * / 2) - psi (PI * / 2) - 0); [|lra]. apply M.
    - intros u Hu. assert (Hsu : 0 < sin u) by (apply sin_gt_0; lra).
      apply (is_derive_plus (fun u => N * u - psi u) (fun u => - (cos u * / sin u * / (4 * N))) u (N - v u) (/ (4 * N * (sin u * sin u)))).
      + apply (is_derive_minus (fun u => N * u) psi u N (v u)); [auto_derive; auto; ring|apply Hv; lra].
      + auto_derive; [repeat split; lra|]. assert (Ec : cos u * cos u = 1 - sin u * sin u) by (pose proof (sin2_cos2 u) as S; unfold Rsqr in S; lra).
        field_simplify_eq; [|split; lra]. replace (cos u ^ 2) with (1 - sin u ^ 2) by (replace (cos u ^ 2) with (cos u * cos u) by ring; rewrite Ec; ring). ring.
    - intros u Hu. destruct (Hv u) as (_ & B); lra. }
  assert (Gap : forall i, N * (PI / 2 - gangle n i) = INR (n + 1) * (PI / 2) - INR i * PI).
  { intros i. unfold gangle. fold N. unfold N at 1. rewrite plus_INR. change (INR 1) with 1.
    replace (half n * (PI / 2 - (INR i - 1 / 4) * PI / N)) with (half n * (PI / 2) - (INR i - 1 / 4) * PI) by (unfold N; field; apply Rgt_not_eq; apply half_pos).
    unfold half. field. }
  assert (Ex : forall i, (1 <= i)%nat -> (2 * i <= n + 1)%nat -> exists t, gangle n i <= t <= PI / 2 /\ psi t = INR i * PI).
  { intros i Hi Hin. pose proof (Gap i) as G. assert (Hgi : 0 < gangle n i).
    { unfold gangle. apply Rmult_lt_0_compat; [|apply Rinv_0_lt_compat; exact HN]. apply Rmult_lt_0_compat; [|lra]. apply le_INR in Hi. simpl in Hi. lra. }
    assert (Hle : INR i * PI <= INR (n + 1) * (PI / 2)).
    { apply le_INR in Hin. rewrite mult_INR in Hin. change (INR 2) with 2 in Hin. nra. }
    assert (Hg2 : gangle n i <= PI / 2) by nra.
    assert (Lo : psi (gangle n i) <= INR i * PI) by (pose proof (Inc (gangle n i) (PI / 2) Hgi Hg2 ltac:(lra)); lra).
    assert (Hi2 : INR i * PI <= psi (PI / 2)) by lra.
    destruct (Req_dec (psi (gangle n i)) (INR i * PI)) as [E1|N1]; [exists (gangle n i); split; [lra|exact E1]|].
    destruct (Req_dec (psi (PI / 2)) (INR i * PI)) as [E2|N2]; [exists (PI / 2); split; [lra|exact E2]|].
    assert (Hne : gangle n i < PI / 2) by (destruct (Req_dec (gangle n i) (PI / 2)) as [E|E]; [rewrite E in N1, Lo; lra|lra]).
    destruct (Ranalysis5.IVT_interv (fun t => psi t - INR i * PI) (gangle n i) (PI / 2)) as (t & Ht & E).
    - intros t Ht. apply continuity_pt_filterlim. apply (ex_derive_continuous (fun t => psi t - INR i * PI)). exists (v t - 0).
      apply (is_derive_minus psi (fun _ => INR i * PI) t (v t) 0); [apply Hv; lra|]. auto_derive; auto.
    - exact Hne.
    - lra.
    - lra.
    - exists t. split; [exact Ht|]. lra. }
  assert (Ch : exists th : nat -> R, forall i, (1 <= i)%nat -> (2 * i <= n + 1)%nat -> gangle n i <= th i <= PI / 2 /\ psi (th i) = INR i * PI).
  { destruct (finite_choice (fun i t => (1 <= i)%nat -> (2 * i <= n + 1)%nat -> gangle n i <= t <= PI / 2 /\ psi t = INR i * PI) (S n)) as (th & Hth).
    - intros i _. destruct (le_dec 1 i) as [H1|H1]; [|exists 0; intros; lia]. destruct (le_dec (2 * i) (n + 1)) as [H2|H2]; [|exists 0; intros; lia].
      destruct (Ex i H1 H2) as (t & Ht). exists t. auto.
    - exists th. intros i Hi Hin. apply Hth; auto. lia. }
  destruct Ch as (th & Hth). exists th. intros i Hi Hin. destruct (Hth i Hi Hin) as (Hr & Ep).
  assert (Hgi : 0 < gangle n i).
  { unfold gangle. apply Rmult_lt_0_compat; [|apply Rinv_0_lt_compat; exact HN]. apply Rmult_lt_0_compat; [|lra]. apply le_INR in Hi. simpl in Hi. lra. }
  split; [exact Hr|]. split; [|split; [|split]].
  - apply HZ; [lra|]. rewrite Ep. apply sin_eq_0_1. exists (Z.of_nat i). rewrite <- INR_IZR_INZ. reflexivity.
  - assert (Hs : 0 < sin (th i)) by (apply sin_gt_0; lra). pose proof (Up (th i) ltac:(lra)) as U. rewrite Ep, H0 in U. rewrite <- (Gap i) in U.
    assert (U2 : N * (th i - gangle n i) <= cos (th i) / sin (th i) / (4 * N)) by lra.
    apply (Rmult_le_compat_r (4 * N * sin (th i))) in U2; [|apply Rmult_le_pos; lra].
    replace (cos (th i) / sin (th i) / (4 * N) * (4 * N * sin (th i))) with (cos (th i)) in U2 by (field; split; lra). lra.
  - intros H2. destruct (Req_dec (th i) (PI / 2)) as [E|E]; [|lra]. exfalso. rewrite E, H0 in Ep. rewrite plus_INR in Ep. change (INR 1) with 1 in Ep.
    apply le_INR in H2. rewrite mult_INR in H2. change (INR 2) with 2 in H2. nra.
  - intros j Hj. destruct (Hth j) as (Hrj & Epj); [lia|lia|]. destruct (Rlt_or_le (th j) (th i)) as [H|H]; [exact H|]. exfalso.
    pose proof (Inc (th i) (th j) ltac:(lra) H ltac:(lra)) as I. rewrite Ep, Epj in I. assert (Hji : INR j < INR i) by (apply lt_INR; lia). nra.
Qed.
End Zeros.
