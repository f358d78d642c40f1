(** * Zeros of the derivatives of the Legendre polynomials (for C107) *)
From Coq Require Import Arith Bool Reals Lra Lia Machin.
From Coquelicot Require Import Coquelicot.
From Verif Require Import RSum Outcome LegendreModel LegendreSpec LegendreProofs PolyProofs QuadratureProofs PhaseProofs LegendreZeroProofs LegendreRootsProofs.
Local Open Scope R_scope.

Lemma pi_bounds : 3.14 < PI < 3.142.
Proof.
  pose proof (PI_2_3_7_ineq 2) as (L & U). unfold tg_alt, PI_2_3_7_tg, Ratan_seq in L, U. simpl in L, U. lra.
Qed.

(** second and third derivative *)
Definition D2 (n : nat) (x : R) : R := Q 2 x n.
Definition D3 (n : nat) (x : R) : R := Q 3 x n.
Lemma D_D2 n x : is_derive (D n) x (D2 n x). Proof. apply D2_derive. Qed.
Lemma D2_D3 n x : is_derive (D2 n) x (D3 n x). Proof. apply (Q_derive 2). Qed.
Lemma Q2_odd n x : D2 n (- x) = (-1) ^ n * D2 n x.
Proof.
  unfold D2.
  induction n as [| |n IH0 IH1] using two_ind; [simpl; ring|simpl; ring|].
  rewrite !Q_rec, IH0, !Q1_D, D_odd. simpl. ring.
Qed.
Lemma deriv_ode m x : (1 - x * x) * D3 (S m) x = 4 * x * D2 (S m) x - ((INR m + 1) * (INR m + 2) - 2) * D (S m) x.
Proof.
  pose proof (D_D2 (S m) x) as H2. pose proof (D2_D3 (S m) x) as H3. pose proof (D_derive (S m) x) as H1.
  assert (E1 : Derive (fun x : R => P (S m) x) x = D (S m) x) by (apply is_derive_unique; exact H1).
  assert (E2 : Derive (fun x : R => D (S m) x) x = D2 (S m) x) by (apply is_derive_unique; exact H2).
  assert (E3 : Derive (fun x : R => D2 (S m) x) x = D3 (S m) x) by (apply is_derive_unique; exact H3).
  assert (A : is_derive (fun x => (1 - x * x) * D2 (S m) x) x (- (2 * x) * D2 (S m) x + (1 - x * x) * D3 (S m) x)).
  { auto_derive; [repeat split; exact (ex_intro _ _ H3)|]. rewrite E3. ring. }
  assert (B : is_derive (fun x => (1 - x * x) * D2 (S m) x) x (2 * D (S m) x + 2 * x * D2 (S m) x - (INR m + 1) * (INR m + 2) * D (S m) x)).
  { apply (is_derive_ext (fun x => 2 * x * D (S m) x - (INR m + 1) * (INR m + 2) * P (S m) x)); [intros t; symmetry; apply legendre_ode|].
    auto_derive; [repeat split; first [exact (ex_intro _ _ H2)|exact (ex_intro _ _ H1)]|]. rewrite E1, E2. ring. }
  apply is_derive_unique in A. apply is_derive_unique in B. rewrite A in B. lra.
Qed.

(** the angle of the mean of two guesses *)
Definition dangle (n i : nat) : R := (INR i + 1 / 4) * PI / half n.

Section Zeros.
Variable m : nat.
Let n : nat := S m.
Let N : R := half n.
Let a (t : R) : R := D n (cos t).
Let b (t : R) : R := (- sin t * D2 n (cos t) + 3 / 2 * (cos t / sin t) * D n (cos t)) / N.

Lemma da_derive t : 0 < t < PI -> is_derive a t (N * b t - (3 / 2 * (cos t / sin t)) * a t).
Proof.
  intros Ht. assert (Hs : 0 < sin t) by (apply sin_gt_0; lra). pose proof (half_pos n) as HN. fold N in HN.
  pose proof (D_D2 n (cos t)) as DP.
  assert (EP : Derive (fun x : R => D n x) (cos t) = D2 n (cos t)) by (apply is_derive_unique; exact DP).
  unfold a. auto_derive; [repeat split; exact (ex_intro _ _ DP)|]. rewrite EP. unfold b. field. split; lra.
Qed.

Lemma db_derive t : 0 < t < PI -> is_derive b t (- (3 / 2 * (cos t / sin t)) * b t - (N + - (3 / (4 * N * (sin t * sin t)))) * a t).
Proof.
  intros Ht. assert (Hs : 0 < sin t) by (apply sin_gt_0; lra). pose proof (half_pos n) as HN. fold N in HN.
  pose proof (D_D2 n (cos t)) as DP. pose proof (D2_D3 n (cos t)) as DL.
  assert (EP : Derive (fun x : R => D n x) (cos t) = D2 n (cos t)) by (apply is_derive_unique; exact DP).
  assert (EL0 : Derive (fun x : R => D2 n x) (cos t) = D3 n (cos t)) by (apply is_derive_unique; exact DL).
  unfold b. auto_derive; [repeat split; first [exact (ex_intro _ _ DP)|exact (ex_intro _ _ DL)|lra]|].
  rewrite EP, EL0. pose proof (deriv_ode m (cos t)) as O. fold n in O.
  assert (EN : (INR m + 1) * (INR m + 2) = N * N - 1 / 4).
  { unfold N, half, n. rewrite S_INR. field. }
  rewrite EN in O.
  assert (Ec : cos t * cos t = 1 - sin t * sin t) by (pose proof (sin2_cos2 t) as S; unfold Rsqr in S; lra).
  replace (1 - cos t * cos t) with (sin t * sin t) in O by lra.
  unfold a. set (p := D n (cos t)) in *. set (d := D2 n (cos t)) in *. set (q := D3 n (cos t)) in *. set (s := sin t) in *. set (c := cos t) in *.
  assert (Eq : q = (4 * c * d - (N * N - 1 / 4 - 2) * p) / (s * s)) by (apply (Rmult_eq_reg_l (s * s)); [|nra]; rewrite O; field; nra).
  rewrite Eq. field_simplify_eq; [|split; lra].
  replace (c ^ 2) with (1 - s ^ 2) by (replace (c ^ 2) with (c * c) by ring; rewrite Ec; ring). ring.
Qed.

Lemma dab_nz t : 0 < t < PI -> a t * a t + b t * b t <> 0.
Proof.
  intros Ht E. assert (Hs : 0 < sin t) by (apply sin_gt_0; lra). pose proof (half_pos n) as HN. fold N in HN.
  assert (Ea : a t = 0) by nra. assert (Eb : b t = 0) by nra. unfold b in Eb. unfold a in Ea. rewrite Ea in Eb.
  assert (EQ : D2 n (cos t) = 0).
  { apply (Rmult_eq_reg_r (- sin t / N)); [|unfold Rdiv; apply Rmult_integral_contrapositive_currified; [lra|apply Rinv_neq_0_compat; lra]].
    rewrite Rmult_0_l. etransitivity; [|exact Eb]. field. split; lra. }
  pose proof (legendre_ode m (cos t)) as O. fold n in O. change (Q 2 (cos t) n) with (D2 n (cos t)) in O. rewrite EQ, Ea in O. pose proof (pos_INR m).
  assert (EP : P n (cos t) = 0).
  { assert (Hc : (INR m + 1) * (INR m + 2) * P n (cos t) = 0) by lra. apply Rmult_integral in Hc. destruct Hc as [Hc|Hc]; [nra|exact Hc]. }
  apply (simple m (cos t) EP). exact Ea.
Qed.

Lemma dstart_angle : a (PI / 2) * cos (INR n * (PI / 2)) = b (PI / 2) * sin (INR n * (PI / 2)).
Proof.
  unfold a, b. rewrite cos_PI2, sin_PI2. destruct (Nat.Even_or_Odd n) as [(k & Ek)|(k & Ek)].
  - assert (E : D n 0 = 0).
    { pose proof (D_odd n 0) as E. rewrite Ropp_0 in E. rewrite Ek in E at 2. rewrite pow_1_even in E. lra. }
    rewrite E. rewrite Ek at 1 2 3. rewrite sin_half_even. ring.
  - assert (E : D2 n 0 = 0).
    { pose proof (Q2_odd n 0) as E. rewrite Ropp_0 in E. rewrite Ek in E at 2. replace (2 * k + 1)%nat with (S (2 * k)) in E by lia. rewrite pow_1_odd in E. lra. }
    rewrite E. replace (INR n) with (INR (2 * k + 1)) by (rewrite <- Ek; reflexivity). rewrite cos_half_odd. field. apply Rgt_not_eq. apply half_pos.
Qed.

Lemma phase_deriv : exists psi : R -> R,
  psi (PI / 2) = INR n * (PI / 2) /\
  (forall t, 0 < t < PI -> exists v, is_derive psi t v /\ N - 3 / (4 * N * (sin t * sin t)) <= v <= N) /\
  (forall t, 0 < t < PI -> (D n (cos t) = 0 <-> sin (psi t) = 0)).
Proof.
  pose proof (half_pos n) as HN. fold N in HN.
  destruct (phase_exists N (INR n * (PI / 2)) a b (fun t => 3 / 2 * (cos t / sin t)) (fun t => - (3 / (4 * N * (sin t * sin t))))) as (psi & H0 & HD & _ & HZ).
  - intros t Ht. apply da_derive. exact Ht.
  - intros t Ht. apply db_derive. exact Ht.
  - intros t Ht. assert (Hs : 0 < sin t) by (apply sin_gt_0; lra). apply (ex_derive_continuous (fun t => - (3 / (4 * N * (sin t * sin t))))).
    auto_derive. repeat split. apply Rgt_not_eq. apply Rmult_lt_0_compat; [lra|]. apply Rmult_lt_0_compat; lra.
  - intros t Ht. apply dab_nz. exact Ht.
  - exact dstart_angle.
  - exists psi. split; [exact H0|]. split; [|exact HZ].
    intros t Ht. eexists. split; [apply HD; exact Ht|]. assert (Hs : 0 < sin t) by (apply sin_gt_0; lra).
    assert (He : 0 < 3 / (4 * N * (sin t * sin t))) by (apply Rdiv_lt_0_compat; [lra|]; apply Rmult_lt_0_compat; [lra|]; apply Rmult_lt_0_compat; lra).
    pose proof (dab_nz t Ht) as Hnz. assert (Hp : 0 < a t * a t + b t * b t) by nra.
    assert (Hr : 0 <= (a t * a t) / (a t * a t + b t * b t) <= 1).
    { split.
      - apply Rmult_le_pos; [nra|]. left. apply Rinv_0_lt_compat. exact Hp.
      - apply (Rmult_le_reg_r (a t * a t + b t * b t)); [exact Hp|]. unfold Rdiv. rewrite Rmult_assoc, Rinv_l by exact Hnz. nra. }
    set (q := (a t * a t) / (a t * a t + b t * b t)) in *. set (w := 3 / (4 * N * (sin t * sin t))) in *.
    replace (- w * (a t * a t) / (a t * a t + b t * b t)) with (- (w * q)) by (unfold q; field; exact Hnz). nra.
Qed.

Lemma deriv_zero_angle : exists th : nat -> R, forall i, (1 <= i)%nat -> (2 * i <= n)%nat ->
  37 / 10 <= N * th i /\ th i <= dangle n i /\ th i <= PI / 2 /\ D n (cos (th i)) = 0 /\ 4 * N * N * (dangle n i - th i) * sin (th i) <= 3 * cos (th i) /\
  ((2 * i < n)%nat -> th i < PI / 2) /\ ((2 * i = n)%nat -> th i = PI / 2) /\ (forall j, (1 <= j < i)%nat -> th j < th i).
Proof.
  destruct phase_deriv as (psi & H0 & HD & HZ). pose proof (half_pos n) as HN. fold N in HN. pose proof pi_bounds as HPI.
  assert (Hdv : exists v : R -> R, forall t, 0 < t < PI -> is_derive psi t (v t) /\ N - 3 / (4 * N * (sin t * sin t)) <= v t <= N).
  { exists (Derive psi). intros t Ht. destruct (HD t Ht) as (v & Hv & Hb). rewrite (is_derive_unique _ _ _ Hv). auto. }
  destruct Hdv as (v & Hv).
  assert (Slow : forall s t, 0 < s -> s <= t -> t < PI -> psi t - psi s <= N * (t - s)).
  { intros s t Hs Hst Ht.
    assert (M := mono_le (fun u => N * u - psi u) (fun u => N - v u) s t Hst).
    assert (N * s - psi s <= N * t - psi t); [|nra]. apply M.
    - intros u Hu. apply (is_derive_minus (fun u => N * u) psi u N (v u)); [|apply Hv; lra]. auto_derive; auto. ring.
    - intros u Hu. destruct (Hv u) as (_ & B & C); lra. }
  assert (Up : forall s, 0 < s <= PI / 2 -> N * (PI / 2 - s) - 3 / (4 * N) * (cos s / sin s) <= psi (PI / 2) - psi s).
  { intros s Hs.
    assert (M := mono_le (fun u => psi u - N * u - 3 / (4 * N) * (cos u / sin u)) (fun u => v u - N + 3 / (4 * N * (sin u * sin u))) s (PI / 2) (proj2 Hs)).
    cbv beta in M. rewrite cos_PI2 in M.
    assert (psi s - N * s - 3 / (4 * N) * (cos s / sin s) <= psi (PI / 2) - N * (PI / 2) - 3 / (4 * N) * (0 / sin (PI / 2))); [|unfold Rdiv in *; rewrite Rmult_0_l, Rmult_0_r in H; lra]. apply M.
    - intros u Hu. assert (Hsu : 0 < sin u) by (apply sin_gt_0; lra).
      apply (is_derive_plus (fun u => psi u - N * u) (fun u => - (3 / (4 * N) * (cos u / sin u))) u (v u - N) (3 / (4 * N * (sin u * sin u)))).
      + apply (is_derive_minus psi (fun u => N * u) u (v u) N); [apply Hv; lra|auto_derive; auto; ring].
      + auto_derive; [repeat split; lra|]. assert (Ec : cos u * cos u = 1 - sin u * sin u) by (pose proof (sin2_cos2 u) as S; unfold Rsqr in S; lra).
        field_simplify_eq; [|split; lra]. replace (cos u ^ 2) with (1 - sin u ^ 2) by (replace (cos u ^ 2) with (cos u * cos u) by ring; rewrite Ec; ring). ring.
    - intros u Hu. destruct (Hv u) as (_ & B); lra. }
  assert (Gap : forall i, N * (PI / 2 - dangle n i) = INR n * (PI / 2) - INR i * PI).
  { intros i. unfold dangle. fold N. unfold N at 1.
    replace (half n * (PI / 2 - (INR i + 1 / 4) * PI / N)) with (half n * (PI / 2) - (INR i + 1 / 4) * PI) by (unfold N; field; apply Rgt_not_eq; apply half_pos).
    unfold half. field. }
  set (t0 := 37 / 10 / N).
  assert (Et0 : N * t0 = 37 / 10) by (unfold t0; field; lra).
  assert (Ht0 : 0 < t0) by (unfold t0; apply Rdiv_lt_0_compat; lra).
  assert (Inc : forall s t, t0 <= s -> s < t -> t <= PI / 2 -> psi s < psi t).
  { intros s t Hs Hst Ht. apply (mono_lt psi v s t Hst); [intros u Hu; apply Hv; lra|]. intros u Hu. destruct (Hv u) as (_ & B & _); [lra|].
    apply Rlt_le_trans with (2 := B). assert (Hsu : u / 2 <= sin u) by (apply sin_half; lra).
    assert (Hs2 : 37 / 20 <= N * sin u) by nra. assert (Hs0 : 0 < sin u) by nra.
    apply (Rmult_lt_reg_r (4 * N * (sin u * sin u))); [apply Rmult_lt_0_compat; [lra|nra]|].
    rewrite Rmult_0_l. replace ((N - 3 / (4 * N * (sin u * sin u))) * (4 * N * (sin u * sin u))) with (4 * ((N * sin u) * (N * sin u)) - 3) by (field; split; lra). nra. }
  assert (Low : forall i, (1 <= i)%nat -> (2 * i <= n)%nat -> t0 <= PI / 2 /\ psi t0 <= INR i * PI).
  { intros i Hi Hin. assert (Hn2 : 2 <= INR n) by (assert (H2 : (2 <= n)%nat) by lia; apply le_INR in H2; exact H2).
    assert (HN2 : 5 / 2 <= N) by (unfold N, half; lra).
    assert (Ht2 : t0 <= PI / 2) by nra. split; [exact Ht2|].
    pose proof (Up t0 (conj Ht0 Ht2)) as U. rewrite H0 in U.
    assert (Hs0 : 0 < sin t0) by (apply sin_gt_0; lra).
    assert (Hcot : cos t0 / sin t0 <= / t0).
    { assert (t0 * cos t0 <= sin t0).
      { assert (M := mono_le (fun u => sin u - u * cos u) (fun u => u * sin u) 0 t0 (Rlt_le _ _ Ht0)). cbv beta in M. rewrite sin_0, cos_0 in M.
        assert (0 - 0 * 1 <= sin t0 - t0 * cos t0); [|lra]. apply M.
        - intros u Hu. auto_derive; auto. ring.
        - intros u Hu. apply Rmult_le_pos; [lra|]. apply sin_ge_0; lra. }
      apply (Rmult_le_reg_r (t0 * sin t0)); [apply Rmult_lt_0_compat; lra|].
      replace (cos t0 / sin t0 * (t0 * sin t0)) with (t0 * cos t0) by (field; lra). replace (/ t0 * (t0 * sin t0)) with (sin t0) by (field; lra). exact H. }
    assert (Hc2 : 3 / (4 * N) * (cos t0 / sin t0) <= 3 / 4 * (10 / 37)).
    { apply Rle_trans with (3 / (4 * N) * / t0); [apply Rmult_le_compat_l; [left; apply Rdiv_lt_0_compat; lra|exact Hcot]|].
      right. unfold t0. field. lra. }
    pose proof (Gap i) as G. assert (Hd : N * dangle n i = (INR i + 1 / 4) * PI) by (unfold dangle; fold N; field; lra).
    apply le_INR in Hi. change (INR 1) with 1 in Hi. assert ((1 + 1 / 4) * PI <= (INR i + 1 / 4) * PI) by (apply Rmult_le_compat_r; lra). lra. }
  assert (Ex : forall i, (1 <= i)%nat -> (2 * i <= n)%nat -> exists t, t0 <= t <= PI / 2 /\ psi t = INR i * PI).
  { intros i Hi Hin. destruct (Low i Hi Hin) as (Ht2 & Lo).
    assert (Hle : INR i * PI <= INR n * (PI / 2)).
    { apply le_INR in Hin. rewrite mult_INR in Hin. change (INR 2) with 2 in Hin. nra. }
    destruct (Req_dec (psi t0) (INR i * PI)) as [E1|N1]; [exists t0; split; [lra|exact E1]|].
    destruct (Req_dec (psi (PI / 2)) (INR i * PI)) as [E2|N2]; [exists (PI / 2); split; [lra|exact E2]|].
    assert (Hne : t0 < PI / 2) by (destruct (Req_dec t0 (PI / 2)) as [E|E]; [rewrite E in N1, Lo; lra|lra]).
    destruct (Ranalysis5.IVT_interv (fun t => psi t - INR i * PI) t0 (PI / 2)) as (t & Ht & E).
    - intros t Ht. apply continuity_pt_filterlim. apply (ex_derive_continuous (fun t => psi t - INR i * PI)). exists (v t - 0).
      apply (is_derive_minus psi (fun _ => INR i * PI) t (v t) 0); [apply Hv; lra|]. auto_derive; auto.
    - exact Hne.
    - lra.
    - lra.
    - exists t. split; [exact Ht|]. lra. }
  destruct (finite_choice (fun i t => (1 <= i)%nat -> (2 * i <= n)%nat -> t0 <= t <= PI / 2 /\ psi t = INR i * PI) (S n)) as (th & Hth0).
  { intros i _. destruct (le_dec 1 i) as [H1|H1]; [|exists 0; intros; lia]. destruct (le_dec (2 * i) n) as [H2|H2]; [|exists 0; intros; lia].
    destruct (Ex i H1 H2) as (t & Ht). exists t. auto. }
  exists th. intros i Hi Hin. destruct (Hth0 i ltac:(lia) Hi Hin) as (Hr & Ep).
  assert (Ht : 0 < th i) by lra.
  split; [nra|]. split; [|split; [lra|split; [|split; [|split; [|split]]]]].
  - pose proof (Slow (th i) (PI / 2) Ht ltac:(lra) ltac:(lra)) as S. rewrite Ep, H0 in S. rewrite <- (Gap i) in S. nra.
  - apply HZ; [lra|]. rewrite Ep. apply sin_eq_0_1. exists (Z.of_nat i). rewrite <- INR_IZR_INZ. reflexivity.
  - assert (Hs : 0 < sin (th i)) by (apply sin_gt_0; lra). pose proof (Up (th i) ltac:(lra)) as U. rewrite Ep, H0 in U. rewrite <- (Gap i) in U.
    assert (U2 : N * (dangle n i - th i) <= 3 / (4 * N) * (cos (th i) / sin (th i))) by lra.
    apply (Rmult_le_compat_r (4 * N * sin (th i))) in U2; [|apply Rmult_le_pos; lra].
    replace (3 / (4 * N) * (cos (th i) / sin (th i)) * (4 * N * sin (th i))) with (3 * cos (th i)) in U2 by (field; split; lra). lra.
  - intros H2. destruct (Req_dec (th i) (PI / 2)) as [E|E]; [|lra]. exfalso. rewrite E, H0 in Ep.
    apply lt_INR in H2. rewrite mult_INR in H2. change (INR 2) with 2 in H2. nra.
  - intros H2. destruct (Req_dec (th i) (PI / 2)) as [E|E]; [exact E|]. exfalso. pose proof (Inc (th i) (PI / 2) ltac:(lra) ltac:(lra) ltac:(lra)) as I.
    rewrite Ep, H0 in I. rewrite <- H2, mult_INR in I. change (INR 2) with 2 in I. lra.
  - intros j Hj. destruct (Hth0 j) as (Hrj & Epj); [lia|lia|lia|]. destruct (Rlt_or_le (th j) (th i)) as [H|H]; [exact H|]. exfalso.
    assert (Hji : INR j < INR i) by (apply lt_INR; lia).
    destruct (Req_dec (th i) (th j)) as [E|E]; [rewrite E, Epj in Ep; nra|].
    pose proof (Inc (th i) (th j) ltac:(lra) ltac:(lra) ltac:(lra)) as I. rewrite Ep, Epj in I. nra.
Qed.
End Zeros.
