(** * Proofs for C107 *)
From Coq Require Import List Arith Bool Reals Lra Lia.
From Coquelicot Require Import Coquelicot.
From Verif Require Import RSum Outcome LegendreModel LegendreSpec LegendreProofs PolyProofs QuadratureProofs PhaseProofs LegendreZeroProofs NewtonZoneProofs LegendreRootsModel.
Import ListNotations.
Local Open Scope R_scope.

Lemma legendre_0 n x : legendre n x 0 = Ok (P n x).
Proof. destruct (legendre_defined n x 0) as (v & Hv); [lia|]. rewrite Hv. f_equal. exact (eq_sym (legendre_lemma n x 0 v Hv)). Qed.
Lemma legendre_1 n x : legendre n x 1 = Ok (D n x).
Proof.
  destruct (legendre_defined n x 1) as (v & Hv); [lia|]. rewrite Hv. f_equal. pose proof (legendre_lemma n x 1 v Hv) as H. cbn [is_derive_n Derive_n] in H.
  apply is_derive_unique in H. etransitivity; [symmetry; exact H|]. etransitivity; [|apply is_derive_unique; apply (D_derive n x)]. reflexivity.
Qed.
Lemma legendre_2 n x : legendre n x 2 = Ok (Q 2 x n).
Proof.
  destruct (legendre_defined n x 2) as (v & Hv); [lia|]. rewrite Hv. f_equal. pose proof (legendre_lemma n x 2 v Hv) as H. pose proof (Q_derive_n 2 n x) as H2.
  apply is_derive_n_unique in H. apply is_derive_n_unique in H2. congruence.
Qed.
Lemma D2_derive n x : is_derive (D n) x (Q 2 x n).
Proof. apply (is_derive_ext (fun x => Q 1 x n)); [intros; apply Q1_D|]. apply Q_derive. Qed.
Lemma D2_cont n x : continuous (fun x => Q 2 x n) x.
Proof. apply (ex_derive_continuous (fun x => Q 2 x n)). eexists. apply (Q_derive 2). Qed.
Lemma legendre_ode m x : (1 - x * x) * Q 2 x (S m) = 2 * x * D (S m) x - (INR m + 1) * (INR m + 2) * P (S m) x.
Proof.
  pose proof (lw_derive m x) as H1. pose proof (D2_derive (S m) x) as H2.
  assert (E2 : Derive (fun x => D (S m) x) x = Q 2 x (S m)) by (apply is_derive_unique; exact H2).
  assert (H3 : is_derive (lw (S m)) x (- (2 * x) * D (S m) x + (1 - x * x) * Q 2 x (S m))).
  { unfold lw. auto_derive; [repeat split; eexists; exact H2|]. rewrite E2. ring. }
  apply is_derive_unique in H1. apply is_derive_unique in H3. rewrite H1 in H3. lra.
Qed.

(** ** trigonometric bounds *)
Lemma sin_half t : 0 <= t <= PI / 2 -> t / 2 <= sin t.
Proof.
  intros Ht. pose proof PI_RGT_0. destruct (Rle_or_lt t (PI / 3)) as [H1|H1].
  - assert (t * cos t <= sin t).
    { assert (M := mono_le (fun u => sin u - u * cos u) (fun u => u * sin u) 0 t (proj1 Ht)). cbv beta in M. rewrite sin_0, cos_0 in M.
      assert (0 - 0 * 1 <= sin t - t * cos t); [|lra]. apply M.
      - intros u Hu. auto_derive; auto. ring.
      - intros u Hu. apply Rmult_le_pos; [lra|]. apply sin_ge_0; lra. }
    assert (1 / 2 <= cos t) by (rewrite <- cos_PI3; apply cos_decr_1; lra). nra.
  - assert (M := mono_le (fun u => u / 2 - sin u) (fun u => 1 / 2 - cos u) t (PI / 2) (proj2 Ht)). cbv beta in M. rewrite sin_PI2 in M. pose proof PI_4.
    assert (t / 2 - sin t <= PI / 2 / 2 - 1); [|lra]. apply M.
    + intros u Hu. auto_derive; auto. field.
    + intros u Hu. assert (cos u <= cos (PI / 3)) by (apply cos_decr_1; lra). rewrite cos_PI3 in H2. lra.
Qed.
Lemma cos_gap s t : 0 <= s -> s <= t -> t <= PI / 2 -> cos s - cos t <= (t - s) * sin t.
Proof.
  intros Hs Hst Ht. pose proof PI_RGT_0.
  assert (M := mono_le (fun u => (u - s) * sin u - cos s + cos u) (fun u => (u - s) * cos u) s t Hst). cbv beta in M.
  assert ((s - s) * sin s - cos s + cos s <= (t - s) * sin t - cos s + cos t); [|lra]. apply M.
  - intros u Hu. auto_derive; auto. ring.
  - intros u Hu. apply Rmult_le_pos; [lra|]. apply cos_ge_0; lra.
Qed.

(** ** the zone between a positive zero and its first guess *)
Lemma guess_zone m i th : (1 <= i)%nat -> (2 * i <= S m)%nat -> gangle (S m) i <= th < PI / 2 -> P (S m) (cos th) = 0 ->
  4 * half (S m) * half (S m) * (th - gangle (S m) i) * sin th <= cos th ->
  0 < cos th <= cos (gangle (S m) i) /\ cos (gangle (S m) i) < 1 /\ cos (gangle (S m) i) - cos th <= 1 / 9 /\
  (forall x, cos th <= x <= cos (gangle (S m) i) -> D (S m) x <> 0 /\ x - cos th <= (1 + 2 / 5) * (P (S m) x / D (S m) x) /\ P (S m) x / D (S m) x <= x - cos th) /\
  (forall x, cos th < x <= cos (gangle (S m) i) -> P (S m) x <> 0).
Proof.
  intros Hi Hin Hth HP Hb. set (N := half (S m)) in *. set (x0 := cos th) in *. set (g := cos (gangle (S m) i)) in *.
  assert (HN : 3 / 2 <= N). { unfold N, half. rewrite S_INR. pose proof (pos_INR m). lra. }
  pose proof PI_RGT_0 as HPI. pose proof PI2_3_2 as HP3.
  assert (Hphi : 9 / 4 <= N * gangle (S m) i).
  { unfold gangle. fold N. replace (N * ((INR i - 1 / 4) * PI / N)) with ((INR i - 1 / 4) * PI) by (field; lra).
    apply le_INR in Hi. change (INR 1) with 1 in Hi. nra. }
  assert (Hphi0 : 0 < gangle (S m) i) by nra.
  assert (Hx0 : 0 < x0) by (apply cos_gt_0; lra).
  assert (Hxg : x0 <= g) by (apply cos_decr_1; lra).
  assert (Hsin : gangle (S m) i / 2 <= sin (gangle (S m) i)) by (apply sin_half; lra).
  assert (Hg2 : 1 - g * g = sin (gangle (S m) i) * sin (gangle (S m) i)) by (unfold g; pose proof (sin2_cos2 (gangle (S m) i)) as S; unfold Rsqr in S; lra).
  assert (Hg0 : 0 < g) by lra.
  assert (Hg1 : g < 1) by nra.
  assert (Hd : 4 * N * N * (g - x0) <= x0).
  { pose proof (cos_gap (gangle (S m) i) th ltac:(lra) ltac:(lra) ltac:(lra)) as G. fold x0 g in G.
    apply Rle_trans with (4 * N * N * ((th - gangle (S m) i) * sin th)); [apply Rmult_le_compat_l; [nra|exact G]|]. lra. }
  assert (HNN : 9 / 4 <= N * N) by nra.
  assert (Hd9 : g - x0 <= 1 / 9) by nra.
  assert (HS : 81 / 64 <= N * N * (1 - g * g)).
  { rewrite Hg2. assert (9 / 8 <= N * sin (gangle (S m) i)) by nra. nra. }
  assert (Far : 2 * g * (g - x0) <= 2 / 5 * (1 - g * g)).
  { apply (Rmult_le_reg_l (N * N)); [lra|]. assert (N * N * (g - x0) <= 1 / 4) by nra. 
    assert (g * (N * N * (g - x0)) <= 1 * (1 / 4)) by (apply Rmult_le_compat; nra). lra. }
  assert (EL : (INR m + 1) * (INR m + 2) = N * N - 1 / 4) by (unfold N, half; rewrite S_INR; field).
  assert (Near : (INR m + 1) * (INR m + 2) * (g - x0) < 2 * x0) by (rewrite EL; nra).
  assert (HLp : 0 <= (INR m + 1) * (INR m + 2)) by (rewrite EL; lra).
  pose proof (simple m x0 HP) as HS0.
  assert (Z : exists s, (s = 1 \/ s = -1) /\ 0 < s * D (S m) x0).
  { destruct (Rlt_or_le 0 (D (S m) x0)) as [H|H]; [exists 1|exists (-1)]; split; auto; lra. }
  destruct Z as (s & Hs & Hpos).
  assert (D1' : forall x, is_derive (fun x => s * P (S m) x) x (s * D (S m) x)) by (intros x; apply (is_derive_scal (P (S m))); apply D_derive).
  assert (D2' : forall x, is_derive (fun x => s * D (S m) x) x (s * Q 2 x (S m))) by (intros x; apply (is_derive_scal (D (S m))); apply D2_derive).
  assert (C2' : forall x, continuous (fun x => s * Q 2 x (S m)) x) by (intros x; apply (continuous_mult (fun _ => s) (fun x => Q 2 x (S m))); [apply continuous_const|apply D2_cont]).
  assert (O' : forall x, (1 - x * x) * (s * Q 2 x (S m)) = 2 * x * (s * D (S m) x) - (INR m + 1) * (INR m + 2) * (s * P (S m) x)).
  { intros x. pose proof (legendre_ode m x) as O. transitivity (s * ((1 - x * x) * Q 2 x (S m))); [ring|]. rewrite O. ring. }
  assert (Z' : s * P (S m) x0 = 0) by (rewrite HP; ring).
  assert (H2 : 0 < 2) by lra. assert (Hxg' : 0 < x0 <= g) by lra.
  pose proof (zone_step 2 _ x0 g _ _ _ D1' D2' C2' O' Z' Hpos H2 HLp Hxg' Hg1 Near (2 / 5) ltac:(lra) Far) as ZS.
  pose proof (zone_positive 2 _ x0 g _ _ _ D1' D2' C2' O' Z' Hpos H2 HLp Hxg' Hg1 Near (2 / 5) ltac:(lra) Far) as ZP. cbv beta in ZS, ZP.
  split; [lra|]. split; [exact Hg1|]. split; [exact Hd9|]. split.
  - intros x Hx. destruct (ZS x Hx) as (A & B). assert (Hnz : D (S m) x <> 0) by (intros E; apply A; rewrite E; ring). split; [exact Hnz|].
    replace (P (S m) x / D (S m) x) with (s * P (S m) x / (s * D (S m) x)) by (field; split; [exact Hnz|destruct Hs; lra]). exact B.
  - intros x Hx E. pose proof (ZP x Hx) as W. rewrite E in W. lra.
Qed.

(** ** the Newton loop *)
Lemma find_root_zone n k (val slope : R -> R) (lam x0 g : R) : (forall x, legendre n x k = Ok (val x)) -> (forall x, legendre n x (k + 1) = Ok (slope x)) -> 0 < lam ->
  (forall x, x0 <= x <= g -> slope x <> 0 /\ x - x0 <= (1 + lam) * (val x / slope x) /\ val x / slope x <= x - x0) ->
  forall j fuel x, (j < fuel)%nat -> x0 <= x <= g -> x - x0 < ((1 + lam) / lam) ^ j * (1 / 10 ^ 15) ->
  exists r, find_root fuel n k x = Ok (Some r) /\ x0 <= r <= x /\ r - x0 <= lam * (1 / 10 ^ 15).
Proof.
  intros Hv Hsl Hlam Hz. set (tol := 1 / 10 ^ 15). induction j as [|j IH]; intros fuel x Hf Hx Hd; (destruct fuel as [|fuel]; [lia|]); cbn [find_root];
    rewrite Hv; cbn [obind]; rewrite Hsl; cbn [obind];
    destruct (Hz x Hx) as (Hnz & Hlo & Hup); (destruct (Req_EM_T (slope x) 0) as [E|_]; [contradiction|]); fold tol;
    assert (Hq0 : 0 <= val x / slope x) by nra;
    replace (x - (x - val x / slope x)) with (val x / slope x) by ring; rewrite Rabs_right by lra.
  - assert (Hlt : val x / slope x < tol) by (simpl in Hd; lra). destruct (Rlt_dec (val x / slope x) tol) as [_|C]; [|contradiction].
    eexists. split; [reflexivity|]. split; [lra|]. nra.
  - destruct (Rlt_dec (val x / slope x) tol) as [Hlt|_].
    + eexists. split; [reflexivity|]. split; [lra|]. nra.
    + destruct (IH fuel (x - val x / slope x)) as (r & Er & Hr1 & Hr2); [lia|lra| |].
      * change (((1 + lam) / lam) ^ S j) with ((1 + lam) / lam * ((1 + lam) / lam) ^ j) in Hd. set (B := ((1 + lam) / lam) ^ j * tol) in *.
        replace ((1 + lam) / lam * ((1 + lam) / lam) ^ j * tol) with ((1 + lam) / lam * B) in Hd by (unfold B; ring).
        apply (Rmult_lt_reg_l ((1 + lam) / lam)); [apply Rdiv_lt_0_compat; lra|]. apply Rle_lt_trans with (2 := Hd).
        apply (Rmult_le_reg_l lam); [exact Hlam|]. replace (lam * ((1 + lam) / lam * (x - val x / slope x - x0))) with ((1 + lam) * (x - val x / slope x - x0)) by (field; lra). lra.
      * exists r. split; [exact Er|]. split; [lra|exact Hr2].
Qed.

Lemma find_root_opp n k (val slope : R -> R) (sg : R) : (forall x, legendre n x k = Ok (val x)) -> (forall x, legendre n x (k + 1) = Ok (slope x)) ->
  sg <> 0 -> (forall x, val (- x) = sg * val x) -> (forall x, slope (- x) = - sg * slope x) ->
  forall fuel x, find_root fuel n k (- x) = omap (option_map Ropp) (find_root fuel n k x).
Proof.
  intros Hv Hsl Hs Pv Ps. induction fuel as [|fuel IH]; intros x; [reflexivity|]. cbn [find_root].
  rewrite !Hv. cbn [obind]. rewrite !Hsl. cbn [obind]. rewrite Pv, Ps.
  destruct (Req_EM_T (slope x) 0) as [E|E]; destruct (Req_EM_T (- sg * slope x) 0) as [E'|E'].
  - reflexivity.
  - exfalso. apply E'. rewrite E. ring.
  - exfalso. apply Rmult_integral in E'. destruct E' as [E'|E']; [|contradiction]. apply Hs. lra.
  - assert (R : - x - sg * val x / (- sg * slope x) = - (x - val x / slope x)) by (field; auto).
    rewrite R. replace (- x - - (x - val x / slope x)) with (- (x - (x - val x / slope x))) by ring. rewrite Rabs_Ropp.
    destruct (Rlt_dec (Rabs (x - (x - val x / slope x))) (1 / 10 ^ 15)); [reflexivity|]. apply IH.
Qed.
