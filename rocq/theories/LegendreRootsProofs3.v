(** * Proofs for C107, the zeros of the derivative *)
From Coq Require Import List Arith Bool Reals Lra Lia.
From Coquelicot Require Import Coquelicot.
From Verif Require Import RSum Outcome LegendreModel LegendreSpec LegendreProofs PolyProofs QuadratureProofs PhaseProofs LegendreZeroProofs LegendreDerivZeroProofs NewtonZoneProofs LegendreRootsModel LegendreRootsProofs LegendreRootsProofs2 LegendreRootsSpec.
Import ListNotations.
Local Open Scope R_scope.

Lemma cos_low w : 0 <= w <= PI -> 1 - cos w <= w * w / 2.
Proof.
  intros Hw.
  assert (S : forall u, 0 <= u <= PI -> sin u <= u).
  { intros u Hu. assert (M := mono_le (fun t => t - sin t) (fun t => 1 - cos t) 0 u (proj1 Hu)). cbv beta in M. rewrite sin_0 in M.
    assert (0 - 0 <= u - sin u); [|lra]. apply M; [intros t Ht; auto_derive; auto; ring|]. intros t Ht. pose proof (COS_bound t). lra. }
  assert (M := mono_le (fun t => t * t / 2 + cos t) (fun t => t - sin t) 0 w (proj1 Hw)). cbv beta in M. rewrite cos_0 in M.
  assert (0 * 0 / 2 + 1 <= w * w / 2 + cos w); [|lra]. apply M; [intros t Ht; auto_derive; auto; field|]. intros t Ht. pose proof (S t ltac:(lra)). lra.
Qed.
Lemma sin_above s t : 0 <= s -> s <= t -> t <= PI / 2 -> sin t <= sin s + (t - s) * cos s.
Proof.
  intros Hs Hst Ht. pose proof PI_RGT_0.
  assert (M := mono_le (fun u => sin s + (u - s) * cos s - sin u) (fun u => cos s - cos u) s t Hst). cbv beta in M.
  assert (sin s + (s - s) * cos s - sin s <= sin s + (t - s) * cos s - sin t); [|lra]. apply M.
  - intros u Hu. auto_derive; auto. ring.
  - intros u Hu. assert (cos u <= cos s) by (apply cos_decr_1; lra). lra.
Qed.
Lemma tan_above t : 0 <= t <= PI / 2 -> t * cos t <= sin t.
Proof.
  intros Ht. pose proof PI_RGT_0. assert (M := mono_le (fun u => sin u - u * cos u) (fun u => u * sin u) 0 t (proj1 Ht)). cbv beta in M. rewrite sin_0, cos_0 in M.
  assert (0 - 0 * 1 <= sin t - t * cos t); [|lra]. apply M.
  - intros u Hu. auto_derive; auto. ring.
  - intros u Hu. apply Rmult_le_pos; [lra|]. apply sin_ge_0; lra.
Qed.

Lemma below_one g : 0 < 1 - g * g -> g < 1.
Proof. intros H. destruct (Rlt_or_le g 1) as [K|K]; [exact K|]. nra. Qed.

(** the starting point for the i-th zero of the derivative *)
Definition dguess (n i : nat) : R := cos (dangle n i) * cos (PI / (2 * half n)).

Lemma deriv_simple m x : D (S m) x = 0 -> D2 (S m) x <> 0.
Proof.
  intros H0 H2. pose proof (legendre_ode m x) as O. change (Q 2 x (S m)) with (D2 (S m) x) in O. rewrite H0, H2 in O. pose proof (pos_INR m).
  assert (E : (INR m + 1) * (INR m + 2) * P (S m) x = 0) by lra. apply Rmult_integral in E. destruct E as [E|E]; [nra|]. exact (simple m x E H0).
Qed.
Lemma D2_cont' n x : continuous (D3 n) x.
Proof. apply (ex_derive_continuous (D3 n)). eexists. apply (Q_derive 3). Qed.

Lemma deriv_zone m i th : (1 <= i)%nat -> (2 * i < S m)%nat -> 37 / 10 <= half (S m) * th -> th <= dangle (S m) i -> th < PI / 2 -> D (S m) (cos th) = 0 ->
  4 * half (S m) * half (S m) * (dangle (S m) i - th) * sin th <= 3 * cos th ->
  let X := cos th in let y := dguess (S m) i in exists g,
  0 < X <= g /\ g < 1 /\ g - X <= 1 / 7 /\
  (forall x, X <= x <= g -> D2 (S m) x <> 0 /\ x - X <= (1 + 4 / 5) * (D (S m) x / D2 (S m) x) /\ D (S m) x / D2 (S m) x <= x - X) /\
  (forall x, X < x <= g -> D (S m) x <> 0) /\
  0 <= X - y /\ D2 (S m) y <> 0 /\ X - y <= - (D (S m) y / D2 (S m) y) <= g - y.
Proof.
  intros Hi Hin Hth Hle Hlt HD Hb X y. set (N := half (S m)) in *.
  pose proof pi_bounds as HPI.
  assert (HN : 7 / 2 <= N). { unfold N, half. assert (H3 : (3 <= S m)%nat) by lia. apply le_INR in H3. change (INR 3) with (1 + 1 + 1) in H3. lra. }
  assert (Hth0 : 0 < th) by nra.
  assert (HX : 0 < X) by (apply cos_gt_0; lra).
  assert (Hs0 : 0 < sin th) by (apply sin_gt_0; lra).
  assert (Hda : dangle (S m) i <= PI / 2).
  { unfold dangle. fold N. apply (Rmult_le_reg_r N); [lra|]. replace ((INR i + 1 / 4) * PI / N * N) with ((INR i + 1 / 4) * PI) by (field; lra).
    assert (Hi2 : INR (2 * i) <= INR (S m)) by (apply le_INR; lia). rewrite mult_INR in Hi2. change (INR 2) with 2 in Hi2. unfold N, half. nra. }
  assert (Hc0 : 0 <= cos (dangle (S m) i)) by (apply cos_ge_0; lra).
  assert (HcX : cos (dangle (S m) i) <= X) by (apply cos_decr_1; lra).
  assert (Epy : sin th * sin th = 1 - X * X) by (unfold X; pose proof (sin2_cos2 th) as S; unfold Rsqr in S; lra).
  set (e := / (N * N)). assert (He : 0 < e) by (apply Rinv_0_lt_compat; nra). assert (HeN : N * N * e = 1) by (unfold e; field; lra).
  assert (He12 : e <= 4 / 49). { apply (Rmult_le_reg_l (N * N)); [nra|]. rewrite HeN. nra. }
  assert (T : 1369 / 100 * (X * X) * e <= 1 - X * X).
  { rewrite <- Epy. pose proof (tan_above th ltac:(lra)) as Ta. fold X in Ta. assert (37 / 10 * X <= N * sin th) by nra.
    assert (1369 / 100 * (X * X) <= (N * sin th) * (N * sin th)) by nra. 
    apply (Rmult_le_compat_r e) in H0; [|lra]. replace (N * sin th * (N * sin th) * e) with (sin th * sin th * (N * N * e)) in H0 by ring. rewrite HeN in H0. lra. }
  (* the distance of the guess *)
  set (w := dangle (S m) i - th) in *.
  assert (Hw : 0 <= w) by (unfold w; lra).
  assert (Hw1 : w * sin th <= 3 / 4 * X * e).
  { apply (Rmult_le_reg_l (4 * N * N)); [nra|]. replace (4 * N * N * (3 / 4 * X * e)) with (3 * X * (N * N * e)) by field. rewrite HeN. unfold X. lra. }
  assert (Hd1 : X - cos (dangle (S m) i) <= 8 / 10 * (X * e)).
  { pose proof (cos_gap th (dangle (S m) i) ltac:(lra) Hle Hda) as G. fold X w in G.
    pose proof (sin_above th (dangle (S m) i) ltac:(lra) Hle Hda) as A. fold X w in A.
    assert (G2 : w * sin (dangle (S m) i) <= w * sin th + w * w * X) by nra.
    assert (W2 : w * w * X * (sin th * sin th) <= 3 / 4 * X * e * (3 / 4 * X * e) * X).
    { replace (w * w * X * (sin th * sin th)) with ((w * sin th) * (w * sin th) * X) by ring. apply Rmult_le_compat_r; [lra|]. apply Rmult_le_compat; nra. }
    assert (W3 : w * w * X <= 1 / 20 * (X * e)).
    { apply (Rmult_le_reg_r (sin th * sin th)); [nra|]. apply Rle_trans with (1 := W2). rewrite Epy.
      apply Rle_trans with (1 / 20 * (X * e) * (1369 / 100 * (X * X) * e)); [|apply Rmult_le_compat_l; [nra|exact T]].
      replace (3 / 4 * X * e * (3 / 4 * X * e) * X) with (9 / 16 * (X * X * X * (e * e))) by field.
      replace (1 / 20 * (X * e) * (1369 / 100 * (X * X) * e)) with (1369 / 2000 * (X * X * X * (e * e))) by field.
      apply Rmult_le_compat_r; [|lra]. repeat apply Rmult_le_pos; lra. }
    lra. }
  assert (Hk : 1 - cos (PI / (2 * N)) <= 1235 / 1000 * e).
  { assert (Hpn : 0 <= PI / (2 * N) <= PI). { split; [left; apply Rdiv_lt_0_compat; lra|]. apply (Rmult_le_reg_r (2 * N)); [lra|]. replace (PI / (2 * N) * (2 * N)) with PI by (field; lra). nra. }
    pose proof (cos_low _ Hpn) as C. apply Rle_trans with (1 := C). replace (PI / (2 * N) * (PI / (2 * N)) / 2) with (PI * PI / 8 * e) by (unfold e; field; lra).
    apply Rmult_le_compat_r; [lra|]. nra. }
  assert (Hkk : cos (PI / (2 * N)) <= 1) by (pose proof (COS_bound (PI / (2 * N))); lra).
  assert (Hy1 : y <= X).
  { unfold y, dguess. fold N. apply Rle_trans with (cos (dangle (S m) i) * 1); [apply Rmult_le_compat_l; lra|lra]. }
  set (s := X - y).
  assert (Hs : s <= 2035 / 1000 * (X * e)).
  { unfold s, y, dguess. fold N. assert (cos (dangle (S m) i) * (1 - cos (PI / (2 * N))) <= X * (1235 / 1000 * e)) by (apply Rmult_le_compat; lra). lra. }
  assert (HXe : 0 < X * e) by nra.
  assert (HX1 : X < 1) by (apply below_one; rewrite <- Epy; apply Rmult_lt_0_compat; exact Hs0).
  assert (HXe2 : X * e <= X * (4 / 49)) by (apply Rmult_le_compat_l; lra).
  (* right zone *)
  set (L := (INR m + 1) * (INR m + 2) - 2).
  assert (EL : L = N * N - 9 / 4) by (unfold L, N, half; rewrite S_INR; field).
  assert (HL0 : 0 <= L) by (rewrite EL; nra).
  assert (HLe : L * e <= 1) by (rewrite EL; nra).
  set (g := X + 172 / 100 * (X * e)).
  assert (Hg1X : 1 - g * g >= 10 * (X * X * e)).
  { unfold g. assert (HXX : 0 <= X * X * e) by (apply Rmult_le_pos; [apply Rmult_le_pos|]; lra). pose proof (Rmult_le_compat_l _ _ _ HXX He12) as HE. replace ((X + 172 / 100 * (X * e)) * (X + 172 / 100 * (X * e))) with (X * X + 344 / 100 * (X * X * e) + 29584 / 10000 * (X * X * e * e)) by field. lra. }
  assert (HXXe : 0 < X * X * e) by (apply Rmult_lt_0_compat; [apply Rmult_lt_0_compat|]; lra).
  assert (Hg0 : 0 < g) by (unfold g; lra).
  assert (Hg1 : g < 1) by (apply below_one; lra).
  assert (Near : L * (g - X) < 4 * X).
  { unfold g. replace (L * (X + 172 / 100 * (X * e) - X)) with (172 / 100 * X * (L * e)) by ring. assert (Hx2 : 0 <= 172 / 100 * X) by lra. pose proof (Rmult_le_compat_l _ _ _ Hx2 HLe). lra. }
  assert (Far : 4 * g * (g - X) <= 4 / 5 * (1 - g * g)).
  { apply Rle_trans with (8 * (X * X * e)); [|lra]. unfold g. 
    replace (4 * (X + 172 / 100 * (X * e)) * (X + 172 / 100 * (X * e) - X)) with (688 / 100 * (X * X * e) * (1 + 172 / 100 * e)) by field. apply Rle_trans with (688 / 100 * (X * X * e) * (1 + 172 / 100 * (4 / 49))); [apply Rmult_le_compat_l; lra|lra]. }
  pose proof (deriv_simple m X HD) as HS0.
  assert (Z : exists sg, (sg = 1 \/ sg = -1) /\ 0 < sg * D2 (S m) X).
  { destruct (Rlt_or_le 0 (D2 (S m) X)) as [H|H]; [exists 1|exists (-1)]; split; auto; lra. }
  destruct Z as (sg & Hsg & Hpos).
  assert (D1' : forall x, is_derive (fun x => sg * D (S m) x) x (sg * D2 (S m) x)) by (intros x; apply (is_derive_scal (D (S m))); apply D_D2).
  assert (D2' : forall x, is_derive (fun x => sg * D2 (S m) x) x (sg * D3 (S m) x)) by (intros x; apply (is_derive_scal (D2 (S m))); apply D2_D3).
  assert (C2' : forall x, continuous (fun x => sg * D3 (S m) x) x) by (intros x; apply (continuous_mult (fun _ => sg) (D3 (S m))); [apply continuous_const|apply D2_cont']).
  assert (O' : forall x, (1 - x * x) * (sg * D3 (S m) x) = 4 * x * (sg * D2 (S m) x) - L * (sg * D (S m) x)).
  { intros x. pose proof (deriv_ode m x) as O. transitivity (sg * ((1 - x * x) * D3 (S m) x)); [ring|]. rewrite O. unfold L. ring. }
  assert (Z' : sg * D (S m) X = 0) by (unfold X; rewrite HD; ring).
  assert (H4 : 0 < 4) by lra. assert (Hxg : 0 < X <= g) by (unfold g; lra).
  pose proof (zone_step 4 L X g _ _ _ D1' D2' C2' O' Z' Hpos H4 HL0 Hxg Hg1 Near (4 / 5) ltac:(lra) Far) as ZS.
  pose proof (zone_positive 4 L X g _ _ _ D1' D2' C2' O' Z' Hpos H4 HL0 Hxg Hg1 Near (4 / 5) ltac:(lra) Far) as ZP. cbv beta in ZS, ZP.
  (* left zone *)
  set (mu := 9 / 40 * (N * N) / X).
  assert (Emu : mu * (X * e) = 9 / 40) by (unfold mu; replace (9 / 40 * (N * N) / X * (X * e)) with (9 / 40 * (N * N * e)) by (field; lra); rewrite HeN; lra).
  assert (Hmu0 : 0 < mu) by (unfold mu; apply Rdiv_lt_0_compat; [|exact HX]; apply Rmult_lt_0_compat; [lra|]; apply Rmult_lt_0_compat; lra).
  assert (Hss : 0 <= s < X) by (split; [unfold s; lra|lra]).
  assert (Hmus : mu * s <= 2035 / 1000 * (9 / 40)) by (rewrite <- Emu; replace (2035 / 1000 * (mu * (X * e))) with (mu * (2035 / 1000 * (X * e))) by ring; apply Rmult_le_compat_l; lra).
  assert (Room : forall u, 0 <= u <= s -> 4 * (X - u) * (1 - mu * u) + L * u <= mu * (2 - mu * u) * (1 - (X - u) * (X - u))).
  { intros u Hu. set (q := u * (N * N) / X). assert (Eq : u = q * (X * e)) by (unfold q; replace (u * (N * N) / X * (X * e)) with (u * (N * N * e)) by (field; lra); rewrite HeN; ring).
    assert (Hq : 0 <= q <= 2035 / 1000).
    { split; [unfold q; apply Rmult_le_pos; [apply Rmult_le_pos; [lra|apply Rmult_le_pos; lra]|left; apply Rinv_0_lt_compat; lra]|]. apply (Rmult_le_reg_r (X * e)); [exact HXe|]. rewrite <- Eq. lra. }
    assert (Emq : mu * u = 9 / 40 * q) by (rewrite Eq, <- Emu; ring). rewrite Emq.
    assert (A1 : 4 * (X - u) * (1 - 9 / 40 * q) <= 4 * X * (1 - 9 / 40 * q)) by (apply Rmult_le_compat_r; lra).
    assert (A2 : L * u <= X * q). { rewrite Eq. replace (L * (q * (X * e))) with (q * X * (L * e)) by ring. assert (Hqx : 0 <= q * X) by (apply Rmult_le_pos; lra). pose proof (Rmult_le_compat_l _ _ _ Hqx HLe). lra. }
    assert (A3 : mu * (2 - 9 / 40 * q) * (1369 / 100 * (X * X) * e) <= mu * (2 - 9 / 40 * q) * (1 - (X - u) * (X - u))).
    { apply Rmult_le_compat_l; [apply Rmult_le_pos; lra|]. assert ((X - u) * (X - u) <= X * X) by (apply Rmult_le_compat; lra). lra. }
    replace (mu * (2 - 9 / 40 * q) * (1369 / 100 * (X * X) * e)) with (1369 / 100 * X * (2 - 9 / 40 * q) * (mu * (X * e))) in A3 by ring. rewrite Emu in A3.
    assert (A4 : X * (4 * (1 - 9 / 40 * q) + q) <= X * (1369 / 100 * (9 / 40) * (2 - 9 / 40 * q))) by (apply Rmult_le_compat_l; lra). lra. }
  pose proof (left_zone L X s mu _ _ _ D1' D2' O' Z' Hpos HL0 Hss HX1 ltac:(lra) ltac:(lra) Room s ltac:(lra)) as (LZ1 & LZ2 & LZ3). cbv beta in LZ1, LZ2, LZ3.
  assert (Ey : X - s = y) by (unfold s; ring). rewrite Ey in LZ1, LZ2, LZ3.
  exists g. split; [exact Hxg|]. split; [exact Hg1|]. split; [unfold g; lra|]. split; [|split; [|split; [|split]]].
  - intros x Hx. destruct (ZS x Hx) as (A & B). assert (Hnz : D2 (S m) x <> 0) by (intros E; apply A; rewrite E; ring). split; [exact Hnz|].
    replace (D (S m) x / D2 (S m) x) with (sg * D (S m) x / (sg * D2 (S m) x)) by (field; split; [exact Hnz|destruct Hsg; lra]). exact B.
  - intros x Hx E. pose proof (ZP x Hx) as W. rewrite E in W. lra.
  - lra.
  - intros E. rewrite E in LZ1. lra.
  - assert (Hnz : D2 (S m) y <> 0) by (intros E; rewrite E in LZ1; lra).
    replace (- (D (S m) y / D2 (S m) y)) with (- (sg * D (S m) y) / (sg * D2 (S m) y)) by (field; split; [exact Hnz|destruct Hsg; lra]).
    set (A := - (sg * D (S m) y)) in *. set (B := sg * D2 (S m) y) in *. fold s. split.
    + apply (Rmult_le_reg_r B); [exact LZ1|]. replace (A / B * B) with A by (field; lra). exact LZ2.
    + apply (Rmult_le_reg_r B); [exact LZ1|]. replace (A / B * B) with A by (field; lra).
      assert (Hrm : 0 < 1 - mu * s) by lra. apply (Rmult_le_reg_l (1 - mu * s)); [exact Hrm|]. apply Rle_trans with (1 := LZ3).
      replace ((1 - mu * s) * ((g - y) * B)) with ((1 - mu * s) * (g - y) * B) by ring. apply Rmult_le_compat_r; [lra|].
      replace (g - y) with (172 / 100 * (X * e) + s) by (unfold g, s; ring).
      assert (mu * s * s <= (1 - mu * s) * (172 / 100 * (X * e))); [|lra].
      apply Rle_trans with (2035 / 1000 * (9 / 40) * (2035 / 1000 * (X * e))); [apply Rmult_le_compat; [apply Rmult_le_pos; lra|lra|lra|lra]|].
      apply Rle_trans with ((1 - 2035 / 1000 * (9 / 40)) * (172 / 100 * (X * e))); [lra|]. apply Rmult_le_compat_r; lra.
Qed.

Lemma half_deriv_roots m : exists z r : nat -> R, forall i, (1 <= i)%nat -> (2 * i <= S m)%nat ->
  D (S m) (z i) = 0 /\ 0 <= z i < 1 /\ ((2 * i <= m)%nat -> 0 < z i) /\
  find_root 43 (S m) 1 (dguess (S m) i) = Ok (Some (r i)) /\
  z i <= r i < 1 /\ r i - z i <= 1 / 10 ^ 15 /\ D2 (S m) (r i) <> 0 /\ (forall j, (1 <= j < i)%nat -> r i < z j).
Proof.
  destruct (deriv_zero_angle m) as (th & Hth). pose proof pi_bounds as HPI. set (n := S m) in *. pose proof (half_pos n) as HN.
  assert (Each : forall i, (1 <= i)%nat -> (2 * i <= n)%nat -> exists r,
    find_root 43 n 1 (dguess n i) = Ok (Some r) /\ cos (th i) <= r < 1 /\ r - cos (th i) <= 1 / 10 ^ 15 /\ D2 n r <> 0 /\
    (forall j, (1 <= j < i)%nat -> r < cos (th j))).
  { intros i Hi Hin. destruct (Hth i Hi Hin) as (Hlo & Hle & Hr & HD & Hb & Hlt & Hmid & Hord).
    assert (Hti : 0 < th i) by nra.
    assert (Hdec : forall j, (1 <= j < i)%nat -> cos (th i) < cos (th j)).
    { intros j Hj. destruct (Hth j) as (Hloj & _ & Hrj & _); [lia|lia|]. assert (0 < th j) by nra. apply cos_decreasing_1; try lra. apply Hord; lia. }
    destruct (le_dec (2 * i + 1) n) as [H2|H2].
    - specialize (Hlt ltac:(lia)).
      destruct (deriv_zone m i (th i) Hi ltac:(lia) Hlo Hle Hlt HD Hb) as (g & Zx & Zg & Zd & Zs & Zp & Zy & Zn & Zf & Zr). fold n in Zd, Zs, Zp, Zy, Zn, Zf, Zr.
      set (X := cos (th i)) in *. set (y := dguess n i) in *. set (q := D n y / D2 n y) in *.
      assert (NoOther : forall x, x <= g -> forall j, (1 <= j < i)%nat -> x < cos (th j)).
      { intros x Hx j Hj. pose proof (Hdec j Hj) as Hd. destruct (Rle_or_lt (cos (th j)) g) as [Hl|Hgt]; [|lra].
        exfalso. apply (Zp (cos (th j))); [lra|]. apply Hth; lia. }
      assert (S1 : forall r, find_root 42 n 1 (y - q) = Ok (Some r) -> ~ Rabs q < 1 / 10 ^ 15 -> find_root 43 n 1 y = Ok (Some r)).
      { intros r Er Hn. change 43%nat with (S 42). cbn [find_root]. rewrite legendre_1. cbn [obind]. change (1 + 1)%nat with 2%nat. rewrite legendre_2. cbn [obind].
        change (Q 2 y n) with (D2 n y). destruct (Req_EM_T (D2 n y) 0) as [E|_]; [contradiction|]. fold q. replace (y - (y - q)) with q by ring.
        destruct (Rlt_dec (Rabs q) (1 / 10 ^ 15)) as [C|_]; [contradiction|]. exact Er. }
      destruct (Rlt_dec (Rabs q) (1 / 10 ^ 15)) as [Hq|Hq].
      + exists (y - q). split.
        { change 43%nat with (S 42). cbn [find_root]. rewrite legendre_1. cbn [obind]. change (1 + 1)%nat with 2%nat. rewrite legendre_2. cbn [obind].
          change (Q 2 y n) with (D2 n y). destruct (Req_EM_T (D2 n y) 0) as [E|_]; [contradiction|]. fold q. replace (y - (y - q)) with q by ring.
          destruct (Rlt_dec (Rabs q) (1 / 10 ^ 15)) as [_|C]; [reflexivity|contradiction]. }
        apply Rabs_def2 in Hq. split; [lra|]. split; [lra|]. split; [apply (Zs (y - q)); lra|]. apply NoOther. lra.
      + destruct (find_root_zone n 1 (D n) (D2 n) (4 / 5) X g) with (j := 41%nat) (fuel := 42%nat) (x := y - q) as (r & Er & Hr1 & Hr2).
        * apply legendre_1.
        * intros x. apply (legendre_2 n x).
        * lra.
        * exact Zs.
        * lia.
        * lra.
        * apply Rle_lt_trans with (1 / 7); [lra|]. simpl. lra.
        * exists r. split; [apply S1; assumption|]. split; [lra|]. split; [lra|]. split; [apply (Zs r); lra|]. apply NoOther. lra.
    - assert (E2 : (2 * i = n)%nat) by lia.
      assert (Eg : dangle n i = PI / 2).
      { unfold dangle. assert (Ei : 2 * INR i = INR n) by (rewrite <- (mult_INR 2 i : INR (2 * i) = 2 * INR i), E2; reflexivity).
        replace (INR i) with (INR n / 2) by lra. unfold half in *. field. lra. }
      assert (Et : th i = PI / 2) by (apply Hmid; exact E2).
      rewrite Et, cos_PI2 in HD. unfold dguess. rewrite Eg, Et, cos_PI2, Rmult_0_l. exists 0.
      pose proof (deriv_simple m 0 HD) as Hs. fold n in Hs.
      split; [|split; [lra|split; [|split; [exact Hs|]]]].
      + change 43%nat with (S 42). cbn [find_root]. rewrite legendre_1. cbn [obind]. change (1 + 1)%nat with 2%nat. rewrite legendre_2. cbn [obind].
        change (Q 2 0 n) with (D2 n 0). destruct (Req_EM_T (D2 n 0) 0) as [E|_]; [contradiction|]. rewrite HD.
        assert (EZ : 0 - 0 / D2 n 0 = 0) by (field; exact Hs). rewrite EZ. rewrite Rminus_0_r, Rabs_R0.
        destruct (Rlt_dec 0 (1 / 10 ^ 15)) as [_|C]; [reflexivity|]. exfalso. apply C. simpl. lra.
      + simpl. lra.
      + intros j Hj. pose proof (Hdec j Hj) as Hd. rewrite Et, cos_PI2 in Hd. exact Hd. }
  destruct (finite_choice (fun i r => (1 <= i)%nat -> (2 * i <= n)%nat ->
    find_root 43 n 1 (dguess n i) = Ok (Some r) /\ cos (th i) <= r < 1 /\ r - cos (th i) <= 1 / 10 ^ 15 /\ D2 n r <> 0 /\
    (forall j, (1 <= j < i)%nat -> r < cos (th j))) (S n)) as (r & Hr).
  { intros i _. destruct (le_dec 1 i) as [H1|H1]; [|exists 0; intros; lia]. destruct (le_dec (2 * i) n) as [H2|H2]; [|exists 0; intros; lia].
    destruct (Each i H1 H2) as (t & Ht). exists t. auto. }
  exists (fun i => cos (th i)), r. intros i Hi Hin. destruct (Hth i Hi Hin) as (Hlo & Hle & Ht & HD & Hb & Hlt & Hmid & Hord). assert (Hti : 0 < th i) by nra.
  destruct (Hr i ltac:(lia) Hi Hin) as (Er & Hr1 & Hr2 & Hr3 & Hr4).
  split; [exact HD|]. split; [split; [apply cos_ge_0; lra|lra]|].
  split; [intros H2; apply cos_gt_0; [lra|apply Hlt; lia]|]. split; [exact Er|]. split; [exact Hr1|]. split; [exact Hr2|]. split; [exact Hr3|exact Hr4].
Qed.

Lemma dguess_mean n i : / 2 * (cos (gangle n i) + cos (gangle n (S i))) = dguess n i.
Proof.
  unfold dguess. set (A := dangle n i). set (B := PI / (2 * half n)). pose proof (half_pos n).
  replace (gangle n i) with (A - B) by (unfold A, B, gangle, dangle; field; lra).
  replace (gangle n (S i)) with (A + B) by (unfold A, B, gangle, dangle; rewrite S_INR; field; lra).
  rewrite cos_minus, cos_plus. field.
Qed.
Lemma dguess_opp n i : (i <= n)%nat -> dguess n (n - i) = - dguess n i.
Proof.
  intros Hi. unfold dguess. replace (dangle n (n - i)) with (- dangle n i + PI).
  - rewrite neg_cos, cos_neg. ring.
  - unfold dangle. rewrite minus_INR by exact Hi. unfold half. field. pose proof (pos_INR n). lra.
Qed.

Lemma deriv_roots_lemma n : (1 <= n)%nat -> exists computed zeros, (forall fuel, (43 <= fuel)%nat -> legendre_deriv_roots fuel n = Ok (Some computed)) /\
  length computed = (n - 1)%nat /\ length zeros = (n - 1)%nat /\ zeros_of (D n) zeros /\ ascending computed /\
  forall i, (i < n - 1)%nat -> -1 < nth i zeros 0 < 1 /\ -1 < nth i computed 0 < 1 /\ D2 n (nth i computed 0) <> 0 /\
    Rabs (nth i computed 0 - nth i zeros 0) <= 1 / 10 ^ 15.
Proof.
  destruct n as [|m]; intros Hn; [lia|]. destruct (half_deriv_roots m) as (z & r & H). set (n := S m) in *.
  destruct (whole_list n 1 m 43 (D n) (D2 n) (dguess n) (- (-1) ^ n) (1 / 10 ^ 15)) with (z0 := z) (r0 := r) as (computed & zeros & W).
  - apply legendre_1.
  - intros x. apply (legendre_2 n x).
  - apply Ropp_neq_0_compat. apply pow_nonzero. lra.
  - intros x. apply D_odd.
  - intros x. rewrite Q2_odd. ring.
  - intros i Hi. replace (m + 1 - i)%nat with (n - i)%nat by (unfold n; lia). apply dguess_opp. unfold n. lia.
  - apply D_polylt.
  - rewrite D_at_1. unfold n. rewrite S_INR. pose proof (pos_INR m). nra.
  - intros i Hi Hin. destruct (H i Hi) as (A & B & B2 & C & E & F & G & K); [unfold n; lia|]. repeat (split; [assumption|]). exact K.
  - replace (n - 1)%nat with m by (unfold n; lia). exists computed, zeros. destruct W as (W1 & W2). split; [|exact W2]. intros fuel Hf. rewrite <- (W1 fuel Hf).
    unfold legendre_deriv_roots. unfold n at 1. f_equal. replace (n - 1)%nat with m by (unfold n; lia). apply map_ext_in. intros i Hi. apply in_seq in Hi.
    unfold first_guess. rewrite <- dguess_mean, <- !guess_angle.
    assert (E : forall j, (j < n)%nat -> nth j (map (fun i => cos (PI * (4 * INR i - 1) / (4 * INR n + 2))) (seq 1 n)) 0 = cos (PI * (4 * INR (S j) - 1) / (4 * INR n + 2))).
    { intros j Hj. rewrite (nth_indep _ 0 (cos (PI * (4 * INR 0 - 1) / (4 * INR n + 2)))) by (rewrite map_length, seq_length; exact Hj).
      rewrite (map_nth (fun i => cos (PI * (4 * INR i - 1) / (4 * INR n + 2)))), seq_nth by exact Hj. reflexivity. }
    rewrite !E by (unfold n; lia). replace (S (i - 1)) with i by lia. reflexivity.
Qed.
