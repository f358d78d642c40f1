(** A sphere that touches a cylinder wall overlaps a sub-box through which the wall runs. *)
From Coq Require Import Reals ZArith List Bool Lia Lra Psatz.
From Verif Require Import Outcome Vec3 CollisionModel CollisionSpec CollisionProofs CollisionProofs2
  SubBoxModel SubBoxSpec SubBoxProofs SimModel SimSpec SimProofs.
Import ListNotations.
Local Open Scope R_scope.

Definition ez : v3 := V3 0 0 1.
Lemma axis_ez p x : axis_distance p ez x = sqrt ((vx x - vx p) * (vx x - vx p) + (vy x - vy p) * (vy x - vy p)).
Proof. unfold axis_distance, vnorm. f_equal. unfold ez, dot, vsub, smul. cbn [vx vy vz]. ring. Qed.

(** a step along an axis stays in one open cell *)
Lemma step_cell g a q (up : bool) : gridok g -> plane g a 0 <= q <= plane g a (gn g a) ->
  (if up then q < plane g a (gn g a) else plane g a 0 < q) ->
  exists k m, (0 <= k < gn g a)%Z /\ 0 < m /\
    forall x, 0 < x < m -> plane g a k < q + (if up then x else - x) < plane g a (k + 1).
Proof.
  intros OK H U. destruct up.
  - destruct (bottom_cell g a q OK ltac:(lra) U) as (k & K1 & K2). exists k, (plane g a (k + 1) - q). split; [auto|]. split; [lra|]. intros; lra.
  - destruct (top_cell g a q OK U ltac:(lra)) as (k & K1 & K2). exists k, (q - plane g a k). split; [auto|]. split; [lra|]. intros; lra.
Qed.

Lemma outward x h eta : 0 <= x <= 1 -> 0 <= h <= x -> 2 * h < eta * eta -> 0 < eta ->
  let y := sqrt (1 - x * x) in let y' := sqrt (1 - (x - h) * (x - h)) in y <= y' < y + eta.
Proof.
  intros Hx Hh He Hp y y'.
  assert (A: 0 <= 1 - x * x) by nra. assert (B: 0 <= 1 - (x - h) * (x - h)) by nra.
  assert (Y: y * y = 1 - x * x) by (apply sqrt_sqrt; auto). assert (Y': y' * y' = 1 - (x - h) * (x - h)) by (apply sqrt_sqrt; auto).
  assert (P: 0 <= y) by apply sqrt_pos. assert (P': 0 <= y') by apply sqrt_pos. split.
  - apply sqrt_le_1_alt. nra.
  - destruct (Rlt_or_le y' (y + eta)) as [|L]; auto. exfalso. nra.
Qed.

(** in the plane: [e1], [e2] the direction of the contact point, seen from the axis *)
Lemma touch_plane g a1 a2 P1 P2 r rad e1 e2 : gridok g ->
  plane g a1 0 = P1 - r -> plane g a1 (gn g a1) = P1 + r -> plane g a2 0 = P2 - r -> plane g a2 (gn g a2) = P2 + r ->
  e1 * e1 + e2 * e2 = 1 -> e1 <> 0 -> 0 < rad < r ->
  exists k1 k2 q1 q2, (0 <= k1 < gn g a1)%Z /\ (0 <= k2 < gn g a2)%Z /\
    plane g a1 k1 < q1 < plane g a1 (k1 + 1) /\ plane g a2 k2 < q2 < plane g a2 (k2 + 1) /\
    (q1 - P1) * (q1 - P1) + (q2 - P2) * (q2 - P2) = r * r /\
    Rabs (q1 - (P1 + (r - rad) * e1)) < rad /\ Rabs (q2 - (P2 + (r - rad) * e2)) < rad.
Proof.
  intros OK A1 A2 B1 B2 HE H1 Hr.
  (* the signs *)
  set (s1 := if Rlt_dec 0 e1 then true else false). set (s2 := if Rle_dec 0 e2 then true else false).
  set (x := Rabs e1). set (y := Rabs e2).
  assert (X: 0 < x <= 1) by (unfold x; split; [apply Rabs_pos_lt; auto|unfold Rabs; destruct (Rcase_abs e1); nra]).
  assert (Y: 0 <= y < 1) by (unfold y; split; [apply Rabs_pos|unfold Rabs; destruct (Rcase_abs e2); nra]).
  assert (XY: x * x + y * y = 1) by (unfold x, y, Rabs; destruct (Rcase_abs e1), (Rcase_abs e2); lra).
  assert (E1: e1 = if s1 then x else - x) by (unfold s1, x; destruct (Rlt_dec 0 e1); unfold Rabs; destruct (Rcase_abs e1); lra).
  assert (E2: e2 = if s2 then y else - y) by (unfold s2, y; destruct (Rle_dec 0 e2); unfold Rabs; destruct (Rcase_abs e2); lra).
  clearbody s1 s2 x y.
  assert (Ys: sqrt (1 - x * x) = y) by (replace (1 - x * x) with (y * y) by lra; apply sqrt_square; lra).
  destruct (step_cell g a1 (P1 + r * e1) (negb s1) OK) as (k1 & m1 & K1 & M1 & C1).
  { rewrite A1, A2, E1. destruct s1; nra. } { rewrite A1, A2, E1. destruct s1; cbn [negb]; nra. }
  destruct (step_cell g a2 (P2 + r * e2) s2 OK) as (k2 & m2 & K2 & M2 & C2).
  { rewrite B1, B2, E2. destruct s2; nra. } { rewrite B1, B2, E2. destruct s2; nra. }
  set (eta := Rmin (m2 / r) (rad * (1 - y) / r)).
  assert (Ri: 0 < / r) by (apply Rinv_0_lt_compat; lra).
  assert (Eta: 0 < eta) by (unfold eta, Rdiv; apply Rmin_glb_lt; apply Rmult_lt_0_compat; nra).
  assert (Eta2: r * eta <= m2).
  { pose proof (Rmin_l (m2 / r) (rad * (1 - y) / r)) as L. fold eta in L. apply (Rmult_le_compat_l r) in L; [|lra]. replace (r * (m2 / r)) with m2 in L by (field; lra). exact L. }
  assert (Eta3: r * eta <= rad * (1 - y)).
  { pose proof (Rmin_r (m2 / r) (rad * (1 - y) / r)) as L. fold eta in L. apply (Rmult_le_compat_l r) in L; [|lra]. replace (r * (rad * (1 - y) / r)) with (rad * (1 - y)) in L by (field; lra). exact L. }
  set (h := Rmin (Rmin (m1 / (2 * r)) (rad * x / r)) (Rmin x (eta * eta / 4))).
  assert (Hp: 0 < h).
  { unfold h. apply Rmin_glb_lt; apply Rmin_glb_lt; [| | lra | nra]; apply Rdiv_lt_0_compat; nra. }
  assert (H1': r * h < m1).
  { assert (L: h <= m1 / (2 * r)) by (unfold h; eapply Rle_trans; [apply Rmin_l|apply Rmin_l]).
    apply (Rmult_le_compat_l r) in L; [|lra]. replace (r * (m1 / (2 * r))) with (m1 / 2) in L by (field; lra). lra. }
  assert (H2': r * h <= rad * x).
  { assert (L: h <= rad * x / r) by (unfold h; eapply Rle_trans; [apply Rmin_l|apply Rmin_r]).
    apply (Rmult_le_compat_l r) in L; [|lra]. replace (r * (rad * x / r)) with (rad * x) in L by (field; lra). lra. }
  assert (H3': h <= x) by (unfold h; eapply Rle_trans; [apply Rmin_r|apply Rmin_l]).
  assert (H4': 2 * h < eta * eta).
  { assert (L: h <= eta * eta / 4) by (unfold h; eapply Rle_trans; [apply Rmin_r|apply Rmin_r]). nra. }
  destruct (outward x h eta ltac:(lra) ltac:(lra) H4' Eta) as (O1 & O2). rewrite Ys in O1, O2.
  set (y' := sqrt (1 - (x - h) * (x - h))) in *.
  assert (Y': y' * y' = 1 - (x - h) * (x - h)) by (apply sqrt_sqrt; nra).
  assert (O3: y < y') by (destruct (Rle_lt_or_eq_dec _ _ O1) as [|F]; auto; exfalso; rewrite <- F in Y'; nra).
  clearbody y' h eta.
  exists k1, k2, (P1 + r * (if s1 then x - h else - (x - h))), (P2 + r * (if s2 then y' else - y')).
  split; [auto|]. split; [auto|]. split; [|split; [|split; [|split]]].
  - specialize (C1 (r * h) ltac:(nra)). rewrite E1 in C1. destruct s1; cbn [negb] in C1; nra.
  - specialize (C2 (r * (y' - y)) ltac:(nra)). rewrite E2 in C2. destruct s2; nra.
  - replace (P1 + r * (if s1 then x - h else - (x - h)) - P1) with (r * (if s1 then x - h else - (x - h))) by ring.
    replace (P2 + r * (if s2 then y' else - y') - P2) with (r * (if s2 then y' else - y')) by ring.
    replace (r * r) with (r * r * ((x - h) * (x - h) + y' * y')) by (rewrite Y'; ring). destruct s1, s2; ring.
  - apply Rabs_def1; rewrite E1; destruct s1; nra.
  - apply Rabs_def1; rewrite E2; destruct s2; nra.
Qed.

Section Touch.
  Variable g : grid.
  Variable p : v3.
  Variable r : R.
  Variable hascyl : Z -> Z -> bool.
  Hypothesis OK : gridok g.
  Hypothesis X0 : plane g 0 0 = vx p - r.
  Hypothesis X1 : plane g 0 (gn g 0) = vx p + r.
  Hypothesis Y0 : plane g 1 0 = vy p - r.
  Hypothesis Y1 : plane g 1 (gn g 1) = vy p + r.
  Hypothesis ENC : forall x y qx qy, (0 <= x < gn g 0)%Z -> (0 <= y < gn g 1)%Z ->
    plane g 0 x < qx < plane g 0 (x + 1) -> plane g 1 y < qy < plane g 1 (y + 1) ->
    (qx - vx p) * (qx - vx p) + (qy - vy p) * (qy - vy p) = r * r -> hascyl x y = true.

  Definition cgap (s : sphere) (t : R) : R := cylinder_gap p ez r s t.

  Lemma cgap_lateral s t a : 0 <= cgap s t -> (a < 2)%nat -> plane g a 0 <= lo s t a /\ hi s t a <= plane g a (gn g a).
  Proof.
    unfold cgap, cylinder_gap. rewrite axis_ez. intros H Ha.
    set (u := vx (centre_at s t) - vx p) in *. set (v := vy (centre_at s t) - vy p) in *.
    assert (U: Rabs u <= sqrt (u * u + v * v)) by (rewrite <- sqrt_Rsqr_abs; apply sqrt_le_1_alt; unfold Rsqr; nra).
    assert (V: Rabs v <= sqrt (u * u + v * v)) by (rewrite <- sqrt_Rsqr_abs; apply sqrt_le_1_alt; unfold Rsqr; nra).
    unfold lo, hi. destruct a as [|[|a]]; [| |lia]; cbn [vnth]; rewrite ?X0, ?X1, ?Y0, ?Y1; unfold u, v in *.
    - unfold Rabs in U. destruct (Rcase_abs _); lra.
    - unfold Rabs in V. destruct (Rcase_abs _); lra.
  Qed.

  Lemma touch_cell s t : 0 < radius_at s t < r -> cgap s t = 0 ->
    plane g 2 0 <= lo s t 2 -> hi s t 2 <= plane g 2 (gn g 2) ->
    exists X, ingrid g X /\ prod g s t X /\ hascyl (co X 0) (co X 1) = true.
  Proof.
    intros Hr Hg Z0 Z1. unfold cgap, cylinder_gap in Hg. rewrite axis_ez in Hg.
    set (u := vx (centre_at s t) - vx p) in *. set (v := vy (centre_at s t) - vy p) in *. set (rad := radius_at s t) in *.
    assert (D: sqrt (u * u + v * v) = r - rad) by lra.
    assert (D2: u * u + v * v = (r - rad) * (r - rad)) by (rewrite <- D, sqrt_sqrt; nra).
    set (e1 := u / (r - rad)). set (e2 := v / (r - rad)).
    assert (E1: u = (r - rad) * e1) by (unfold e1; field; lra). assert (E2: v = (r - rad) * e2) by (unfold e2; field; lra).
    assert (E: e1 * e1 + e2 * e2 = 1) by (unfold e1, e2; transitivity ((u * u + v * v) / ((r - rad) * (r - rad))); [field; lra|rewrite D2; field; lra]).
    pose proof (hi_lo s t 2) as HL. fold rad in HL.
    destruct (bottom_cell g 2 (lo s t 2) OK Z0 ltac:(lra)) as (kz & KZ & LZ).
    assert (F: exists k1 k2 q1 q2, (0 <= k1 < gn g 0)%Z /\ (0 <= k2 < gn g 1)%Z /\
      plane g 0 k1 < q1 < plane g 0 (k1 + 1) /\ plane g 1 k2 < q2 < plane g 1 (k2 + 1) /\
      (q1 - vx p) * (q1 - vx p) + (q2 - vy p) * (q2 - vy p) = r * r /\
      Rabs (q1 - (vx p + (r - rad) * e1)) < rad /\ Rabs (q2 - (vy p + (r - rad) * e2)) < rad).
    { destruct (Req_dec e1 0) as [N|N].
      - destruct (touch_plane g 1 0 (vy p) (vx p) r rad e2 e1 OK Y0 Y1 X0 X1) as (k1 & k2 & q1 & q2 & A & B & C & D' & F & G & H); auto; [lra|intros M; rewrite N, M in E; lra|].
        exists k2, k1, q2, q1. repeat (split; [assumption|]). split; [lra|]. auto.
      - destruct (touch_plane g 0 1 (vx p) (vy p) r rad e1 e2 OK X0 X1 Y0 Y1) as (k1 & k2 & q1 & q2 & A & B & C & D' & F & G & H); auto.
        exists k1, k2, q1, q2. auto 10. }
    destruct F as (k1 & k2 & q1 & q2 & K1 & K2 & Q1 & Q2 & QQ & R1 & R2).
    rewrite <- E1 in R1. rewrite <- E2 in R2. unfold u in R1. unfold v in R2.
    apply Rabs_def2 in R1. apply Rabs_def2 in R2.
    exists (k1, k2, kz). split; [|split].
    - intros a Ha. destruct a as [|[|[|a]]]; [exact K1|exact K2|exact KZ|lia].
    - intros a Ha. destruct a as [|[|[|a]]]; [| | |lia]; cbn [co].
      + unfold lo, hi. cbn [vnth]. fold rad. lra.
      + unfold lo, hi. cbn [vnth]. fold rad. lra.
      + lra.
    - cbn [co]. apply (ENC k1 k2 q1 q2); auto.
  Qed.
End Touch.
