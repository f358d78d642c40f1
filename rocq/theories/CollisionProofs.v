(** Lemmas for C56-C58: vector algebra, quadratics and the first root. *)
From Coq Require Import Reals ZArith Lra Lia Psatz Bool.
From Verif Require Import Outcome AdaptiveModel AdaptiveProofs Vec3 CollisionModel CollisionSpec.
Local Open Scope R_scope.

(** ** Vectors *)
Ltac vec := unfold vadd, vsub, smul, dot, vsum in *; cbn [vx vy vz] in *.
Lemma v3_eq a b : vx a = vx b -> vy a = vy b -> vz a = vz b -> a = b.
Proof. destruct a, b; simpl; congruence. Qed.
Lemma dot_comm a b : dot a b = dot b a. Proof. vec; ring. Qed.
Lemma dot_add_l a b c : dot (vadd a b) c = dot a c + dot b c. Proof. vec; ring. Qed.
Lemma dot_add_r a b c : dot a (vadd b c) = dot a b + dot a c. Proof. vec; ring. Qed.
Lemma dot_sub_l a b c : dot (vsub a b) c = dot a c - dot b c. Proof. vec; ring. Qed.
Lemma dot_sub_r a b c : dot a (vsub b c) = dot a b - dot a c. Proof. vec; ring. Qed.
Lemma dot_smul_l k a b : dot (smul k a) b = k * dot a b. Proof. vec; ring. Qed.
Lemma dot_smul_r k a b : dot a (smul k b) = k * dot a b. Proof. vec; ring. Qed.
Lemma dot_pos a : 0 <= dot a a. Proof. vec; nra. Qed.
Lemma dot_zero a : dot a a = 0 -> a = V3 0 0 0.
Proof. destruct a as [x y z]. vec. intros. assert (x = 0) by nra. assert (y = 0) by nra. assert (z = 0) by nra. subst. reflexivity. Qed.
#[export] Hint Rewrite dot_add_l dot_add_r dot_sub_l dot_sub_r dot_smul_l dot_smul_r : dotdb.

Lemma cauchy a b : dot a b * dot a b <= dot a a * dot b b.
Proof.
  destruct a as [a1 a2 a3], b as [b1 b2 b3]. vec.
  apply Rminus_le. replace (_ - _) with (- ((a1*b2-a2*b1)^2 + (a1*b3-a3*b1)^2 + (a2*b3-a3*b2)^2)) by ring.
  pose proof (pow2_ge_0 (a1*b2-a2*b1)). pose proof (pow2_ge_0 (a1*b3-a3*b1)). pose proof (pow2_ge_0 (a2*b3-a3*b2)). lra.
Qed.
Lemma normalize_unit a : dot a a <> 0 -> dot (normalize a) (normalize a) = 1.
Proof.
  intros H. unfold normalize. pose proof (dot_pos a).
  destruct (rltb_spec 0 (dot a a)) as [(-> & Hl)|(-> & Hl)]; [|lra].
  rewrite dot_smul_l, dot_smul_r. assert (0 < sqrt (dot a a)) by (apply sqrt_lt_R0; lra).
  assert (E: sqrt (dot a a) * sqrt (dot a a) = dot a a) by (apply sqrt_sqrt; lra).
  rewrite <- E at 3. field. lra.
Qed.
Lemma normalize_scale a : dot a a <> 0 -> a = smul (vnorm a) (normalize a).
Proof.
  intros H. unfold normalize, vnorm. pose proof (dot_pos a).
  destruct (rltb_spec 0 (dot a a)) as [(-> & Hl)|(-> & Hl)]; [|lra].
  assert (0 < sqrt (dot a a)) by (apply sqrt_lt_R0; lra).
  apply v3_eq; cbn [vx vy vz smul]; field; lra.
Qed.
Lemma normalize_of_unit a : dot a a = 1 -> normalize a = a.
Proof.
  intros H. unfold normalize. rewrite H. destruct (rltb_spec 0 1) as [(-> & Hl)|(-> & Hl)]; [|lra].
  rewrite sqrt_1, Rinv_1. apply v3_eq; cbn [vx vy vz smul]; ring.
Qed.

(** |x| < r, |x| = r and |x| <= r through squares *)
Lemma vnorm_lt x r : 0 <= r -> (vnorm x < r <-> dot x x < r * r).
Proof.
  intros Hr. unfold vnorm. pose proof (dot_pos x). pose proof (sqrt_pos (dot x x)).
  pose proof (sqrt_sqrt _ H). split; intros; nra.
Qed.
Lemma vnorm_eq x r : 0 <= r -> (vnorm x = r <-> dot x x = r * r).
Proof.
  intros Hr. unfold vnorm. pose proof (dot_pos x). pose proof (sqrt_pos (dot x x)).
  pose proof (sqrt_sqrt _ H). split; intros E; [rewrite <- E; lra|]. nra.
Qed.
Lemma vnorm_le x r : 0 <= r -> (vnorm x <= r <-> dot x x <= r * r).
Proof.
  intros Hr. unfold vnorm. pose proof (dot_pos x). pose proof (sqrt_pos (dot x x)).
  pose proof (sqrt_sqrt _ H). split; intros; nra.
Qed.

(** ** Quadratics *)
Section Quad.
  Variables a b c : R.
  Let D := b * b - 4 * a * c.
  Let q t := a * t * t + b * t + c.

  Lemma quad_no_root : 0 <= c -> D < 0 -> forall t, 0 < q t.
  Proof.
    unfold D, q. intros Hc HD t.
    assert (0 < a). { destruct (Rlt_dec 0 a); auto. exfalso. assert (a * c <= 0) by nra. nra. }
    pose proof (Rle_0_sqr (2 * a * t + b)). unfold Rsqr in *.
    assert (0 < 4 * a * (a*t*t+b*t+c)) by (replace (4 * a * (a*t*t+b*t+c)) with ((2*a*t+b)*(2*a*t+b) - (b*b-4*a*c)) by ring; lra).
    apply Rmult_lt_reg_l with (4 * a); lra.
  Qed.
  Lemma quad_up : 0 <= c -> 0 <= b -> 0 <= a -> forall t, 0 <= t -> 0 <= q t.
  Proof. unfold q. intros. assert (0 <= a * t * t) by (repeat apply Rmult_le_pos; auto). assert (0 <= b * t) by (apply Rmult_le_pos; auto). lra. Qed.

  (** the smaller root, written in the form that avoids cancellation *)
  Lemma quad_first : 0 <= c -> b < 0 -> 0 <= D ->
    let t0 := 2 * c / (- b + sqrt D) in
    0 <= t0 /\ q t0 = 0 /\ (forall t, 0 <= t < t0 -> 0 < q t).
  Proof.
    intros Hc Hb HD t0.
    assert (Hs := sqrt_pos D). assert (Hss := sqrt_sqrt _ HD).
    set (s := sqrt D) in *. set (w := - b + s) in *.
    assert (Hw: 0 < w) by (unfold w; lra).
    assert (Et: t0 * w = 2 * c) by (unfold t0; field; lra).
    assert (Ew: w * w + 2 * b * w + 4 * a * c = 0) by (unfold w, D in *; nra).
    assert (Eb: b = - (w / 2 + a * t0)).
    { apply Rmult_eq_reg_r with w; [|lra]. 
      replace (- (w / 2 + a * t0) * w) with (- (w * w / 2 + a * (t0 * w))) by field. rewrite Et. lra. }
    assert (Hq: forall t, q t = (t0 - t) * (w / 2 - a * t)).
    { intros t. unfold q. replace c with (t0 * w / 2) by lra. rewrite Eb. field. }
    split; [unfold t0; apply Rmult_le_pos; [lra|apply Rlt_le, Rinv_0_lt_compat; lra]|].
    split; [rewrite Hq; ring|]. intros t Ht. rewrite Hq. apply Rmult_lt_0_compat; [lra|].
    destruct (Rle_dec a 0) as [Ha|Ha]; [nra|].
    assert (a * t < a * t0) by (apply Rmult_lt_compat_l; lra). unfold w in *. lra.
  Qed.

  (** the larger root of a downward parabola that is non-negative at 0 *)
  Lemma quad_last : 0 <= c -> 0 <= b -> a < 0 ->
    let t0 := (- b - sqrt D) / (2 * a) in
    0 <= D /\ 0 <= t0 /\ q t0 = 0 /\ (forall t, 0 <= t <= t0 -> 0 <= q t) /\
    (0 < c -> forall t, 0 <= t < t0 -> 0 < q t).
  Proof.
    intros Hc Hb Ha t0.
    assert (HD: b * b <= D) by (unfold D; nra). assert (HD0: 0 <= D) by nra.
    assert (Hs := sqrt_pos D). assert (Hss := sqrt_sqrt _ HD0).
    set (s := sqrt D) in *. assert (Hbs: b <= s) by nra.
    set (t1 := (- b + s) / (2 * a)).
    assert (E0: 2 * a * t0 = - b - s) by (unfold t0; field; lra).
    assert (E1: 2 * a * t1 = - b + s) by (unfold t1; field; lra).
    assert (H0: 0 <= t0) by nra. assert (H1: t1 <= 0) by nra.
    assert (Hq: forall t, q t = - a * (t0 - t) * (t - t1)).
    { intros t. unfold q. apply Rmult_eq_reg_l with (4 * a); [|lra].
      replace (4 * a * (- a * (t0 - t) * (t - t1))) with ((2 * a * t - 2 * a * t0) * (2 * a * t - 2 * a * t1)) by ring.
      rewrite E0, E1. unfold D in Hss. nra. }
    repeat apply conj; auto.
    - rewrite Hq. ring.
    - intros t Ht. rewrite Hq. apply Rmult_le_pos; [apply Rmult_le_pos; lra|lra].
    - intros Hc' t Ht. rewrite Hq. apply Rmult_lt_0_compat; [apply Rmult_lt_0_compat; lra|].
      enough (t1 < 0) by lra. assert (b < s) by (unfold D in *; nra). nra.
  Qed.
End Quad.

(** ** Two spheres: the gap as a quadratic in time *)
Definition qa (s1 s2 : sphere) : R :=
  let dV := vsub (svel s1) (svel s2) in dot dV dV - (sgrow s1 + sgrow s2) * (sgrow s1 + sgrow s2).
Definition rel_pos (s1 s2 : sphere) : v3 :=
  vsub (spos s1) (vadd (spos s2) (smul (stime s1 - stime s2) (svel s2))).
Definition rel_rad (s1 s2 : sphere) : R := srad s1 + srad s2 + sgrow s2 * (stime s1 - stime s2).
Definition qb (s1 s2 : sphere) : R :=
  2 * (dot (vsub (svel s1) (svel s2)) (rel_pos s1 s2) - rel_rad s1 s2 * (sgrow s1 + sgrow s2)).
Definition qc (s1 s2 : sphere) : R := dot (rel_pos s1 s2) (rel_pos s1 s2) - rel_rad s1 s2 * rel_rad s1 s2.
Definition gapq (s1 s2 : sphere) (tau : R) : R := qa s1 s2 * tau * tau + qb s1 s2 * tau + qc s1 s2.

Lemma gap_square s1 s2 t :
  let d := vsub (centre_at s1 t) (centre_at s2 t) in
  let r := radius_at s1 t + radius_at s2 t in
  dot d d - r * r = gapq s1 s2 (t - stime s1).
Proof.
  unfold gapq, qa, qb, qc, rel_pos, rel_rad, centre_at, radius_at.
  destruct (spos s1), (spos s2), (svel s1), (svel s2). vec. ring.
Qed.
Lemma radii_pos s1 s2 t : proper s1 -> proper s2 -> stime s1 <= t -> stime s2 <= t ->
  0 < radius_at s1 t + radius_at s2 t.
Proof.
  intros (H1 & G1) (H2 & G2) T1 T2. unfold radius_at.
  assert (0 <= sgrow s1 * (t - stime s1)) by (apply Rmult_le_pos; lra).
  assert (0 <= sgrow s2 * (t - stime s2)) by (apply Rmult_le_pos; lra). lra.
Qed.
Lemma overlap_quad s1 s2 t : proper s1 -> proper s2 -> stime s1 <= t -> stime s2 <= t ->
  (overlap_at s1 s2 t <-> gapq s1 s2 (t - stime s1) < 0).
Proof.
  intros. pose proof (radii_pos s1 s2 t H H0 H1 H2). unfold overlap_at, distance. rewrite vnorm_lt by lra.
  rewrite <- gap_square. cbv zeta. lra.
Qed.
Lemma touch_quad s1 s2 t : proper s1 -> proper s2 -> stime s1 <= t -> stime s2 <= t ->
  (touch_at s1 s2 t <-> gapq s1 s2 (t - stime s1) = 0).
Proof.
  intros. pose proof (radii_pos s1 s2 t H H0 H1 H2). unfold touch_at, distance. rewrite vnorm_eq by lra.
  rewrite <- gap_square. cbv zeta. lra.
Qed.
Lemma overlap_sym s1 s2 t : overlap_at s1 s2 t <-> overlap_at s2 s1 t.
Proof.
  unfold overlap_at, distance, vnorm. replace (dot (vsub (centre_at s1 t) (centre_at s2 t)) _) with
    (dot (vsub (centre_at s2 t) (centre_at s1 t)) (vsub (centre_at s2 t) (centre_at s1 t))) by (vec; ring).
  rewrite (Rplus_comm (radius_at s1 t)). tauto.
Qed.
Lemma touch_sym s1 s2 t : touch_at s1 s2 t <-> touch_at s2 s1 t.
Proof.
  unfold touch_at, distance, vnorm. replace (dot (vsub (centre_at s1 t) (centre_at s2 t)) _) with
    (dot (vsub (centre_at s2 t) (centre_at s1 t)) (vsub (centre_at s2 t) (centre_at s1 t))) by (vec; ring).
  rewrite (Rplus_comm (radius_at s1 t)). tauto.
Qed.

Lemma tenm_pos n : 0 < tenm n.
Proof. unfold tenm. apply Rinv_0_lt_compat, pow_lt. lra. Qed.

(** the prediction once the later sphere is first *)
Definition predict_ordered (s1 s2 : sphere) : outcome R :=
  let a := qa s1 s2 in let b := qb s1 s2 in let c := qc s1 s2 in
  if rltb c (- (2 * tenm 10) * srad s1) then Throw
  else let disc := b * b - 4 * a * c in
    if rltb disc (- tenm 12) then Ok EVENTNULL
    else let disc := Rmax disc 0 in
      if rltb b 0 then Ok (stime s1 + 2 * c / (- b + sqrt disc))
      else if rltb a 0 then Ok (stime s1 + (- b - sqrt disc) / (2 * a))
      else Ok EVENTNULL.
Lemma predict_is_ordered s s' : sid s <> sid s' ->
  predict_spheres s s' = if rltb (stime s') (stime s) then predict_ordered s s' else predict_ordered s' s.
Proof.
  intros H. unfold predict_spheres. apply Z.eqb_neq in H. rewrite H.
  destruct (rltb (stime s') (stime s)); reflexivity.
Qed.

(** what the prediction promises about the pair *)
Definition predicted (s s' : sphere) (now : R) (r : R) : Prop :=
  (r = EVENTNULL -> forall t, now <= t -> ~ overlap_at s s' t) /\
  (r <> EVENTNULL -> now <= r /\ (forall t, now <= t <= r -> ~ overlap_at s s' t)).
Definition near_miss (s s' : sphere) : Prop := - tenm 12 <= qb s s' * qb s s' - 4 * qa s s' * qc s s' < 0.

Lemma predict_ordered_ok s1 s2 : proper s1 -> proper s2 -> stime s2 <= stime s1 -> 0 <= stime s1 ->
  ~ overlap_at s1 s2 (stime s1) ->
  exists r, predict_ordered s1 s2 = Ok r /\
    (r = EVENTNULL -> forall t, stime s1 <= t -> ~ overlap_at s1 s2 t) /\
    (r <> EVENTNULL -> stime s1 <= r /\ (forall t, stime s1 <= t <= r -> ~ overlap_at s1 s2 t) /\
       (touch_at s1 s2 r \/ near_miss s1 s2 /\ forall t, stime s1 <= t -> ~ overlap_at s1 s2 t /\ ~ touch_at s1 s2 t) /\
       (~ touch_at s1 s2 (stime s1) -> forall t, stime s1 <= t < r -> ~ touch_at s1 s2 t)).
Proof.
  intros P1 P2 HT H0 Hno.
  assert (Hov: forall t, stime s1 <= t -> (overlap_at s1 s2 t <-> gapq s1 s2 (t - stime s1) < 0)).
  { intros t Ht. apply overlap_quad; auto; lra. }
  assert (Hto: forall t, stime s1 <= t -> (touch_at s1 s2 t <-> gapq s1 s2 (t - stime s1) = 0)).
  { intros t Ht. apply touch_quad; auto; lra. }
  assert (Hc: 0 <= qc s1 s2).
  { rewrite Hov in Hno by lra. unfold gapq in Hno. replace (stime s1 - stime s1) with 0 in Hno by ring. lra. }
  assert (Hc': ~ touch_at s1 s2 (stime s1) -> 0 < qc s1 s2).
  { intros Hn. rewrite Hto in Hn by lra. unfold gapq in Hn. replace (stime s1 - stime s1) with 0 in Hn by ring. lra. }
  unfold predict_ordered. set (a := qa s1 s2) in *. set (b := qb s1 s2) in *. set (c := qc s1 s2) in *.
  set (D := b * b - 4 * a * c). destruct P1 as (R1 & G1).
  pose proof (tenm_pos 10) as T10. pose proof (tenm_pos 12) as T12.
  destruct (rltb_spec c (- (2 * tenm 10) * srad s1)) as [(-> & Hl)|(-> & _)].
  { exfalso. assert (0 < 2 * tenm 10 * srad s1) by (apply Rmult_lt_0_compat; lra). lra. }
  assert (Hnull: forall t, EVENTNULL <> stime s1 + t \/ t < 0).
  { intros t. unfold EVENTNULL. destruct (Rlt_dec t 0); [right; auto|left; lra]. }
  destruct (rltb_spec D (- tenm 12)) as [(-> & Hd)|(-> & Hd)].
  { exists EVENTNULL. split; [reflexivity|]. split; [|congruence]. intros _ t Ht. rewrite Hov by auto.
    enough (0 < gapq s1 s2 (t - stime s1)) by lra. apply quad_no_root; auto. fold a b c D. lra. }
  destruct (rltb_spec b 0) as [(-> & Hb)|(-> & Hb)].
  - destruct (Rlt_dec D 0) as [HD|HD].
    + (* near miss *)
      assert (Hall: forall t, stime s1 <= t -> 0 < gapq s1 s2 (t - stime s1)).
      { intros t Ht. apply quad_no_root; auto. }
      rewrite Rmax_right by lra. rewrite sqrt_0.
      assert (Htau: 0 <= 2 * c / (- b + 0)).
      { apply Rmult_le_pos; [lra|]. apply Rlt_le, Rinv_0_lt_compat. lra. }
      eexists. split; [reflexivity|]. split; [intros E; exfalso; unfold EVENTNULL in E; lra|]. intros _.
      split; [lra|]. split; [intros t Ht; rewrite Hov by lra; specialize (Hall t); lra|].
      split; [right; split; [split; [exact Hd|exact HD]|]; intros t Ht; rewrite Hov, Hto by lra; specialize (Hall t Ht); lra|].
      intros _ t Ht. rewrite Hto by lra. specialize (Hall t). lra.
    + assert (HD': 0 <= D) by lra. rewrite Rmax_left by lra.
      destruct (quad_first a b c Hc Hb HD') as (Ht0 & Hq & Hbefore). fold D in Ht0, Hq, Hbefore.
      set (t0 := 2 * c / (- b + sqrt D)) in *.
      exists (stime s1 + t0). split; [reflexivity|]. split; [intros E; exfalso; unfold EVENTNULL in E; lra|]. intros _.
      assert (E0: gapq s1 s2 (stime s1 + t0 - stime s1) = 0).
      { replace (stime s1 + t0 - stime s1) with t0 by ring. exact Hq. }
      split; [lra|]. split; [|split; [left; apply Hto; lra|]].
      * intros t Ht. rewrite Hov by lra. destruct (Rle_lt_or_eq_dec t (stime s1 + t0)) as [Hlt|Heq]; [lra| |].
        -- assert (0 < gapq s1 s2 (t - stime s1)) by (apply Hbefore; lra). lra.
        -- subst t. lra.
      * intros _ t Ht. rewrite Hto by lra. assert (0 < gapq s1 s2 (t - stime s1)) by (apply Hbefore; lra). lra.
  - destruct (rltb_spec a 0) as [(-> & Ha)|(-> & Ha)].
    + destruct (quad_last a b c Hc Hb Ha) as (HD & Ht0 & Hq & Hbefore & Hstrict). fold D in HD, Ht0, Hq, Hbefore, Hstrict.
      rewrite Rmax_left by lra. set (t0 := (- b - sqrt D) / (2 * a)) in *.
      exists (stime s1 + t0). split; [reflexivity|]. split; [intros E; exfalso; unfold EVENTNULL in E; lra|]. intros _.
      assert (E0: gapq s1 s2 (stime s1 + t0 - stime s1) = 0).
      { replace (stime s1 + t0 - stime s1) with t0 by ring. exact Hq. }
      split; [lra|]. split; [|split; [left; apply Hto; lra|]].
      * intros t Ht. rewrite Hov by lra. assert (0 <= gapq s1 s2 (t - stime s1)) by (apply Hbefore; lra). lra.
      * intros Hn t Ht. rewrite Hto by lra.
        assert (0 < gapq s1 s2 (t - stime s1)) by (apply Hstrict; [apply Hc'; auto|lra]). lra.
    + exists EVENTNULL. split; [reflexivity|]. split; [|congruence]. intros _ t Ht. rewrite Hov by auto.
      assert (0 <= gapq s1 s2 (t - stime s1)) by (apply quad_up; auto; lra). lra.
Qed.

Lemma quad_same_clock s s' : stime s = stime s' ->
  qa s s' = qa s' s /\ qb s s' = qb s' s /\ qc s s' = qc s' s.
Proof.
  intros E. unfold qa, qb, qc, rel_pos, rel_rad. rewrite E. replace (stime s' - stime s') with 0 by ring.
  vec. repeat split; ring.
Qed.

(** ** Collision response *)
Lemma collision_1d_momentum v1 v2 m1 m2 : m1 + m2 <> 0 ->
  m1 * collision_1d v1 v2 m1 m2 + m2 * collision_1d v2 v1 m2 m1 = m1 * v1 + m2 * v2.
Proof. intros. unfold collision_1d. field. lra. Qed.
Lemma collision_1d_energy v1 v2 m1 m2 : m1 + m2 <> 0 ->
  m1 * (collision_1d v1 v2 m1 m2 * collision_1d v1 v2 m1 m2)
    + m2 * (collision_1d v2 v1 m2 m1 * collision_1d v2 v1 m2 m1) = m1 * (v1 * v1) + m2 * (v2 * v2).
Proof. intros. unfold collision_1d. field. lra. Qed.
Lemma collision_1d_relative v1 v2 m1 m2 : m1 + m2 <> 0 ->
  collision_1d v1 v2 m1 m2 - collision_1d v2 v1 m2 m1 = - (v1 - v2).
Proof. intros. unfold collision_1d. field. lra. Qed.
