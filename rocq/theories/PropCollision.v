(** * C56-C58: prediction and response of collisions *)
From Coq Require Import Reals ZArith Lra Lia Psatz Bool.
From Verif Require Import Outcome AdaptiveModel AdaptiveProofs Vec3 CollisionModel CollisionSpec CollisionProofs CollisionProofs2.
Local Open Scope R_scope.

(** ** C56: spheres *)

(** No overlap before the predicted time, none at all without a prediction; and at the predicted time the
    spheres touch for the first time.  What is missing from the property is the last alternative: the
    prediction may be a false alarm for two spheres that never touch. *)
Theorem C56_prediction_partial : forall s s', sid s <> sid s' -> proper s -> proper s' ->
  0 <= stime s -> 0 <= stime s' -> ~ overlap_at s s' (pair_now s s') ->
  exists r, predict_spheres s s' = Ok r /\
    (r = EVENTNULL -> forall t, pair_now s s' <= t -> ~ overlap_at s s' t) /\
    (r <> EVENTNULL ->
       pair_now s s' <= r /\
       (forall t, pair_now s s' <= t <= r -> ~ overlap_at s s' t) /\
       (touch_at s s' r \/ (forall t, pair_now s s' <= t -> ~ overlap_at s s' t /\ ~ touch_at s s' t)) /\
       (~ touch_at s s' (pair_now s s') -> forall t, pair_now s s' <= t < r -> ~ touch_at s s' t)).
Proof.
  intros s s' Hid P P' T T' Hno. rewrite (predict_is_ordered s s' Hid). unfold pair_now in *.
  destruct (rltb_spec (stime s') (stime s)) as [(-> & Hl)|(-> & Hl)].
  - rewrite (Rmax_left (stime s) (stime s')) in * by lra.
    destruct (predict_ordered_ok s s' P P' ltac:(lra) T Hno) as (r & E & H1 & H2).
    exists r. split; [auto|]. split; [auto|]. intros Hr. destruct (H2 Hr) as (A & B & C & D).
    split; [auto|]. split; [auto|]. split; [|auto]. destruct C as [C|(_ & C)]; auto.
  - rewrite (Rmax_right (stime s) (stime s')) in * by lra.
    assert (Hno': ~ overlap_at s' s (stime s')) by (rewrite overlap_sym; auto).
    destruct (predict_ordered_ok s' s P' P ltac:(lra) T' Hno') as (r & E & H1 & H2).
    exists r. split; [auto|]. split; [intros Hr t Ht; rewrite overlap_sym; auto|].
    intros Hr. destruct (H2 Hr) as (A & B & C & D).
    split; [auto|]. split; [intros t Ht; rewrite overlap_sym; auto|]. split.
    + destruct C as [C|(_ & C)]; [left; rewrite touch_sym; auto|right].
      intros t Ht. rewrite (overlap_sym s s'), (touch_sym s s'). auto.
    + intros Hn t Ht. rewrite touch_sym. apply D; auto. rewrite touch_sym. auto.
Qed.

Theorem C56_symmetric : forall s s', proper s -> proper s' ->
  ~ overlap_at s s' (pair_now s s') -> predict_spheres s s' = predict_spheres s' s.
Proof.
  intros s s' P P' Hno. destruct (Z.eq_dec (sid s) (sid s')) as [E|Hid].
  { unfold predict_spheres. rewrite E, Z.eqb_refl. reflexivity. }
  rewrite (predict_is_ordered s s' Hid), (predict_is_ordered s' s) by auto.
  destruct (rltb_spec (stime s') (stime s)) as [(-> & Hl)|(-> & Hl)];
  destruct (rltb_spec (stime s) (stime s')) as [(-> & Hl')|(-> & Hl')]; auto; try (exfalso; lra).
  assert (E: stime s = stime s') by lra. destruct (quad_same_clock s s' E) as (Ea & Eb & Ec).
  assert (Hc: 0 <= qc s s').
  { unfold pair_now in Hno. rewrite Rmax_left in Hno by lra. rewrite overlap_quad in Hno by (auto; lra).
    unfold gapq in Hno. replace (stime s - stime s) with 0 in Hno by ring. lra. }
  unfold predict_ordered. rewrite <- Ea, <- Eb, <- Ec, E.
  pose proof (tenm_pos 10). destruct P as (R1 & _). destruct P' as (R2 & _).
  assert (0 < 2 * tenm 10 * srad s) by (apply Rmult_lt_0_compat; lra).
  assert (0 < 2 * tenm 10 * srad s') by (apply Rmult_lt_0_compat; lra).
  destruct (rltb_spec (qc s s') (- (2 * tenm 10) * srad s)) as [(_ & F)|(-> & _)]; [exfalso; lra|].
  destruct (rltb_spec (qc s s') (- (2 * tenm 10) * srad s')) as [(_ & F)|(-> & _)]; [exfalso; lra|]. reflexivity.
Qed.

(** False alarms exist: unit spheres that pass each other at a distance of 1e-14. *)
Definition pass_1 : sphere := new_sphere 0 (V3 0 0 0) (V3 0 0 0) 1 0.
Definition pass_2 : sphere := new_sphere 1 (V3 (-1) (2 + tenm 14) 0) (V3 1 0 0) 1 0.
Lemma pass_gap tau : gapq pass_2 pass_1 tau = (tau - 1) * (tau - 1) + (4 * tenm 14 + tenm 14 * tenm 14).
Proof.
  unfold gapq, qa, qb, qc, rel_pos, rel_rad, pass_1, pass_2, new_sphere. cbn [spos svel srad sgrow stime]. vec. ring.
Qed.
Lemma pass_proper : proper pass_1 /\ proper pass_2.
Proof. unfold proper, pass_1, pass_2, new_sphere. cbn [srad sgrow]. lra. Qed.
Lemma tenm_split : tenm 12 = 100 * tenm 14.
Proof. unfold tenm. field. Qed.
Lemma tenm_small : tenm 14 <= / 10.
Proof. unfold tenm. simpl. lra. Qed.

Theorem C56_near_miss_refuted : exists s s' r,
  sid s <> sid s' /\ proper s /\ proper s' /\ ~ overlap_at s s' (pair_now s s') /\
  predict_spheres s s' = Ok r /\ r <> EVENTNULL /\
  forall t, pair_now s s' <= t -> ~ overlap_at s s' t /\ ~ touch_at s s' t.
Proof.
  destruct pass_proper as (P1 & P2). pose proof (tenm_pos 14) as T. pose proof tenm_split as T12. pose proof tenm_small as T1.
  assert (Hnow: pair_now pass_1 pass_2 = 0) by (unfold pair_now, pass_1, pass_2, new_sphere; cbn [stime]; apply Rmax_left; lra).
  assert (Hall: forall t, 0 <= t -> ~ overlap_at pass_1 pass_2 t /\ ~ touch_at pass_1 pass_2 t).
  { intros t Ht. rewrite overlap_sym, touch_sym, overlap_quad, touch_quad
      by (auto; unfold pass_1, pass_2, new_sphere; cbn [stime]; lra).
    rewrite pass_gap. pose proof (Rle_0_sqr (t - stime pass_2 - 1)). unfold Rsqr in *. split; intros F; nra. }
  exists pass_1, pass_2.
  assert (Hid: sid pass_1 <> sid pass_2) by (unfold pass_1, pass_2, new_sphere; cbn [sid]; lia).
  rewrite Hnow.
  assert (Ea: qa pass_2 pass_1 = 1) by (unfold qa, pass_1, pass_2, new_sphere; cbn [svel sgrow]; vec; ring).
  assert (Eb: qb pass_2 pass_1 = -2)
    by (unfold qb, rel_pos, rel_rad, pass_1, pass_2, new_sphere; cbn [spos svel srad sgrow stime]; vec; ring).
  assert (Ec: qc pass_2 pass_1 = 1 + (4 * tenm 14 + tenm 14 * tenm 14)).
  { pose proof (pass_gap 0) as E. unfold gapq in E. lra. }
  exists (stime pass_2 + 2 * qc pass_2 pass_1 / (- qb pass_2 pass_1 + sqrt 0)).
  split; [auto|]. split; [auto|]. split; [auto|]. split; [apply Hall; lra|]. split; [|split; [|auto]].
  - rewrite predict_is_ordered by auto.
    destruct (rltb_spec (stime pass_2) (stime pass_1)) as [(_ & F)|(-> & _)];
      [exfalso; unfold pass_1, pass_2, new_sphere in F; cbn [stime] in F; lra|].
    unfold predict_ordered. rewrite Ea, Eb, Ec.
    assert (Hr: srad pass_2 = 1) by reflexivity. rewrite Hr. pose proof (tenm_pos 10).
    set (c := 1 + (4 * tenm 14 + tenm 14 * tenm 14)). assert (0 < c) by (unfold c; nra).
    destruct (rltb_spec c (- (2 * tenm 10) * 1)) as [(_ & F)|(-> & _)]; [exfalso; lra|].
    assert (HD: - tenm 12 <= -2 * -2 - 4 * 1 * c < 0) by (unfold c; nra).
    destruct (rltb_spec (-2 * -2 - 4 * 1 * c) (- tenm 12)) as [(_ & F)|(-> & _)]; [exfalso; lra|].
    rewrite Rmax_right by lra.
    destruct (rltb_spec (-2) 0) as [(-> & _)|(_ & F)]; [reflexivity|exfalso; lra].
  - rewrite Eb, Ec, sqrt_0. unfold EVENTNULL. change (stime pass_2) with 0.
    assert (0 < 2 * (1 + (4 * tenm 14 + tenm 14 * tenm 14)) / (- -2 + 0)); [|lra].
    apply Rmult_lt_0_compat; [nra|apply Rinv_0_lt_compat; lra].
Qed.
Print Assumptions C56_prediction_partial.
Print Assumptions C56_symmetric.
Print Assumptions C56_near_miss_refuted.

(** The hypotheses of C56 are met by growing spheres with different clocks. *)
Example C56_case : let s := mkSphere 0 (V3 0 0 0) (V3 1 0 0) 1 1 1 (/2) 0 0 in
  let s' := mkSphere 1 (V3 9 0 0) (V3 (-1) 1 0) 1 1 1 (/4) 1 0 in
  sid s <> sid s' /\ proper s /\ proper s' /\ 0 <= stime s /\ 0 <= stime s' /\ ~ overlap_at s s' (pair_now s s').
Proof.
  cbv zeta. unfold proper. cbn [sid srad sgrow stime].
  split; [lia|]. split; [lra|]. split; [lra|]. split; [lra|]. split; [lra|].
  unfold pair_now. cbn [stime]. rewrite Rmax_right by lra.
  rewrite overlap_quad; unfold proper; cbn [srad sgrow stime]; [|lra..].
  unfold gapq, qa, qb, qc, rel_pos, rel_rad. cbn [spos svel srad sgrow stime]. vec. lra.
Qed.

(** ** C57: response of two spheres *)
Theorem C57_response : forall s1 s2, proper s1 -> proper s2 -> stime s1 = stime s2 ->
  ~ overlap_at s1 s2 (stime s1) ->
  let s1' := fst (perform_spheres s1 s2) in
  let s2' := snd (perform_spheres s1 s2) in
  let d := vsub (spos s1) (spos s2) in
  (* nothing but the velocities changes *)
  s1' = set_velocity s1 (svel s1') /\ s2' = set_velocity s2 (svel s2') /\
  (* and those only along the line of the centres *)
  (exists k1 k2, svel s1' = vadd (svel s1) (smul k1 d) /\ svel s2' = vadd (svel s2) (smul k2 d)) /\
  (* without growth, momentum is conserved, and so is the energy of approaching spheres *)
  (sgrow s1 = 0 -> sgrow s2 = 0 ->
     momentum2 s1' s2' = momentum2 s1 s2 /\
     (dot d (vsub (svel s1) (svel s2)) <= 0 -> energy2 s1' s2' = energy2 s1 s2)) /\
  (* they separate twice as fast as they grow *)
  2 * (sgrow s1 + sgrow s2) * vnorm d <= dot d (vsub (svel s1') (svel s2')) /\
  (* and so never overlap again by themselves *)
  (forall t, stime s1 <= t -> ~ overlap_at s1' s2' t).
Proof.
  intros s1 s2 P1 P2 ET Hno s1' s2' d.
  pose proof P1 as (R1 & G1). pose proof P2 as (R2 & G2).
  assert (Hn: dot d d <> 0) by (apply (distance_pos_of_no_overlap s1 s2 (stime s1)); auto).
  destruct (response_form s1 s2 R1 R2) as (u1 & u2 & E1 & E2 & Hsep & Hmom & Hen). fold d in E1, E2, Hmom, Hen.
  fold s1' in E1. fold s2' in E2. set (n := normalize d) in *.
  assert (Nn: dot n n = 1) by (apply normalize_unit; auto).
  assert (Ed: d = smul (vnorm d) n) by (apply normalize_scale; auto).
  assert (Hd: 0 < vnorm d) by (apply sqrt_lt_R0; pose proof (dot_pos d); lra).
  assert (S1: s1' = set_velocity s1 (svel s1')) by reflexivity.
  assert (S2: s2' = set_velocity s2 (svel s2')) by reflexivity.
  assert (M: smass s1' = smass s1 /\ smass s2' = smass s2) by (split; reflexivity). destruct M as (M1 & M2).
  assert (Hk1: dot n (svel s1') = u1) by (rewrite E1; apply dot_n_perp; auto).
  assert (Hk2: dot n (svel s2') = u2) by (rewrite E2; apply dot_n_perp; auto).
  split; [auto|]. split; [auto|]. split; [|split; [|split]].
  - exists ((u1 - dot n (svel s1)) / vnorm d), ((u2 - dot n (svel s2)) / vnorm d).
    assert (Hs: forall x, smul (x / vnorm d) d = smul x n).
    { intros x. set (L := vnorm d) in *. rewrite Ed. apply v3_eq; cbn [vx vy vz smul]; field; lra. }
    rewrite E1, E2, !Hs. split; apply v3_eq; cbn [vx vy vz vadd vsub smul]; ring.
  - intros Z1 Z2. split.
    + unfold momentum2. rewrite M1, M2, E1, E2. rewrite Z1, Z2 in Hmom.
      assert (Hf: forall m1 m2 w1 w2 a1 a2, m1 * w1 + m2 * w2 = m1 * dot n a1 + m2 * dot n a2 ->
        vadd (smul m1 (vadd (smul w1 n) (vsub a1 (smul (dot n a1) n))))
             (smul m2 (vadd (smul w2 n) (vsub a2 (smul (dot n a2) n)))) = vadd (smul m1 a1) (smul m2 a2)).
      { intros m1 m2 w1 w2 a1 a2 E.
        assert (K: vadd (smul m1 (vadd (smul w1 n) (vsub a1 (smul (dot n a1) n))))
             (smul m2 (vadd (smul w2 n) (vsub a2 (smul (dot n a2) n))))
             = vadd (vadd (smul m1 a1) (smul m2 a2)) (smul ((m1 * w1 + m2 * w2) - (m1 * dot n a1 + m2 * dot n a2)) n))
          by (apply v3_eq; cbn [vx vy vz vadd vsub smul]; ring).
        rewrite K, E. apply v3_eq; cbn [vx vy vz vadd vsub smul]; ring. }
      apply Hf. lra.
    + intros Happ. unfold energy2. rewrite M1, M2, E1, E2.
      assert (Happ': dot n (svel s1) - dot n (svel s2) <= 0).
      { rewrite Ed, dot_smul_l, dot_sub_r in Happ. nra. }
      specialize (Hen Happ' Z1 Z2).
      assert (Hf: forall w a, dot (vadd (smul w n) (vsub a (smul (dot n a) n))) (vadd (smul w n) (vsub a (smul (dot n a) n)))
          = w * w + dot a a - dot n a * dot n a).
      { intros w a. autorewrite with dotdb. rewrite Nn, (dot_comm a n). ring. }
      rewrite !Hf. lra.
  - set (L := vnorm d) in *. rewrite Ed, dot_smul_l, dot_sub_r, Hk1, Hk2. nra.
  - intros t Ht.
    assert (P1': proper s1') by (rewrite S1; exact P1). assert (P2': proper s2') by (rewrite S2; exact P2).
    assert (Hno': ~ overlap_at s1' s2' (stime s1')).
    { change (stime s1') with (stime s1). rewrite <- (overlap_ext s1 s2 s1' s2'); auto. }
    apply separating; auto. change (spos s1') with (spos s1). change (spos s2') with (spos s2). fold d.
    change (sgrow s1') with (sgrow s1). change (sgrow s2') with (sgrow s2).
    set (L := vnorm d) in *. rewrite Ed. rewrite dot_smul_l, dot_sub_r, Hk1, Hk2. nra.
Qed.
Print Assumptions C57_response.

(** a growing pair in contact *)
Example C57_case : let s1 := new_sphere 0 (V3 0 0 0) (V3 1 2 0) 1 (/2) in
  let s2 := new_sphere 1 (V3 3 0 0) (V3 (-1) 0 1) 2 (/4) in
  proper s1 /\ proper s2 /\ stime s1 = stime s2 /\ touch_at s1 s2 (stime s1) /\ ~ overlap_at s1 s2 (stime s1).
Proof.
  cbv zeta. unfold proper, new_sphere. cbn [srad sgrow stime].
  split; [lra|]. split; [lra|]. split; [lra|].
  rewrite touch_quad, overlap_quad; unfold proper; cbn [srad sgrow stime]; try lra.
  unfold gapq, qa, qb, qc, rel_pos, rel_rad. cbn [spos svel srad sgrow stime]. vec. lra.
Qed.

(** ** C58: walls *)

(** A wall with any direction whose components do not add up to +-1, or one of the coordinate directions. *)
Theorem C58_plane_prediction_partial : forall p d s, d <> V3 0 0 0 -> Rabs (vsum d) <> 1 \/ axis_vector d ->
  proper s -> 0 <= stime s -> 0 <= plane_gap p (normalize d) s (stime s) ->
  exists r, predict_wall (new_wall p d) s = Ok r /\
    (r = EVENTNULL -> forall t, stime s <= t -> 0 <= plane_gap p (normalize d) s t) /\
    (r <> EVENTNULL -> stime s <= r /\ plane_gap p (normalize d) s r = 0 /\
       (forall t, stime s <= t < r -> 0 < plane_gap p (normalize d) s t) /\
       (forall t, r < t -> plane_gap p (normalize d) s t < 0)).
Proof.
  intros p d s Hd Hax P T Hg. unfold predict_wall. rewrite wall_distances_ok by auto. cbn [obind].
  eexists. split; [reflexivity|]. apply wall_time_ok; auto.
Qed.

(** The full statement fails: a wall whose unit normal (2,2,-1)/3 is not parallel to an axis is taken for an
    axis parallel one; a sphere that runs into it has no event. *)
Theorem C58_oblique_wall_refuted : exists p d s,
  dot d d = 1 /\ proper s /\ 0 < plane_gap p d s (stime s) /\
  predict_wall (new_wall p d) s = Ok EVENTNULL /\ exists t, stime s <= t /\ plane_gap p d s t < 0.
Proof.
  exists (V3 0 0 0), (V3 (2/3) (2/3) (-1/3)), (new_sphere 0 (V3 4 4 (-2)) (V3 (-2) (-2) 1) 1 0).
  set (d := V3 (2/3) (2/3) (-1/3)).
  assert (Dd: dot d d = 1) by (unfold d; vec; field).
  split; [auto|]. split; [unfold proper, new_sphere; cbn [srad sgrow]; lra|].
  split; [rewrite plane_gap_now; unfold new_sphere, d; cbn [spos srad]; vec; lra|].
  split.
  - unfold predict_wall, wall_distances, new_wall. cbn [waligned waxis wdir wpos].
    assert (Es: vsum d = 1) by (unfold d, vsum; cbn [vx vy vz]; field).
    rewrite Es, Rabs_R1. destruct (reqb_spec 1 1) as [(-> & _)|(_ & F)]; [|exfalso; lra].
    assert (Ea: non_null_axis d = Some 0%nat).
    { unfold non_null_axis, d. cbn [vx]. destruct (reqb_spec (2/3) 0) as [(_ & F)|(-> & _)]; [exfalso; lra|reflexivity]. }
    rewrite Ea. cbn [vnth]. rewrite normalize_of_unit by auto.
    assert (Et: trunc (vx d) = 0%Z).
    { unfold d. cbn [vx]. unfold trunc. destruct (rltb_spec (2/3) 0) as [(_ & F)|(-> & _)]; [exfalso; lra|].
      unfold Int_part. rewrite <- (tech_up (2/3) 1); [reflexivity|lra|lra]. }
    rewrite Et. cbn [obind]. unfold wall_time, new_sphere. cbn [spos svel srad sgrow stime vx].
    destruct (rltb_spec (0 * (4 - 0) - 1) (tenm 15)) as [(-> & _)|(_ & F)]; [|exfalso; pose proof (tenm_pos 15); lra].
    destruct (rleb_spec 0 (0 * -2 - 0)) as [(-> & _)|(_ & F)]; [|exfalso; lra]. reflexivity.
  - exists 2. rewrite plane_gap_linear, plane_gap_now. unfold new_sphere, d. cbn [spos svel srad sgrow stime]. vec. lra.
Qed.

(** After a collision with a wall of normal n (of any direction d <> 0): the normal velocity is |v.n| plus the
    growth rate, the tangential velocity is the old one, and the sphere never penetrates this wall again by itself. *)
Theorem C58_plane_response : forall p d s, d <> V3 0 0 0 -> proper s ->
  let s' := perform_wall (new_wall p d) s in
  let n := normalize d in
  s' = set_velocity s (svel s') /\
  dot n (svel s') = Rabs (dot n (svel s)) + sgrow s /\
  vsub (svel s') (smul (dot n (svel s')) n) = vsub (svel s) (smul (dot n (svel s)) n) /\
  (forall t, stime s <= t -> plane_gap p n s (stime s) <= plane_gap p n s' t).
Proof.
  intros p d s Hd P s' n.
  assert (Nn: dot n n = 1) by (apply normalize_unit; intros E; apply Hd, dot_zero; auto).
  destruct (reflect_normal (svel s) n (sgrow s) Nn) as (E1 & E2).
  assert (Ev: svel s' = vadd (if rltb (dot (svel s) n) 0 then vadd (svel s) (smul (- 2 * dot (svel s) n) n) else svel s) (smul (sgrow s) n))
    by reflexivity.
  split; [reflexivity|]. rewrite Ev. split; [exact E1|]. split; [exact E2|].
  intros t Ht. rewrite (plane_gap_linear p n s' t). rewrite !plane_gap_now.
  change (spos s') with (spos s). change (srad s') with (srad s). change (sgrow s') with (sgrow s).
  change (stime s') with (stime s). rewrite Ev, E1. pose proof (Rabs_pos (dot n (svel s))). nra.
Qed.

(** Cylinder walls: the statements hold as long as the sphere fits into the cylinder at all. *)
Theorem C58_cylinder_prediction : forall p d r s, d <> V3 0 0 0 -> proper s -> 0 <= stime s ->
  0 <= cylinder_gap p (normalize d) r s (stime s) ->
  exists tc, predict_cylinder (new_cylinder p d r) s = Ok tc /\
    (tc = EVENTNULL -> forall t, stime s <= t -> radius_at s t <= r -> 0 <= cylinder_gap p (normalize d) r s t) /\
    (tc <> EVENTNULL -> stime s <= tc /\ cylinder_gap p (normalize d) r s tc = 0 /\
       (forall t, stime s <= t <= tc -> 0 <= cylinder_gap p (normalize d) r s t) /\
       (0 < cylinder_gap p (normalize d) r s (stime s) ->
          forall t, stime s <= t < tc -> 0 < cylinder_gap p (normalize d) r s t)).
Proof.
  intros p d r s Hd P T Hg.
  destruct (predict_cylinder_ok p (normalize d) r s P T Hg (new_wall p d) eq_refl eq_refl) as (tc & E & H1 & H2).
  exists tc. split; [exact E|]. split; [auto|]. intros Hn. destruct (H2 Hn) as (A & _ & B & C & D). auto.
Qed.

(** The response turns the sphere towards the axis: [n] is the unit vector from its centre to the axis. *)
Theorem C58_cylinder_response : forall p d r s, d <> V3 0 0 0 -> proper s ->
  0 < axis_distance p (normalize d) (spos s) ->
  exists s', perform_cylinder (new_cylinder p d r) s = Ok s' /\
  s' = set_velocity s (svel s') /\
  exists n, dot n n = 1 /\ dot n (normalize d) = 0 /\
    (let w := vsub (spos s) p in vsub w (smul (dot w (normalize d)) (normalize d)))
      = smul (- axis_distance p (normalize d) (spos s)) n /\
    dot n (svel s') = Rabs (dot n (svel s)) + sgrow s /\
    vsub (svel s') (smul (dot n (svel s')) n) = vsub (svel s) (smul (dot n (svel s)) n).
Proof.
  intros p d r s Hd P Hax.
  assert (Dd: dot (normalize d) (normalize d) = 1) by (apply normalize_unit; intros E; apply Hd, dot_zero; auto).
  unfold perform_cylinder, new_cylinder, new_wall. cbn [cwall wdir wpos]. set (e := normalize d) in *.
  set (n0 := perp e (vsub p (spos s))). set (w := vsub (spos s) p).
  assert (En0: n0 = smul (-1) (vsub w (smul (dot w e) e))) by (unfold n0, perp, w; apply v3_eq; vec; ring).
  assert (Hd2: dot n0 n0 = axis_distance p e (spos s) * axis_distance p e (spos s)).
  { rewrite En0. unfold axis_distance, vnorm. rewrite sqrt_sqrt by apply dot_pos. fold w. rewrite dot_smul_l, dot_smul_r. ring. }
  assert (Hn0: dot n0 n0 <> 0) by (rewrite Hd2; nra).
  destruct (reqb_spec (dot n0 n0) 0) as [(_ & F)|(-> & _)]; [contradiction|].
  set (n := normalize n0). assert (Nn: dot n n = 1) by (apply normalize_unit; auto).
  assert (Es: n0 = smul (vnorm n0) n) by (apply normalize_scale; auto).
  assert (Hv: vnorm n0 = axis_distance p e (spos s)).
  { apply vnorm_eq; [lra|]. auto. }
  destruct (reflect_normal (svel s) n (sgrow s) Nn) as (E1 & E2).
  eexists. split; [reflexivity|]. split; [reflexivity|]. exists n. cbn [svel set_velocity].
  split; [auto|]. split; [|split; [|auto]].
  - assert (dot n0 e = 0) by (unfold n0; apply perp_dot; auto).
    rewrite Es, dot_smul_l in H. apply Rmult_integral in H. destruct H; [lra|auto].
  - rewrite <- Hv. replace (vsub w (smul (dot w e) e)) with (smul (-1) n0).
    + rewrite Es at 1. apply v3_eq; cbn [vx vy vz smul]; ring.
    + rewrite En0. apply v3_eq; cbn [vx vy vz smul]; ring.
Qed.
Print Assumptions C58_plane_prediction_partial.
Print Assumptions C58_oblique_wall_refuted.
Print Assumptions C58_plane_response.
Print Assumptions C58_cylinder_prediction.
Print Assumptions C58_cylinder_response.

Example C58_case : let s := new_sphere 0 (V3 2 1 0) (V3 (-1) 0 3) 1 (/2) in
  proper s /\ 0 <= plane_gap (V3 0 0 0) (normalize (V3 1 0 0)) s (stime s) /\
  0 <= cylinder_gap (V3 0 0 0) (normalize (V3 0 0 1)) 4 s (stime s) /\
  0 < axis_distance (V3 0 0 0) (normalize (V3 0 0 1)) (spos s).
Proof.
  cbv zeta. unfold proper, new_sphere. cbn [srad sgrow stime spos].
  rewrite (normalize_of_unit (V3 1 0 0)) by (vec; ring). rewrite (normalize_of_unit (V3 0 0 1)) by (vec; ring).
  split; [lra|]. split; [rewrite plane_gap_now; cbn [spos srad stime]; vec; lra|].
  assert (E: axis_distance (V3 0 0 0) (V3 0 0 1) (V3 2 1 0) = sqrt 5)
    by (unfold axis_distance, vnorm; f_equal; vec; ring).
  assert (0 < sqrt 5) by (apply sqrt_lt_R0; lra). assert (sqrt 5 * sqrt 5 = 5) by (apply sqrt_sqrt; lra).
  split.
  - unfold cylinder_gap, centre_at, radius_at. cbn [spos srad stime svel sgrow].
    replace (vadd _ _) with (V3 2 1 0) by (apply v3_eq; vec; ring). rewrite E. nra.
  - rewrite E. auto.
Qed.

(** ** C56: the motion between events.  Whatever was done to a sphere before, MoveAndGrow does not change where it is and how large it
    is at any time; a change of the growth rate at the present time changes the radius at no earlier time *)
Inductive sphere_call := Move (t : R) | Bounce (v : v3) | Rate (factor : R).
Definition sphere_step (s : sphere) (c : sphere_call) : sphere :=
  match c with
  | Move t => move_and_grow s t
  | Bounce v => set_velocity s v
  | Rate factor => set_growth_rate s factor (stime s)
  end.
Theorem C56_motion : forall i p v r g h, let s := List.fold_left sphere_step h (new_sphere i p v r g) in
  (forall t, stime (move_and_grow s t) = t /\ spos (move_and_grow s t) = centre_at s t /\ srad (move_and_grow s t) = radius_at s t /\
     svel (move_and_grow s t) = svel s /\ sgrow (move_and_grow s t) = sgrow s /\
     forall u, centre_at (move_and_grow s t) u = centre_at s u /\ radius_at (move_and_grow s t) u = radius_at s u) /\
  (forall t f, radius_at (set_growth_rate s f (stime s)) t = radius_at s (stime s) + f * sgrow s * (t - stime s) /\
     forall u, radius_at (move_and_grow (set_growth_rate s f (stime s)) t) u = radius_at s (stime s) + f * sgrow s * (u - stime s)).
Proof.
  intros i p v r g h s.
  assert (C : srad s = sradG s + sgrow s * (stime s - sreset s)).
  { unfold s. clear s. assert (C0 : srad (new_sphere i p v r g) = sradG (new_sphere i p v r g) + sgrow (new_sphere i p v r g) * (stime (new_sphere i p v r g) - sreset (new_sphere i p v r g))) by (cbn; ring).
    revert C0. generalize (new_sphere i p v r g). induction h as [|c h IH]; intros s0 C0; [exact C0|]. cbn [List.fold_left]. apply IH.
    destruct c; cbn [sphere_step move_and_grow set_velocity set_growth_rate srad sradG sgrow stime sreset]; [reflexivity|exact C0|rewrite C0; ring]. }
  split.
  - intro t. cbn [move_and_grow stime spos srad svel sgrow]. split; [reflexivity|]. split; [reflexivity|].
    assert (Q : forall u, sradG s + sgrow s * (u - sreset s) = radius_at s u) by (intro u; unfold radius_at; rewrite C; ring).
    split; [apply Q|]. split; [reflexivity|]. split; [reflexivity|]. intro u. split.
    + unfold centre_at. cbn [move_and_grow spos svel stime]. apply v3_eq; vec; ring.
    + unfold radius_at at 1. cbn [move_and_grow srad sgrow stime]. rewrite Q. unfold radius_at. ring.
  - intros t f. split; [|intro u]; unfold radius_at; cbn [move_and_grow set_growth_rate srad sradG sgrow stime sreset]; rewrite C; ring.
Qed.
Print Assumptions C56_motion.
Example C56_motion_case : let s := List.fold_left sphere_step (cons (Move 1) (cons (Rate 2) (cons (Move 3) nil))) (new_sphere 0 (V3 0 0 0) (V3 1 0 0) 1 (1/2)) in
  spos s = V3 3 0 0 /\ srad s = 7/2.
Proof. cbn. split; [unfold vadd, smul; cbn; f_equal; ring|field]. Qed.
