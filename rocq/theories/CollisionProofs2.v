(** Lemmas for C57 and C58: responses and walls. *)
From Coq Require Import Reals ZArith Lra Lia Psatz Bool.
From Verif Require Import Outcome AdaptiveModel AdaptiveProofs Vec3 CollisionModel CollisionSpec CollisionProofs.
Local Open Scope R_scope.

Lemma reqb_spec x y : (reqb x y = true /\ x = y) \/ (reqb x y = false /\ x <> y).
Proof. unfold reqb. destruct (Req_EM_T x y); auto. Qed.
Lemma Int_part_IZR z : Int_part (IZR z) = z.
Proof.
  unfold Int_part. assert (up (IZR z) = (z + 1)%Z) as ->; [|lia].
  symmetry. apply tech_up; rewrite plus_IZR; lra.
Qed.
Lemma trunc_IZR z : trunc (IZR z) = z.
Proof.
  unfold trunc. destruct (rltb_spec (IZR z) 0) as [(-> & _)|(-> & _)]; [|apply Int_part_IZR].
  rewrite <- opp_IZR, Int_part_IZR. lia.
Qed.

(** ** Sphere response *)
Section Response.
  Variables s1 s2 : sphere.
  Let n0 := vsub (spos s1) (spos s2).
  Hypothesis Hn : dot n0 n0 <> 0.
  Hypothesis H1 : 0 < srad s1.
  Hypothesis H2 : 0 < srad s2.
  Let s1' := fst (perform_spheres s1 s2).
  Let s2' := snd (perform_spheres s1 s2).
  Let n := normalize n0.

  Lemma masses : 0 < smass s1 /\ 0 < smass s2.
  Proof. unfold smass. split; repeat apply Rmult_lt_0_compat; auto. Qed.

  (** the two normal velocities after the collision *)
  Lemma response_form : exists u1 u2,
    svel s1' = vadd (smul u1 n) (vsub (svel s1) (smul (dot n (svel s1)) n)) /\
    svel s2' = vadd (smul u2 n) (vsub (svel s2) (smul (dot n (svel s2)) n)) /\
    2 * (sgrow s1 + sgrow s2) <= u1 - u2 /\
    smass s1 * u1 + smass s2 * u2 =
      smass s1 * dot n (svel s1) + smass s2 * dot n (svel s2)
      + 2 * smass s1 * sgrow s1 - 2 * smass s2 * sgrow s2 /\
    (dot n (svel s1) - dot n (svel s2) <= 0 -> sgrow s1 = 0 -> sgrow s2 = 0 ->
      smass s1 * (u1 * u1) + smass s2 * (u2 * u2)
      = smass s1 * (dot n (svel s1) * dot n (svel s1)) + smass s2 * (dot n (svel s2) * dot n (svel s2))).
  Proof.
    destruct masses as (M1 & M2). unfold s1', s2', perform_spheres. cbn [fst snd svel set_velocity].
    fold n0. fold n. fold (smass s1) (smass s2).
    set (v1 := dot n (svel s1)). set (v2 := dot n (svel s2)).
    pose proof (collision_1d_momentum v1 v2 (smass s1) (smass s2)) as Hm.
    pose proof (collision_1d_energy v1 v2 (smass s1) (smass s2)) as He.
    pose proof (collision_1d_relative v1 v2 (smass s1) (smass s2)) as Hr.
    set (w1 := collision_1d v1 v2 (smass s1) (smass s2)) in *.
    set (w2 := collision_1d v2 v1 (smass s2) (smass s1)) in *.
    assert (Hne: smass s1 + smass s2 <> 0) by lra. specialize (Hm Hne). specialize (He Hne). specialize (Hr Hne).
    eexists _, _. split; [reflexivity|]. split; [reflexivity|].
    destruct (rltb_spec (w1 - w2) 0) as [(-> & Hl)|(-> & Hl)].
    - split; [|split].
      + match goal with |- ?x <= ?y => assert (y = 2 * (sgrow s1 + sgrow s2)) as -> end; [field; lra|lra].
      + match goal with |- ?x = _ =>
          assert (x = (smass s1 * w1 + smass s2 * w2) + 2 * smass s1 * sgrow s1 - 2 * smass s2 * sgrow s2) as -> end;
          [field; lra|lra].
      + intros. exfalso. lra.
    - split; [lra|]. split; [lra|]. intros Ha -> ->.
      replace (w1 + 2 * 0) with w1 by ring. replace (w2 - 2 * 0) with w2 by ring. exact He.
  Qed.
End Response.

Lemma dot_n_perp n v u : dot n n = 1 -> dot n (vadd (smul u n) (vsub v (smul (dot n v) n))) = u.
Proof. intros E. autorewrite with dotdb. rewrite E. ring. Qed.

(** no overlap now, separating at least as fast as growing: no overlap ever *)
Lemma separating s1 s2 : proper s1 -> proper s2 -> stime s1 = stime s2 ->
  ~ overlap_at s1 s2 (stime s1) ->
  let d := vsub (spos s1) (spos s2) in
  (sgrow s1 + sgrow s2) * vnorm d <= dot d (vsub (svel s1) (svel s2)) ->
  forall t, stime s1 <= t -> ~ overlap_at s1 s2 t.
Proof.
  intros P1 P2 ET Hno d Hsep t Ht. pose proof P1 as (R1 & G1). pose proof P2 as (R2 & G2).
  rewrite overlap_quad in * by (auto; lra).
  unfold gapq in *. replace (stime s1 - stime s1) with 0 in Hno by ring.
  assert (Ec: qc s1 s2 = dot d d - (srad s1 + srad s2) * (srad s1 + srad s2)).
  { unfold qc, rel_pos, rel_rad. rewrite ET. unfold d. vec. ring. }
  assert (Eb: qb s1 s2 = 2 * (dot d (vsub (svel s1) (svel s2)) - (srad s1 + srad s2) * (sgrow s1 + sgrow s2))).
  { unfold qb, rel_pos, rel_rad. rewrite ET. unfold d. vec. ring. }
  set (g := sgrow s1 + sgrow s2) in *. set (r := srad s1 + srad s2) in *. set (w := vsub (svel s1) (svel s2)) in *.
  assert (0 < r) by (unfold r; lra). assert (0 <= g) by (unfold g; lra).
  assert (Hd0 := dot_pos d). assert (Hnn := sqrt_pos (dot d d)). assert (Hs := sqrt_sqrt _ Hd0). fold (vnorm d) in Hnn, Hs.
  assert (Hr: r <= vnorm d) by nra. assert (Hdp: 0 < vnorm d) by lra.
  assert (Hb: 0 <= qb s1 s2) by (rewrite Eb; nra).
  assert (Ha: 0 <= qa s1 s2).
  { unfold qa. fold w g. pose proof (cauchy d w) as Hcs. rewrite <- Hs in Hcs.
    assert (0 <= g * vnorm d) by (apply Rmult_le_pos; lra).
    assert ((g * vnorm d) * (g * vnorm d) <= dot d w * dot d w) by (apply Rmult_le_compat; lra).
    assert ((vnorm d * vnorm d) * (g * g) <= (vnorm d * vnorm d) * dot w w) by nra.
    assert (0 < vnorm d * vnorm d) by (apply Rmult_lt_0_compat; lra).
    assert (g * g <= dot w w) by (eapply Rmult_le_reg_l; eauto). lra. }
  assert (0 <= gapq s1 s2 (t - stime s1)) by (apply quad_up; auto; lra). unfold gapq in *. lra.
Qed.

Lemma overlap_ext s1 s2 u1 u2 t : 
  spos u1 = spos s1 -> srad u1 = srad s1 -> stime u1 = stime s1 ->
  spos u2 = spos s2 -> srad u2 = srad s2 -> stime u2 = stime s2 -> stime s1 = t -> stime s2 = t ->
  (overlap_at s1 s2 t <-> overlap_at u1 u2 t).
Proof.
  intros E1 E2 E3 E4 E5 E6 E7 E8. unfold overlap_at, radius_at, centre_at. rewrite E1, E2, E3, E4, E5, E6, E7, E8.
  replace (t - t) with 0 by ring.
  assert (forall p v, vadd p (smul 0 v) = p) as Hz by (intros; apply v3_eq; vec; ring).
  rewrite !Hz, !Rmult_0_r. tauto.
Qed.

Lemma distance_pos_of_no_overlap s1 s2 t : proper s1 -> proper s2 -> stime s1 = t -> stime s2 = t ->
  ~ overlap_at s1 s2 t -> dot (vsub (spos s1) (spos s2)) (vsub (spos s1) (spos s2)) <> 0.
Proof.
  intros (R1 & _) (R2 & _) E1 E2 Hno E. apply Hno. unfold overlap_at, radius_at, centre_at, distance.
  rewrite E1, E2. replace (t - t) with 0 by ring.
  assert (forall p v, vadd p (smul 0 v) = p) as Hz by (intros; apply v3_eq; vec; ring).
  rewrite !Hz. unfold vnorm. rewrite E, sqrt_0, !Rmult_0_r. lra.
Qed.

(** ** Planes *)
Lemma plane_gap_linear p n s t :
  plane_gap p n s t = plane_gap p n s (stime s) + (dot n (svel s) - sgrow s) * (t - stime s).
Proof.
  unfold plane_gap, centre_at, radius_at. vec. replace (stime s - stime s) with 0 by ring. ring.
Qed.
Lemma plane_gap_now p n s : plane_gap p n s (stime s) = dot n (vsub (spos s) p) - srad s.
Proof. unfold plane_gap, centre_at, radius_at. vec. replace (stime s - stime s) with 0 by ring. ring. Qed.

Lemma wall_distances_ok p d s : d <> V3 0 0 0 -> Rabs (vsum d) <> 1 \/ axis_vector d ->
  wall_distances (new_wall p d) s =
    Ok (plane_gap p (normalize d) s (stime s), dot (normalize d) (svel s) - sgrow s).
Proof.
  intros Hd Hax. unfold wall_distances, new_wall. cbn [waligned waxis wdir wpos].
  destruct (reqb_spec (Rabs (vsum d)) 1) as [(-> & E)|(-> & E)].
  - destruct Hax as [Hax|Hax]; [contradiction|].
    assert (normalize d = d) as ->.
    { apply normalize_of_unit. destruct Hax as [-> |[-> |[-> |[-> |[-> | ->]]]]]; vec; ring. }
    assert (T1: trunc 1 = 1%Z) by apply trunc_IZR. assert (T2: trunc (-1) = (-1)%Z) by apply trunc_IZR.
    rewrite plane_gap_now. unfold non_null_axis.
    assert (R1: forall y, reqb 0 y = true \/ reqb 0 y = false) by (intros y; destruct (reqb 0 y); auto).
    assert (Q0: reqb 0 0 = true) by (destruct (reqb_spec 0 0) as [(-> & _)|(_ & F)]; [auto|lra]).
    assert (Q1: reqb 1 0 = false) by (destruct (reqb_spec 1 0) as [(_ & F)|(-> & _)]; [lra|auto]).
    assert (Q2: reqb (-1) 0 = false) by (destruct (reqb_spec (-1) 0) as [(_ & F)|(-> & _)]; [lra|auto]).
    destruct Hax as [-> |[-> |[-> |[-> |[-> | ->]]]]]; cbn [vx vy vz]; rewrite ?Q0, ?Q1, ?Q2; cbn [negb vnth vx vy vz];
      rewrite ?T1, ?T2; f_equal; f_equal; vec; simpl; ring.
  - rewrite plane_gap_now. f_equal. f_equal. rewrite dot_comm. reflexivity.
Qed.

Lemma wall_time_ok p n s : 0 <= stime s -> 0 <= plane_gap p n s (stime s) ->
  let r := wall_time s (plane_gap p n s (stime s)) (dot n (svel s) - sgrow s) in
  (r = EVENTNULL -> forall t, stime s <= t -> 0 <= plane_gap p n s t) /\
  (r <> EVENTNULL -> stime s <= r /\ plane_gap p n s r = 0 /\
     (forall t, stime s <= t < r -> 0 < plane_gap p n s t) /\ (forall t, r < t -> plane_gap p n s t < 0)).
Proof.
  intros H0 Hg r. unfold r. clear r. set (g := plane_gap p n s (stime s)) in *.
  set (dyn := dot n (svel s) - sgrow s).
  assert (Hlin: forall t, plane_gap p n s t = g + dyn * (t - stime s)) by (intros; apply plane_gap_linear).
  pose proof (tenm_pos 15) as T15.
  assert (Hup: 0 <= dyn -> forall t, stime s <= t -> 0 <= plane_gap p n s t).
  { intros Hd t Ht. rewrite Hlin. assert (0 <= dyn * (t - stime s)) by (apply Rmult_le_pos; lra). lra. }
  destruct (rleb_spec 0 dyn) as [(Hde & Hd)|(Hde & Hd)].
  - assert (X: wall_time s g dyn = EVENTNULL).
    { unfold wall_time. rewrite Hde. destruct (rltb_spec g (tenm 15)) as [(-> & _)|(-> & Hl)]; [reflexivity|]. cbn [andb].
      destruct (reqb_spec dyn 0) as [(-> & _)|(-> & Hn)]; [reflexivity|]. cbv zeta.
      destruct (rleb_spec 0 (- g / dyn)) as [(-> & F)|(-> & _)]; [exfalso|reflexivity].
      assert (- g / dyn * dyn = - g) by (field; auto). assert (0 < dyn) by lra. nra. }
    rewrite X. split; [auto|congruence].
  - unfold wall_time. rewrite Hde, andb_false_r. destruct (reqb_spec dyn 0) as [(_ & F)|(-> & Hn)]; [lra|]. cbv zeta.
    assert (E: - g / dyn * dyn = - g) by (field; auto).
    destruct (rleb_spec 0 (- g / dyn)) as [(-> & Ht)|(-> & F)]; [|exfalso; nra].
    set (tc := - g / dyn) in *. split; [unfold EVENTNULL; intros; lra|]. intros _.
    split; [lra|]. split; [rewrite Hlin; lra|]. split.
    + intros t Hlt. rewrite Hlin. nra.
    + intros t Hlt. rewrite Hlin. nra.
Qed.

Lemma reflect_normal v n g : dot n n = 1 ->
  let v1 := if rltb (dot v n) 0 then vadd v (smul (- 2 * dot v n) n) else v in
  let v2 := vadd v1 (smul g n) in
  dot n v2 = Rabs (dot n v) + g /\
  vsub v2 (smul (dot n v2) n) = vsub v (smul (dot n v) n).
Proof.
  intros En v1 v2.
  assert (E: dot n v2 = Rabs (dot n v) + g).
  { unfold v2, v1. rewrite (dot_comm v n). destruct (rltb_spec (dot n v) 0) as [(-> & Hl)|(-> & Hl)];
      autorewrite with dotdb; rewrite En.
    - rewrite Rabs_left by lra. ring.
    - rewrite Rabs_right by lra. ring. }
  split; auto. rewrite E. unfold v2, v1. rewrite (dot_comm v n).
  destruct (rltb_spec (dot n v) 0) as [(-> & Hl)|(-> & Hl)].
  - rewrite Rabs_left by lra. apply v3_eq; cbn [vx vy vz vsub vadd smul]; ring.
  - rewrite Rabs_right by lra. apply v3_eq; cbn [vx vy vz vsub vadd smul]; ring.
Qed.

(** ** Cylinders *)
Lemma perp_add d x y k : perp d (vadd x (smul k y)) = vadd (perp d x) (smul k (perp d y)).
Proof. unfold perp. apply v3_eq; vec; ring. Qed.
Lemma perp_dot d x : dot d d = 1 -> dot (perp d x) d = 0.
Proof. intros E. unfold perp. autorewrite with dotdb. rewrite E. ring. Qed.

Section Cyl.
  Variables (p d : v3) (R0 : R) (s : sphere).
  Hypothesis Hr : proper s.
  Hypothesis Ht0 : 0 <= stime s.
  Let dP := perp d (vsub (spos s) p).
  Let dV := perp d (svel s).
  Let dR := R0 - srad s.
  Let g := sgrow s.
  Let a := dot dV dV - g * g.
  Let b := 2 * (dot dV dP + dR * g).
  Let c := dot dP dP - dR * dR.
  Let q t := a * t * t + b * t + c.

  Lemma cyl_quad t : let x := axis_distance p d (centre_at s t) in
    let w := R0 - radius_at s t in x * x - w * w = q (t - stime s).
  Proof.
    cbv zeta. unfold axis_distance.
    replace (vsub (centre_at s t) p) with (vadd (vsub (spos s) p) (smul (t - stime s) (svel s)))
      by (unfold centre_at; apply v3_eq; vec; ring).
    fold (perp d (vadd (vsub (spos s) p) (smul (t - stime s) (svel s)))). rewrite perp_add. fold dP dV.
    unfold vnorm. rewrite sqrt_sqrt by apply dot_pos. unfold q, a, b, c, radius_at. fold g. unfold dR.
    autorewrite with dotdb. rewrite (dot_comm dP dV). ring.
  Qed.
  (** as long as the sphere fits *)
  Lemma cyl_inside t : radius_at s t <= R0 -> (0 <= cylinder_gap p d R0 s t <-> q (t - stime s) <= 0).
  Proof.
    intros Hf. rewrite <- cyl_quad. cbv zeta. unfold cylinder_gap.
    assert (0 <= axis_distance p d (centre_at s t)) by apply sqrt_pos. split; intros; nra.
  Qed.
  Lemma cyl_touch t : radius_at s t <= R0 -> (cylinder_gap p d R0 s t = 0 <-> q (t - stime s) = 0).
  Proof.
    intros Hf. rewrite <- cyl_quad. cbv zeta. unfold cylinder_gap.
    assert (0 <= axis_distance p d (centre_at s t)) by apply sqrt_pos. split; intros; nra.
  Qed.
  Lemma cyl_strict t : radius_at s t <= R0 -> (0 < cylinder_gap p d R0 s t <-> q (t - stime s) < 0).
  Proof.
    intros Hf. rewrite <- cyl_quad. cbv zeta. unfold cylinder_gap.
    assert (0 <= axis_distance p d (centre_at s t)) by apply sqrt_pos. split; intros; nra.
  Qed.
  Hypothesis Hin : 0 <= cylinder_gap p d R0 s (stime s).
  Lemma cyl_fit : radius_at s (stime s) <= R0.
  Proof.
    unfold cylinder_gap in Hin. assert (0 <= axis_distance p d (centre_at s (stime s))) by apply sqrt_pos. lra.
  Qed.
  Lemma cyl_dR : 0 <= dR.
  Proof. pose proof cyl_fit as F. unfold radius_at in F. unfold dR. replace (stime s - stime s) with 0 in F by ring. lra. Qed.
  Lemma cyl_c : c <= 0.
  Proof.
    pose proof (proj1 (cyl_inside (stime s) cyl_fit) Hin) as H. unfold q in H.
    replace (stime s - stime s) with 0 in H by ring. lra.
  Qed.
  (** when the sphere fills the cylinder the quadratic is not negative *)
  Lemma cyl_full : 0 < g -> 0 <= q (dR / g).
  Proof.
    intros Hg. unfold q, a, b, c. set (k := dR / g). assert (E: dR = k * g) by (unfold k; field; lra). rewrite E.
    replace ((dot dV dV - g * g) * k * k + 2 * (dot dV dP + k * g * g) * k + (dot dP dP - k * g * (k * g)))
      with (dot (vadd dP (smul k dV)) (vadd dP (smul k dV)))
      by (autorewrite with dotdb; rewrite (dot_comm dP dV); ring).
    apply dot_pos.
  Qed.
  Lemma cyl_D : 0 <= b * b - 4 * a * c.
  Proof.
    destruct Hr as (_ & Hg). fold g in Hg. pose proof cyl_c as Hc. pose proof cyl_dR as HdR.
    destruct (Rle_dec 0 a) as [Ha|Ha]; [nra|].
    assert (Hg': 0 < g). { destruct (Rle_lt_or_eq_dec 0 g Hg); auto. exfalso. apply Ha. unfold a. pose proof (dot_pos dV). nra. }
    destruct (Rle_dec 0 (b * b - 4 * a * c)) as [|Hn]; auto. exfalso.
    pose proof (quad_no_root (- a) (- b) (- c)) as Hq. pose proof (cyl_full Hg') as Hf.
    assert (X: 0 < - a * (dR/g) * (dR/g) + - b * (dR/g) + - c) by (apply Hq; lra). unfold q in Hf. lra.
  Qed.
  Lemma fits_until t : 0 < g -> (radius_at s t <= R0 <-> t - stime s <= dR / g).
  Proof.
    intros Hg. unfold radius_at. fold g. assert (E: dR / g * g = dR) by (field; lra). unfold dR in *. split; intros; nra.
  Qed.

  Let r := predict_cylinder (mkCyl (mkWall p d None false) R0) s.
  Lemma predict_cylinder_quad w : wpos w = p -> wdir w = d ->
    predict_cylinder (mkCyl w R0) s =
      if rltb 0 b then let tc := 2 * c / (- b - sqrt (b * b - 4 * a * c)) in
          if rleb 0 tc then Ok (stime s + tc) else Ok EVENTNULL
      else if rltb 0 a then Ok (stime s + (- b + sqrt (b * b - 4 * a * c)) / (2 * a)) else Ok EVENTNULL.
  Proof.
    intros Ep Ed. unfold predict_cylinder. cbn [cwall cradius]. rewrite Ep, Ed. fold dP dV dR g.
    replace (dot dV dV - - g * - g) with a by (unfold a; ring). fold c.
    replace (2 * (dot dV dP - dR * - g)) with b by (unfold b; ring).
    pose proof cyl_c as Hc. pose proof cyl_D as HD. destruct Hr as (Hr1 & _).
    pose proof (tenm_pos 10). pose proof (tenm_pos 11).
    destruct (rltb_spec (2 * tenm 10 * srad s) c) as [(_ & F)|(-> & _)].
    { exfalso. assert (0 < 2 * tenm 10 * srad s) by (apply Rmult_lt_0_compat; lra). lra. }
    destruct (rltb_spec (- tenm 11) (b * b - 4 * a * c)) as [(-> & _)|(_ & F)]; [|exfalso; lra].
    destruct (rltb_spec (b * b - 4 * a * c) 0) as [(_ & F)|(-> & _)]; [exfalso; lra|].
    destruct (rltb_spec 0 b) as [(-> & Hb)|(-> & Hb)]; [reflexivity|].
    destruct (rleb_spec b 0) as [(-> & _)|(_ & F)]; [|exfalso; lra]. rewrite andb_true_r. reflexivity.
  Qed.

  Lemma predict_cylinder_ok w : wpos w = p -> wdir w = d ->
    exists r, predict_cylinder (mkCyl w R0) s = Ok r /\
    (r = EVENTNULL -> forall t, stime s <= t -> radius_at s t <= R0 -> 0 <= cylinder_gap p d R0 s t) /\
    (r <> EVENTNULL -> stime s <= r /\ radius_at s r <= R0 /\ cylinder_gap p d R0 s r = 0 /\
       (forall t, stime s <= t <= r -> 0 <= cylinder_gap p d R0 s t) /\
       (0 < cylinder_gap p d R0 s (stime s) -> forall t, stime s <= t < r -> 0 < cylinder_gap p d R0 s t)).
  Proof.
    intros Ep Ed. rewrite (predict_cylinder_quad w Ep Ed).
    pose proof cyl_c as Hc. pose proof cyl_D as HD. pose proof cyl_dR as HdR. destruct Hr as (Hr1 & Hg). fold g in Hg.
    set (D := b * b - 4 * a * c) in *.
    (* what remains once the first zero t0 of q is known *)
    assert (Hfin: forall t0, 0 <= t0 -> q t0 = 0 -> (forall t, 0 <= t <= t0 -> q t <= 0) ->
       (c < 0 -> forall t, 0 <= t < t0 -> q t < 0) -> (0 < g -> t0 <= dR / g) ->
       exists r, Ok (stime s + t0) = Ok r /\
       (r = EVENTNULL -> forall t, stime s <= t -> radius_at s t <= R0 -> 0 <= cylinder_gap p d R0 s t) /\
       (r <> EVENTNULL -> stime s <= r /\ radius_at s r <= R0 /\ cylinder_gap p d R0 s r = 0 /\
         (forall t, stime s <= t <= r -> 0 <= cylinder_gap p d R0 s t) /\
         (0 < cylinder_gap p d R0 s (stime s) -> forall t, stime s <= t < r -> 0 < cylinder_gap p d R0 s t))).
    { intros t0 H0 Hq0 Hle Hlt Hfits. exists (stime s + t0). split; [reflexivity|].
      split; [unfold EVENTNULL; intros; lra|]. intros _.
      assert (Hf: forall t, stime s <= t <= stime s + t0 -> radius_at s t <= R0).
      { intros t Ht. destruct (Rle_lt_or_eq_dec 0 g Hg) as [Hg'|Hg'].
        - rewrite fits_until by auto. specialize (Hfits Hg'). lra.
        - unfold radius_at. fold g. rewrite <- Hg'. unfold dR in HdR. lra. }
      split; [lra|]. split; [apply Hf; lra|]. split.
      { apply cyl_touch; [apply Hf; lra|]. replace (stime s + t0 - stime s) with t0 by ring. exact Hq0. }
      split.
      - intros t Ht. apply cyl_inside; [apply Hf; auto|]. apply Hle. lra.
      - intros Hs t Ht. apply cyl_strict; [apply Hf; lra|]. apply Hlt; [|lra].
        apply (cyl_strict (stime s)) in Hs; [|apply cyl_fit]. unfold q in Hs.
        replace (stime s - stime s) with 0 in Hs by ring. lra. }
    destruct (rltb_spec 0 b) as [(-> & Hb)|(-> & Hb)].
    - assert (Hc': 0 <= - c) by lra. assert (Hb': - b < 0) by lra.
      assert (HD': 0 <= - b * - b - 4 * - a * - c) by (unfold D in HD; lra).
      destruct (quad_first (- a) (- b) (- c) Hc' Hb' HD') as (Q0 & Q1 & Q2).
      replace (- b * - b - 4 * - a * - c) with D in * by (unfold D; ring).
      assert (Hs := sqrt_pos D). set (sD := sqrt D) in *.
      assert (E: 2 * - c / (- - b + sD) = 2 * c / (- b - sD)) by (field; lra).
      rewrite E in *. set (t0 := 2 * c / (- b - sD)) in *. cbv zeta.
      destruct (rleb_spec 0 t0) as [(-> & _)|(_ & F)]; [|exfalso; lra].
      apply Hfin; auto.
      + unfold q. lra.
      + intros t Ht. unfold q. destruct (Rle_lt_or_eq_dec t t0) as [Hl|He]; [lra| |].
        * specialize (Q2 t). lra.
        * subst t. lra.
      + intros _ t Ht. specialize (Q2 t). unfold q. lra.
      + intros Hg'. destruct (Rle_dec t0 (dR / g)) as [|Hn]; auto. exfalso.
        assert (0 <= dR / g) by (apply Rmult_le_pos; [auto|apply Rlt_le, Rinv_0_lt_compat; auto]).
        pose proof (cyl_full Hg') as Hf. specialize (Q2 (dR / g)). unfold q in Hf. lra.
    - destruct (rltb_spec 0 a) as [(-> & Ha)|(-> & Ha)].
      + assert (Hc': 0 <= - c) by lra. assert (Hb': 0 <= - b) by lra. assert (Ha': - a < 0) by lra.
        destruct (quad_last (- a) (- b) (- c) Hc' Hb' Ha') as (_ & Q0 & Q1 & Q2 & Q3).
        replace (- b * - b - 4 * - a * - c) with D in * by (unfold D; ring). set (sD := sqrt D) in *.
        assert (E: (- - b - sD) / (2 * - a) = (- b + sD) / (2 * a)) by (field; lra).
        rewrite E in *. set (t0 := (- b + sD) / (2 * a)) in *.
        apply Hfin; auto.
        * unfold q. lra.
        * intros t Ht. specialize (Q2 t Ht). unfold q. lra.
        * intros Hc'' t Ht. specialize (Q3 ltac:(lra) t Ht). unfold q. lra.
        * intros Hg'. destruct (Rle_dec t0 (dR / g)) as [|Hn]; auto. exfalso.
          assert (Hk: 0 <= dR / g) by (apply Rmult_le_pos; [auto|apply Rlt_le, Rinv_0_lt_compat; auto]).
          pose proof (cyl_full Hg') as Hf.
          destruct (Rle_lt_or_eq_dec c 0 Hc) as [Hc''|Hc''].
          -- specialize (Q3 ltac:(lra) (dR / g)). unfold q in Hf. lra.
          -- (* touching the wall: b = 0 if the sphere fills the cylinder *)
             assert (0 <= dot dP dP) by apply dot_pos.
             assert (Hq: q (dR / g) = (dR / g) * (a * (dR / g) + b)) by (unfold q; rewrite Hc''; ring).
             assert (Ht: t0 * (a * t0 + b) = 0). { unfold q in Q1. rewrite Hc'' in Q1. lra. }
             assert (Hz: a * t0 + b = 0). { apply Rmult_integral in Ht. destruct Ht; [lra|auto]. }
             assert (Hlt: a * (dR / g) + b < 0) by nra.
             destruct (Rle_lt_or_eq_dec 0 (dR / g) Hk) as [Hkp|Hk0]; [nra|].
             (* dR = 0 *)
             assert (HdR0: dR = 0). { assert (dR = dR / g * g) as -> by (field; lra). rewrite <- Hk0. ring. }
             assert (HdP: dot dP dP = 0) by (unfold c in Hc''; rewrite HdR0 in Hc''; lra).
             apply dot_zero in HdP. assert (b = 0).
             { unfold b. rewrite HdR0, HdP. vec. ring. }
             nra.
      + exists EVENTNULL. split; [reflexivity|]. split; [|congruence]. intros _ t Ht Hf. apply cyl_inside; auto.
        set (u := t - stime s). assert (0 <= u) by (unfold u; lra). unfold q.
        assert (a * u * u <= 0) by nra. assert (b * u <= 0) by nra. lra.
  Qed.
End Cyl.
