(** C91: a cylinder specimen with fewer particles than a sub-box holds *)
From Coq Require Import Reals ZArith List Bool Lia Lra Psatz.
From Verif Require Import Outcome AdaptiveModel AdaptiveProofs Vec3 CollisionModel CollisionSpec CollisionProofs CollisionProofs2 SubBoxModel SubBoxSpec SubBoxProofs PropSubBox EventModel SimModel SimSpec SimProofs SimProofs2 SimProofs3 SimProofs6
  TakeModel TakeSpec TakeProofs TakeProofs2 TakeProofs3 PropTake PropSim GeometryModel GeometryProofs PropGeometry GeometryCyl PropGeometryCyl.
Import ListNotations.
Local Open Scope R_scope.

(** ** A ball of radius 1/2 in the middle of a cylinder of diameter and height 10, with a sidewards velocity *)
Definition sidewards : nat -> v3 := fun _ => V3 (/ 2) 0 0.
Definition drift (i : Z) : sphere := created [(V3 5 5 5, / 2)] sidewards 1 0 i.
Lemma drift_at : drift FIRST_ID = new_sphere FIRST_ID (V3 5 5 5) (V3 (/ 2) 0 0) (/ 2) (/ 2 * 1 + 0).
Proof. exact (created_at [(V3 5 5 5, / 2)] sidewards 1 0 0). Qed.
Lemma drift_packing : packing ten_grid ten_object wall_ids (particle_ids 1) drift.
Proof.
  apply (packing_of zero3 cube10 1 1 1 [(V3 5 5 5, / 2)] sidewards 1 0); try lia; try (cbn [cube10 vx vy vz]; lra); try lra.
  - intros [|k] Hk; [|cbn in Hk; lia]. unfold pget. cbn [nth fst snd]. unfold ball_in_box, below_upper. cbn [fst snd zero3 cube10 vx vy vz]. lra.
  - intros i j Hij. cbn in Hij. lia.
Qed.
Lemma ten_ingrid : in_grid ten_grid 0 0 0.
Proof. unfold in_grid. cbn [ten_grid new_grid gnx gny gnz]. lia. Qed.
Lemma ten_wall k : (k < 6)%nat -> ten_object (- (Z.of_nat k + 1)) = OWall (wallof ten_grid (0, 0, 0)%Z k).
Proof. intros Hk. apply (box_wall_object ten_grid 0 0 0); cbn [ten_grid new_grid gnx gny gnz]; lia. Qed.
Lemma ten_dir k : (k < 6)%nat -> wdir (bw_wall (wallof ten_grid (0, 0, 0)%Z k)) = (let '(x, y, z) := neighbour k in V3 (IZR (- x)) (IZR (- y)) (IZR (- z))) /\
  bw_kind (wallof ten_grid (0, 0, 0)%Z k) = Physical.
Proof.
  intros Hk. destruct (neighbour_cases k Hk) as [->|[->|[->|[->|[->| ->]]]]]; split; try reflexivity;
    cbn [wallof build_wall neighbour bw_wall new_wall wdir]; apply normalize_of_unit; unfold dot; cbn [vx vy vz]; cbn [Z.opp]; ring.
Qed.
(** the walls that stay are the top and the bottom *)
Lemma ten_stays k : (k < 6)%nat -> stays (wallof ten_grid (0, 0, 0)%Z k) = true <-> exists up, k = side 2 up.
Proof.
  intros Hk. destruct (ten_dir k Hk) as (N & Kd). unfold stays. rewrite Kd, N. cbn [andb].
  assert (R0 : reqb 0 0 = true) by (destruct (reqb_spec 0 0) as [(E & _)|(_ & F)]; [exact E|lra]).
  assert (R1 : reqb 1 0 = false) by (destruct (reqb_spec 1 0) as [(_ & F)|(E & _)]; [lra|exact E]).
  assert (R2 : reqb (-1) 0 = false) by (destruct (reqb_spec (-1) 0) as [(_ & F)|(E & _)]; [lra|exact E]).
  destruct (neighbour_cases k Hk) as [->|[->|[->|[->|[->| ->]]]]]; cbn [neighbour vz Z.opp]; rewrite ?R0, ?R1, ?R2; cbn [negb];
    (split; [intros S; try discriminate|intros ([|] & S); unfold side in S; cbn in S; try lia; try reflexivity]); [exists false|exists true]; reflexivity.
Qed.
Lemma ten_no_cylinder : cylinder_ids ten_grid (vx cube10 / 2) 0 = [].
Proof.
  unfold cylinder_ids. cbn [ten_grid new_grid gny gnz]. change (0 / (1 * 1))%Z with 0%Z.
  destruct (C63_one_division_refuted 1 1 zero3 10 10) as (N & _); try lia; try lra. specialize (N ((0 / 1) mod 1)%Z).
  cbn [cube10 vx]. unfold ten_grid, cube10. rewrite N. reflexivity.
Qed.
Lemma wall_fine s k : (k < 6)%nat -> exists t, predict_box_wall s (wallof ten_grid (0, 0, 0)%Z k) FIRST_ID = Ok t.
Proof.
  intros Hk. assert (Kd : bw_kind (wallof ten_grid (0, 0, 0)%Z k) = Physical) by (destruct k as [|[|[|[|[|[|k]]]]]]; try lia; reflexivity).
  unfold predict_box_wall. rewrite Kd. destruct (side_cases k Hk) as (a & up & Ha & ->).
  destruct (wall_values ten_grid (0, 0, 0)%Z a up (sph s FIRST_ID) Ha) as (V1 & _). unfold predict_wall. rewrite V1. cbn [obind]. eexists. reflexivity.
Qed.
Lemma drift_wall s up : sph s FIRST_ID = drift FIRST_ID -> predict_box_wall s (wallof ten_grid (0, 0, 0)%Z (side 2 up)) FIRST_ID = Ok 9.
Proof.
  intros Es. assert (Kd : bw_kind (wallof ten_grid (0, 0, 0)%Z (side 2 up)) = Physical) by (destruct up; reflexivity).
  unfold predict_box_wall. rewrite Kd. destruct (wall_values ten_grid (0, 0, 0)%Z 2 up (sph s FIRST_ID) ltac:(lia)) as (V1 & _). unfold predict_wall. rewrite V1, Es, drift_at. cbn [obind new_sphere stime].
  assert (Gap : SimProofs.gap ten_grid (0, 0, 0)%Z 2 up (new_sphere FIRST_ID (V3 5 5 5) (V3 (/ 2) 0 0) (/ 2) (/ 2 * 1 + 0)) 0 = 9 / 2).
  { unfold SimProofs.gap, lo, hi, centre_at, radius_at, plane, ten_grid, zero3, cube10. destruct up;
      cbn [new_grid vnth vadd smul vx vy vz new_sphere spos svel stime srad sgrow gh ghx ghy ghz gorg co Z.add]; lra. }
  assert (DG : dgap 2 up (new_sphere FIRST_ID (V3 5 5 5) (V3 (/ 2) 0 0) (/ 2) (/ 2 * 1 + 0)) = - / 2).
  { unfold dgap. destruct up; cbn [new_sphere svel sgrow vnth vx vy vz]; lra. }
  rewrite Gap, DG. unfold wall_time. rewrite (rleb_f 0 (- / 2)) by lra. rewrite Bool.andb_false_r.
  destruct (reqb_spec (- / 2) 0) as [(_ & F)|(-> & _)]; [lra|]. cbv zeta. replace (- (9 / 2) / - / 2) with 9 by field. rewrite rleb_t by lra. cbn [new_sphere stime]. f_equal. ring.
Qed.

(** what the only sub-box holds: the ball, the top and the bottom *)
Definition ball_or_lid (d : Z) : Prop := d = FIRST_ID \/ exists up, d = (- (Z.of_nat (side 2 up) + 1))%Z.
Lemma lid_object up : ten_object (- (Z.of_nat (side 2 up) + 1)) = OWall (wallof ten_grid (0, 0, 0)%Z (side 2 up)).
Proof. apply ten_wall. destruct up; cbn; lia. Qed.
Lemma ball_object : ten_object FIRST_ID = OSphere.
Proof. reflexivity. Qed.
Lemma open_box b : add_spheres ten_grid (map drift (particle_ids 1)) wall_ids = Ok b ->
  let b' := cylinder_boxes ten_object (cylinder_ids ten_grid (vx cube10 / 2)) b in
  forall d, In d (b' 0%Z) <-> ball_or_lid d.
Proof.
  intros AD b' d. pose proof drift_packing as PK. pose proof (pk_grid _ _ _ _ _ PK) as OK.
  assert (MEM : In d (b 0%Z) <-> In d (wall_ids 0) \/ d = FIRST_ID).
  { destruct (add_spheres_ok ten_grid (map drift (particle_ids 1)) wall_ids OK) as (b2 & AD2 & _ & I2).
    - intros x [<-|[]]. change (FIRST_ID + Z.of_nat 0)%Z with FIRST_ID. rewrite drift_at. cbn [new_sphere srad]. split; [lra|].
      unfold fits, axis_fits, ten_grid, zero3, cube10. cbn [new_sphere spos srad new_grid gorg ghx ghy ghz gnx gny gnz vx vy vz]. lra.
    - intros k _. discriminate.
    - rewrite AD in AD2. injection AD2 as <-. specialize (I2 0%Z 0%Z 0%Z d ten_ingrid). change (box_index ten_grid 0 0 0) with 0%Z in I2. rewrite I2.
      split; intros [H|H]; auto; right.
      + destruct H as (x & [<-|[]] & <- & _). reflexivity.
      + exists (drift FIRST_ID). split; [left; reflexivity|]. split; [rewrite H, drift_at; reflexivity|]. rewrite drift_at.
        exists (V3 5 5 5). unfold in_cube, cell3, in_cell_ho, glen, ten_grid, zero3, cube10. cbn [new_sphere spos srad new_grid gorg ghx ghy ghz gnx gny gnz vx vy vz]. rewrite Rminus_diag_eq, Rabs_R0 by reflexivity. lra. }
  unfold b', cylinder_boxes. rewrite ten_no_cylinder, app_nil_r, filter_In, MEM. unfold ball_or_lid. split.
  - intros ([W|W] & F); [right|left; exact W]. unfold wall_ids in W. apply in_map_iff in W. destruct W as (k & <- & Hk). apply in_seq in Hk.
    replace (- (6 * 0 + Z.of_nat k + 1))%Z with (- (Z.of_nat k + 1))%Z in * by lia. rewrite ten_wall in F by lia.
    apply ten_stays in F; [|lia]. destruct F as (up & ->). exists up. reflexivity.
  - intros [->|(up & ->)].
    + rewrite ball_object. auto.
    + split; [left; unfold wall_ids; apply in_map_iff; exists (side 2 up); split; [lia|apply in_seq; destruct up; cbn; lia]|].
      rewrite lid_object. apply ten_stays; [destruct up; cbn; lia|exists up; reflexivity].
Qed.

Lemma pair_fine s c d : ball_or_lid c -> ball_or_lid d -> exists t, predict ten_object s c d = Ok t.
Proof.
  intros [->|(u1 & ->)] [->|(u2 & ->)]; unfold predict; rewrite ?lid_object, ?ball_object.
  - unfold predict_spheres. rewrite Z.eqb_refl. eexists. reflexivity.
  - apply wall_fine. destruct u2; cbn; lia.
  - apply wall_fine. destruct u1; cbn; lia.
  - eexists. reflexivity.
Qed.
Lemma pair_first s c d t : sph s FIRST_ID = drift FIRST_ID -> ball_or_lid c -> ball_or_lid d -> predict ten_object s c d = Ok t -> 0 <= t ->
  t = 9 /\ ((c = FIRST_ID /\ exists up, d = (- (Z.of_nat (side 2 up) + 1))%Z) \/ (d = FIRST_ID /\ exists up, c = (- (Z.of_nat (side 2 up) + 1))%Z)).
Proof.
  intros Es [->|(u1 & ->)] [->|(u2 & ->)]; unfold predict; rewrite ?lid_object, ?ball_object.
  - unfold predict_spheres. rewrite Z.eqb_refl. intros E Ht. injection E as <-. unfold EVENTNULL in Ht. lra.
  - rewrite drift_wall by exact Es. intros E Ht. injection E as <-. split; [reflexivity|left; eauto].
  - rewrite drift_wall by exact Es. intros E Ht. injection E as <-. split; [reflexivity|right; eauto].
  - intros E Ht. injection E as <-. lra.
Qed.
Lemma drift_run em te timeout late : 0 < te <= 9 -> (forall k, timeout k = false) -> (forall k, late k = false) ->
  forall b, add_spheres ten_grid (map drift (particle_ids 1)) wall_ids = Ok b ->
  exists s, simulate ten_object (num_boxes ten_grid) em te timeout late 2 10 (particle_ids 1)
      (initial_sim (num_boxes ten_grid) drift (cylinder_boxes ten_object (cylinder_ids ten_grid (vx cube10 / 2)) b)) = Ok (Stopped, s) /\
    spos (sph s FIRST_ID) = V3 (19 / 2) 5 5 /\ srad (sph s FIRST_ID) = 5.
Proof.
  intros Hte Hti Hla b AD. pose proof (open_box b AD) as MEM. cbv zeta in MEM. set (b' := cylinder_boxes _ _ b) in *.
  set (s0 := initial_sim (num_boxes ten_grid) drift b'). change (num_boxes ten_grid) with 1%Z in *.
  assert (E0 : exists l, set_barrier ten_object 1 10 s0 = Ok (mkSim drift b' (boxes_with 1 b') l 10) /\ l <> [] /\
     forall e, In e l -> etime e = 9 /\ ((esnd e = FIRST_ID /\ exists up, efst e = (- (Z.of_nat (side 2 up) + 1))%Z) \/ (efst e = FIRST_ID /\ exists up, esnd e = (- (Z.of_nat (side 2 up) + 1))%Z))).
  { unfold set_barrier. cbv zeta. set (s1 := mkSim (sph s0) (content s0) (inboxes s0) [] 10). change (zrange 0 (1 - 1)) with [0%Z].
    destruct (rebuild_ok ten_object s1 [0%Z]) with (l := @nil event) as (l & E & G).
    - intros c d (k & [<-|[]] & Hc & Hd). cbn [s1 s0 initial_sim content] in Hc, Hd. apply pair_fine; apply MEM; assumption.
    - exists l. rewrite E. split; [reflexivity|]. destruct G as (_ & G1 & _ & G2). split.
      + destruct (G2 FIRST_ID (- (Z.of_nat (side 2 true) + 1))%Z 9) as (x & X & _).
        * exists 0%Z. split; [left; reflexivity|]. cbn [s1 s0 initial_sim content]. split; apply MEM; [left; reflexivity|right; eauto].
        * unfold predict. rewrite lid_object, ball_object. apply drift_wall. reflexivity.
        * change (0 <= 9 <= 10). lra.
        * intros F. rewrite F in X. contradiction.
      + intros e He. destruct (G1 e He) as [[]|((k & [<-|[]] & Hc & Hd) & P & B)]. cbn [s1 s0 initial_sim content] in Hc, Hd.
        apply (pair_first s1 (esnd e) (efst e) (etime e)); auto; try (apply MEM; assumption). lra. }
  destruct E0 as (l & E0 & Hne & Hl). set (s1 := mkSim drift b' (boxes_with 1 b') l 10) in *.
  assert (EP : exists s2, perform_next ten_object s1 = Ok s2 /\ spos (sph s2 FIRST_ID) = V3 (19 / 2) 5 5 /\ srad (sph s2 FIRST_ID) = 5 /\ stime (sph s2 FIRST_ID) = 9 /\
     sradG (sph s2 FIRST_ID) + sgrow (sph s2 FIRST_ID) * (9 - sreset (sph s2 FIRST_ID)) = 5).
  { unfold perform_next. cbn [s1 evs]. destruct l as [|e l]; [congruence|]. destruct (Hl e (or_introl eq_refl)) as (T9 & Pe). rewrite T9.
    set (m := move ten_object (move ten_object _ (efst e) 9) (esnd e) 9).
    assert (M : sph m FIRST_ID = move_and_grow (drift FIRST_ID) 9 /\ content m = b' /\ inboxes m = boxes_with 1 b').
    { destruct Pe as [(P1 & up & P2)|(P1 & up & P2)]; unfold m; rewrite P1, P2; unfold move, is_sphere; rewrite lid_object, ball_object; cbn [sph content inboxes]; unfold set_sphere; rewrite Z.eqb_refl; auto. }
    clearbody m. destruct M as (M1 & M2 & M3).
    assert (PF : exists up, perform ten_object m (efst e) (esnd e) = perform_box_wall m (wallof ten_grid (0, 0, 0)%Z (side 2 up)) FIRST_ID).
    { destruct Pe as [(P1 & up & P2)|(P1 & up & P2)]; exists up; unfold perform; rewrite P1, P2, lid_object, ball_object; reflexivity. }
    destruct PF as (up & PF). rewrite PF. unfold perform_box_wall. destruct (ten_dir (side 2 up) ltac:(destruct up; cbn; lia)) as (_ & Kd). rewrite Kd. cbn [obind sph content inboxes evs bar].
    set (z := perform_wall _ _). set (q := with_events _ _).
    assert (Q : sph q FIRST_ID = z /\ content q = b' /\ inboxes q = boxes_with 1 b') by (unfold q, with_events; cbn [sph content inboxes]; unfold set_sphere; rewrite Z.eqb_refl; auto).
    clearbody q. destruct Q as (Q1 & Q2 & Q3).
    assert (OKB : forall c, ball_or_lid c -> forall l0, exists l', create_in_boxes ten_object q c (boxes_of ten_object q c) l0 = Ok l').
    { intros c Hc l0. destruct (create_in_boxes_ok ten_object q c (boxes_of ten_object q c)) with (l := l0) as (l' & E & _); [|eauto].
      intros c' d (-> & k & Hk & Hd). apply pair_fine; [exact Hc|]. rewrite Q2 in Hd. assert (k = 0%Z).
      { destruct Hc as [->|(u1 & ->)]; unfold boxes_of in Hk; rewrite ?lid_object, ?ball_object in Hk.
        - rewrite Q3 in Hk. unfold boxes_with in Hk. apply filter_In in Hk. destruct Hk as ([<-|[]] & _). reflexivity.
        - destruct Hk as [<-|[]]. destruct u1; reflexivity. }
      subst k. apply MEM. exact Hd. }
    assert (B12 : ball_or_lid (efst e) /\ ball_or_lid (esnd e)) by (destruct Pe as [(-> & H)|(-> & H)]; split; (left; reflexivity) || (right; exact H)). destruct B12 as (B1 & B2).
    destruct (OKB _ B1 (evs q)) as (l1 & ->). cbn [obind]. destruct (OKB _ B2 l1) as (l2 & ->). cbn [omap]. eexists. split; [reflexivity|]. cbn [with_events sph].
    rewrite Q1. unfold z, perform_wall, set_velocity. cbn [spos srad stime sradG sgrow sreset]. rewrite M1, drift_at. unfold move_and_grow, new_sphere, vadd, smul.
    cbn [spos svel srad stime sradG sgrow sreset vx vy vz]. repeat split; [f_equal; field|field|field]. }
  destruct EP as (s2 & EP & X1 & X2 & X3 & X4).
  assert (N9 : next_time s1 = 9) by (unfold next_time; cbn [s1 evs]; destruct l as [|e l']; [congruence|apply Hl; left; reflexivity]).
  assert (P1 : pass ten_object 1 em te false false (mkLoop s1 0 0 0 0 0) = Ok (Running, mkLoop s2 9 9 0 0 9)).
  { unfold pass. cbn [orb lglobal]. rewrite (rltb_t 0 te) by lra. cbn [negb]. cbv zeta.
    unfold fetch. cbn [lglobal lsim lold lreset lcount lnochange]. rewrite N9. destruct (reqb_spec 9 EVENTNULL) as [(_ & F)|(R1 & _)]; [unfold EVENTNULL in F; lra|]. rewrite R1. cbn [obind lsim lglobal lold lreset lcount lnochange].
    rewrite EP. cbn [obind]. rewrite (rltb_f (9 - 0) (tenm 6)) by (unfold tenm; assert (/ 10 ^ 6 <= / 1); [apply Rinv_le_contravar; [lra|apply pow_R1_Rle; lra]|]; rewrite Rinv_1 in *; lra).
    reflexivity. }
  unfold simulate, start. rewrite E0. cbn [omap obind]. fold s1. cbn [passes obind]. rewrite !Hti, !Hla, P1. cbn [obind]. unfold pass. cbn [orb lglobal]. rewrite rltb_f by lra. cbn [negb obind omap lglobal lsim].
  eexists. split; [reflexivity|]. unfold sync, particle_ids. cbn [seq map fold_left]. change (FIRST_ID + Z.of_nat 0)%Z with FIRST_ID. unfold move, is_sphere. rewrite ball_object. cbn [sph].
  unfold set_sphere. rewrite Z.eqb_refl. unfold move_and_grow. cbn [spos srad]. rewrite X3, X1. split; [unfold vadd, smul; cbn [vx vy vz]; f_equal; ring|exact X4].
Qed.

(** ** The call *)
(** one ball of diameter 2 in a cylinder with the diameter and the height 10: 8 of 250 pi *)
Definition round (rel ab : R) : geometry_concrete :=
  mkGC (PLive (mkSpecimen (bounds_of zero3 cube10) SCylinder (V3 (10 - 0) (10 - 0) (10 - 0)))) None demo_curve (8 / (PI / 4 * 1000)) 2000000 10 rel ab false.
Lemma round_specimen gc : set_specimen_cylinder gc zero3 cube10 = Returns (with_spec gc (PLive (mkSpecimen (bounds_of zero3 cube10) SCylinder (V3 (10 - 0) (10 - 0) (10 - 0))))).
Proof.
  unfold set_specimen_cylinder, new_specimen, calculate_length, length_of, bread.
  cbn [check_bounding_box bounds_of brows bcols Nat.eqb negb andb Nat.ltb Nat.leb obind bat vnth zero3 cube10 vx vy vz]. rewrite rleb_f by lra. reflexivity.
Qed.
Lemma round_volume : cylinder_volume zero3 cube10 = PI / 4 * 1000.
Proof. unfold cylinder_volume, zero3, cube10. cbn [vx vy vz]. ring. Qed.
Lemma round_take u s junk : take_phase 2 u junk (PI / 4 * 1000) s (8 / (PI / 4 * 1000)) demo_curve [] = Some [(junk 0%nat, 1 * (1 - s))].
Proof.
  unfold take_phase. replace (PI / 4 * 1000 * (8 / (PI / 4 * 1000))) with (1000 * (8 / 1000)) by (pose proof PI_RGT_0; field; lra).
  unfold demo_curve. rewrite take_one. reflexivity.
Qed.
Lemma tenm_small n : tenm n <= 1.
Proof. unfold tenm. rewrite <- Rinv_1. apply Rinv_le_contravar; [lra|apply pow_R1_Rle; lra]. Qed.
Lemma round_spec_volume : specimen_volume (mkSpecimen (bounds_of zero3 cube10) SCylinder (V3 (10 - 0) (10 - 0) (10 - 0))) = Ok (PI / 4 * 1000).
Proof.
  unfold specimen_volume. cbn [stype slen vx vy vz]. rewrite (Rminus_diag_eq (10 - 0)), Rabs_R0 by reflexivity.
  assert (H : forall k, rltb (tenm k) 0 = false). { intros k. apply rltb_f. unfold tenm. left. apply Rinv_0_lt_compat. apply pow_lt. lra. }
  rewrite H. rewrite rltb_f by (pose proof (tenm_small 10); lra). rewrite rltb_f; [f_equal; field|].
  pose proof (tenm_small 14). pose proof PI2_3_2 as P2. unfold PI2 in P2. lra.
Qed.
(** the ball is placed in the middle *)
Lemma create_round u junk s tries : 0 <= s < 1 ->
  create_spheres 2 u half junk SCylinder zero3 cube10 (PI / 4 * 1000) s (8 / (PI / 4 * 1000)) 0 0 tries demo_curve [] = Ok (Some [(V3 5 5 5, 1 * (1 - s))]).
Proof.
  intros Hs. set (r := 1 * (1 - s)). assert (Hr : 0 < r <= 1) by (unfold r; lra). unfold create_spheres.
  assert (CK : check_curve demo_curve = true).
  { unfold check_curve, class_ok, demo_curve. cbn [forallb cmin cmax cfrac]. rewrite (rltb_f 2 2), (rltb_f 1 0), (rltb_f 1 1) by lra. reflexivity. }
  rewrite CK, round_take. cbn [map snd fst length]. fold r.
  unfold place_phase, size_classes. cbn [rev List.app doubling]. rewrite rltb_f by lra. cbn [obind].
  unfold num_per_class. cbn [length Nat.eqb combine place_classes seq fold_left].
  assert (MB : make_boxes cube10 (2 * r) s = boxes5).
  { unfold make_boxes. replace (2 * r / (1 - s)) with 2 by (unfold r; field; lra). unfold cube10, boxes5. cbn [vx vy vz]. rewrite (floorZ_eq _ 5) by lra. reflexivity. }
  rewrite MB. cbn [place_class].
  assert (T0 : trunc ((5 - 0) / (10 / 5)) = 2%Z) by (apply trunc_is; [lia|]; lra).
  rewrite (place_one_accept SCylinder zero3 cube10 0 0 tries half (fun i => nth i [r] 0) 1 boxes5 _ (fun _ => []) 0 0 0 (V3 5 5 5) 2 2 2).
  - reflexivity.
  - unfold zero3, cube10, random_coordinate, half. cbn [nth vx vy vz]. f_equal; field.
  - unfold collides_boundary, zero3, cube10. cbn [nth vx vy vz]. rewrite (rltb_f _ 0) by lra. f_equal. apply rltb_f. nra.
  - exact T0.
  - exact T0.
  - exact T0.
  - unfold sb_index, sb_count, boxes5; cbn [sb_n]; lia.
  - intros o [].
Qed.

(** Missing: specimens with fewer particles than a sub-box holds (10 for MaximizeParticleVolumeFraction), for which the cylinder
    has no mantle (C63).  One ball of diameter 2 in the middle of a cylinder of diameter and height 10, within the
    default range of velocities, no wall clock and no exception: the call returns normally, and the ball is not in the cylinder. *)
Theorem C91_cylinder_open_refuted : exists u u' junk vel timeout late gc gc' taken p,
  set_specimen_cylinder gc zero3 cube10 = Returns gc /\ (forall k, 0 <= u k < 1) /\ (forall k, 0 <= u' k < 1) /\
  (forall k, - / 2 <= vx (vel k) <= / 2 /\ - / 2 <= vy (vel k) <= / 2 /\ - / 2 <= vz (vel k) <= / 2) /\
  good_curve cube10 (g_curve gc) /\ 0 < g_rel gc /\ g_abs gc = 0 /\ (forall k, timeout k = false) /\ g_continue gc = false /\
  take_phase 2 u junk (cylinder_volume zero3 cube10) (/ 2) (g_frac gc) (g_curve gc) [] = Some taken /\ length taken = 1%nat /\ classes_filled (map snd taken) /\
  maximize_fraction 2 u u' junk vel timeout late 2 gc (/ 2) = Ok (Some gc') /\ gc_particles gc' false = Ok [p] /\
  vx cube10 < vx (fst p) + snd p /\ ~ in_cylinder_by 0 zero3 cube10 [p].
Proof.
  destruct (packing_added _ _ _ _ _ drift_packing) as (b & AD).
  destruct (drift_run 2000000 ((1 / (1 - / 2) - 1) / 1) never never) with (b := b) as (s & ES & HX & HR); try reflexivity; [replace ((1 / (1 - / 2) - 1) / 1) with 1 by field; lra|exact AD|].
  exists zeros, half, still, sidewards, never, never, (round 1 0), (with_spheres (round 1 0) [sph s FIRST_ID]), [(still 0%nat, 1 * (1 - / 2))], (export_row false (sph s FIRST_ID)).
  split; [apply round_specimen|]. split; [intro; unfold zeros; lra|]. split; [intro; unfold half; lra|]. split; [intro; cbn [sidewards vx vy vz]; lra|].
  split; [constructor; [|constructor]; cbn [cmin cmax cfrac cube10 vx vy vz]; lra|].
  split; [cbn [round g_rel]; lra|]. split; [reflexivity|]. split; [reflexivity|]. split; [reflexivity|].
  split; [rewrite round_volume; apply round_take|]. split; [reflexivity|]. split; [apply single_filled; cbn [snd]; lra|].
  split; [|split; [reflexivity|]].
  - unfold maximize_fraction, run_both. cbn [round g_spec g_curve demo_curve length Nat.eqb g_rel g_frac]. rewrite rleb_f by lra. rewrite round_spec_volume. cbn [obind slen sbox stype]. rewrite ten_len.
    change (V3 (bat (bounds_of zero3 cube10) 0 0) (bat (bounds_of zero3 cube10) 1 0) (bat (bounds_of zero3 cube10) 2 0)) with zero3.
    change [mkClass 2 2 1] with demo_curve. rewrite create_round by lra. cbn [obind]. unfold simulate_particles. cbn [length]. unfold sub_box_divisions. change (1 / 10)%nat with 0%nat. cbv iota.
    cbn [round g_rel g_abs g_events g_barrier]. fold ten_grid. replace (1 * (1 - / 2)) with (/ 2) by field.
    change (created [(V3 5 5 5, / 2)] sidewards 1 0) with drift. change (map drift (particle_ids 1)) with (map drift (particle_ids 1)). rewrite AD. cbn [obind]. fold ten_object. rewrite ES. reflexivity.
  - cbn [export_row fst snd]. rewrite HX, HR. cbn [cube10 vx]. split; [lra|]. intros I. destruct (I _ (or_introl eq_refl)) as (I1 & _). cbn [export_row fst snd] in I1. rewrite HX, HR in I1.
    cbn [cube10 zero3 vx vy vz] in I1. assert (0 < sqrt ((19 / 2 - (0 + 10) / 2)² + (5 - (0 + 10) / 2)²)); [|lra].
    apply sqrt_lt_R0. unfold Rsqr. lra.
Qed.

Lemma PI_below : PI < 4.
Proof. destruct (PI_ineq 1) as (_ & H). unfold tg_alt, PI_tg in H. cbn [sum_f_R0 Nat.mul Nat.add pow INR] in H. lra. Qed.
(** ** A cylinder that meets the hypotheses of C91_cylinder_distance_partial *)
Example C91_cylinder_setup : setup_cylinder 2 zeros half still (round 0 1) zero3 cube10 0 1 [(still 0%nat, 1 * (1 - 0))] /\
  narrow_at (round 0 1) zero3 cube10 [(still 0%nat, 1 * (1 - 0))] (Rmax 0 (/ 2 * 2 / 1)).
Proof.
  split.
  - constructor; try (intro; unfold zeros, half; lra).
    + exists gc_new. eexists. split; [apply round_specimen|reflexivity].
    + cbn [zero3 cube10 vx vy]. lra.
    + constructor; [|constructor]. cbn [cmin cmax cfrac vsub cube10 zero3 vx vy vz]. lra.
    + cbn [round g_frac]. pose proof PI_RGT_0. apply Rmult_le_pos; [lra|]. left. apply Rinv_0_lt_compat. lra.
    + cbn [round g_rel]. lra.
    + cbn [round g_abs]. lra.
    + lra.
    + rewrite round_volume. apply round_take.
    + discriminate.
    + apply single_filled. cbn [snd]. lra.
    + cbn [length Nat.div Nat.divmod fst Nat.sub INR zero3 cube10 vx vz]. pose proof PI_below. lra.
  - intros p [<-|[]]. cbn [snd round g_rel g_abs zero3 cube10 vx]. rewrite Rmax_right by lra. lra.
Qed.
Print Assumptions C91_cylinder_open_refuted.

(** ** Ten balls: the hypotheses of C91_cylinder_fraction_partial *)
Lemma take_ones w u : forall m k v fuel, v + INR m * ball_volume 1 < w <= v + (INR m + 1) * ball_volume 1 ->
  exists v', take_class (S m + fuel) u (mkClass 2 2 1) w k v = Some (repeat 1 m, v', (k + S m)%nat).
Proof.
  assert (B : 0 < ball_volume 1) by (unfold ball_volume; pose proof PI_RGT_0; lra).
  induction m as [|m IH]; intros k v fuel H; cbn [Nat.add take_class]; rewrite radius_one.
  - cbn [INR] in H. rewrite rltb_f by lra. eexists. cbn [repeat]. repeat f_equal; lia.
  - rewrite S_INR in H. pose proof (pos_INR m) as P. rewrite rltb_t by nra. destruct (IH (S k) (v + ball_volume 1) fuel) as (v' & E); [nra|].
    cbn [Nat.add take_class] in E. rewrite E. exists v'. cbn [repeat]. repeat f_equal; lia.
Qed.
Lemma sort_ones m : sort_desc (repeat 1 m) = repeat 1 m.
Proof.
  unfold sort_desc. induction m as [|m IH]; [reflexivity|]. cbn [repeat fold_right]. rewrite IH. destruct m; [reflexivity|]. cbn [repeat insert_desc]. rewrite rltb_f by lra.
  clear IH. f_equal. induction m as [|m IH]; [reflexivity|]. cbn [repeat insert_desc]. rewrite rltb_f by lra. f_equal. exact IH.
Qed.
Lemma equal_filled r m : 0 < r -> classes_filled (repeat r (S m)).
Proof.
  intros Hr fuel sizes E c Hc H. assert (S1 : sizes = [2 * r]).
  { unfold size_classes in E. cbn [repeat] in E. assert (R1 : rev (r :: repeat r m) = r :: repeat r m).
    { change (r :: repeat r m) with (repeat r (S m)). clear. induction m as [|m IH]; [reflexivity|]. change (repeat r (S (S m))) with (r :: repeat r (S m)). cbn [rev]. rewrite IH.
      clear. induction m as [|m IH]; [reflexivity|]. cbn [repeat List.app] in *. f_equal. exact IH. }
    rewrite R1 in E. destruct fuel as [|f]; cbn [doubling] in E; [discriminate|]. rewrite rltb_f in E by lra. injection E as <-. reflexivity. }
  subst sizes. cbn [length] in Hc. apply (H r); [left; reflexivity|]. split; left; [lia|cbn; lia].
Qed.
Definition crowd : geometry_concrete :=
  mkGC (PLive (mkSpecimen (bounds_of zero3 cube10) SCylinder (V3 (10 - 0) (10 - 0) (10 - 0)))) None demo_curve ((10 * ball_volume 1 + 1) / (PI / 4 * 1000)) 2000000 10 1 0 false.
Example C91_cylinder_crowd : exists taken, setup_cylinder 12 zeros half still crowd zero3 cube10 (/ 2) 10 taken /\ length taken = 10%nat /\
  narrow_at crowd zero3 cube10 taken ((1 / (1 - / 2) - 1) / 1).
Proof.
  assert (B : 1 < ball_volume 1) by (unfold ball_volume; pose proof PI2_3_2 as P2; unfold PI2 in P2; lra).
  assert (ET : take_phase 12 zeros still (PI / 4 * 1000) (/ 2) (g_frac crowd) demo_curve [] = Some (combine (map still (seq 0 10)) (repeat (1 * (1 - / 2)) 10))).
  { unfold take_phase. cbn [crowd g_frac]. replace (PI / 4 * 1000 * ((10 * ball_volume 1 + 1) / (PI / 4 * 1000))) with (10 * ball_volume 1 + 1) by (pose proof PI_RGT_0; field; lra).
    set (w := 10 * ball_volume 1 + 1) in *. unfold demo_curve. cbn [take_classes cfrac]. destruct (take_ones (w * 1) zeros 10 0 0 1) as (v' & E); [unfold w; cbn [INR]; lra|].
    change (S 10 + 1)%nat with 12%nat in E. rewrite E. rewrite app_nil_r. cbn [map List.app]. rewrite repeat_length. rewrite sort_ones. reflexivity. }
  eexists. split; [constructor|]; try (intro; unfold zeros, half; lra).
  + exists gc_new. eexists. split; [apply round_specimen|reflexivity].
  + cbn [zero3 cube10 vx vy]. lra.
  + constructor; [|constructor]. cbn [cmin cmax cfrac vsub cube10 zero3 vx vy vz]. lra.
  + cbn [crowd g_frac]. pose proof PI_RGT_0. apply Rmult_le_pos; [lra|]. left. apply Rinv_0_lt_compat. lra.
  + cbn [crowd g_rel]. lra.
  + cbn [crowd g_abs]. lra.
  + lra.
  + rewrite round_volume. exact ET.
  + discriminate.
  + change (map snd (combine (map still (seq 0 10)) (repeat (1 * (1 - / 2)) 10))) with (repeat (1 * (1 - / 2)) 10). apply equal_filled. lra.
  + change (length (combine (map still (seq 0 10)) (repeat (1 * (1 - / 2))%R 10)) / 10)%nat with 1%nat. cbn [INR zero3 cube10 vx vz]. pose proof PI_below. lra.
  + split; [reflexivity|]. intros p Hp. assert (E : snd p = 1 * (1 - / 2)).
    { destruct p as (x, y). apply in_combine_r in Hp. apply repeat_spec in Hp. exact Hp. }
    rewrite E. cbn [crowd g_rel g_abs zero3 cube10 vx]. lra.
Qed.
