(** C91 for cylinder specimens: GeometryConcrete from the parameters to the particles *)
From Coq Require Import Reals ZArith List Bool Lia Lra Psatz Permutation.
From Verif Require Import Outcome AdaptiveModel AdaptiveProofs Vec3 CollisionModel CollisionSpec CollisionProofs CollisionProofs2 SubBoxModel SubBoxProofs EventModel SimModel SimSpec SimProofs SimProofs2 SimProofs3 SimProofs6
  TakeModel TakeSpec TakeProofs TakeProofs2 TakeProofs3 PropTake PropSim GeometryModel GeometryProofs PropGeometry GeometryCyl.
Import ListNotations.
Local Open Scope R_scope.

(** ** Specification *)
(** the surface of every ball is at least [m] away from the mantle, the top and the bottom of the upright cylinder that fills the
    box from [a] to [b] *)
Definition in_cylinder_by (m : R) (a b : v3) (ps : list particle) : Prop :=
  forall p, In p ps ->
    sqrt ((vx (fst p) - (vx a + vx b) / 2)² + (vy (fst p) - (vy a + vy b) / 2)²) + snd p + m <= (vx b - vx a) / 2 /\
    vz a + snd p + m <= vz (fst p) <= vz b - snd p - m.
Definition cylinder_volume (a b : v3) : R := PI / 4 * (vx b - vx a) * (vx b - vx a) * (vz b - vz a).

(** What the user sets up: SetSpecimenCylinder succeeded with the corners [a] and [b] of a box with a square base; curve and take phase
    as for boxes.  The specimen is cut into sub-boxes that hold [per] particles each; the last condition says that there are at least
    two of them in each horizontal direction (without it no sub-box gets the mantle, C63). *)
Record setup_cylinder (fuel : nat) (u u' : nat -> R) (junk : nat -> v3) (gc : geometry_concrete) (a b : v3) (shrinkage : R) (per : nat)
  (taken : list particle) : Prop := {
  sc_spec : exists gc0 gc1, set_specimen_cylinder gc0 a b = Returns gc1 /\ g_spec gc = g_spec gc1;
  sc_square : vx b - vx a = vy b - vy a;
  sc_u : unit_stream u;
  sc_u' : strict_stream u';
  sc_curve : good_curve (vsub b a) (g_curve gc);
  sc_frac : 0 <= g_frac gc;
  sc_rel : 0 <= g_rel gc;
  sc_abs : 0 <= g_abs gc;
  sc_shr : 0 <= shrinkage < 1;
  sc_take : take_phase fuel u junk (cylinder_volume a b) shrinkage (g_frac gc) (g_curve gc) [] = Some taken;
  sc_some : taken <> [];
  sc_fill : classes_filled (map snd taken);
  sc_boxes : PI * (vz b - vz a) < 4 * INR (length taken / per) * (vx b - vx a) }.
(** the taken balls, grown for the time [t], are narrower than the cylinder *)
Definition narrow_at (gc : geometry_concrete) (a b : v3) (taken : list particle) (t : R) : Prop :=
  forall p, In p taken -> snd p + (snd p * g_rel gc + g_abs gc) * t < (vx b - vx a) / 2.

Lemma cyl_specimen a b sp : new_specimen (bounds_of a b) SCylinder = Ok sp ->
  0 < vx b - vx a /\ 0 < vy b - vy a /\ 0 < vz b - vz a /\ stype sp = SCylinder /\ slen sp = vsub b a /\ sbox sp = bounds_of a b.
Proof.
  unfold new_specimen, calculate_length, length_of, bread. cbn [check_bounding_box bounds_of brows bcols Nat.eqb negb andb Nat.ltb Nat.leb obind bat vnth].
  destruct (rleb_spec (vx b - vx a) 0) as [(-> & Hx)|(-> & Hx)]; cbn [obind omap]; [discriminate|].
  destruct (rleb_spec (vy b - vy a) 0) as [(-> & Hy)|(-> & Hy)]; cbn [obind omap]; [discriminate|].
  destruct (rleb_spec (vz b - vz a) 0) as [(-> & Hz)|(-> & Hz)]; cbn [obind omap]; [discriminate|].
  intros E. injection E as <-. repeat split; try lra; reflexivity.
Qed.
Lemma cyl_returns gc a b gc' : set_specimen_cylinder gc a b = Returns gc' -> exists sp, g_spec gc' = PLive sp /\ new_specimen (bounds_of a b) SCylinder = Ok sp.
Proof. unfold set_specimen_cylinder. destruct (new_specimen _ _) as [sp| |] eqn:E; try discriminate. intros H; injection H as <-; exists sp; split; reflexivity. Qed.
Lemma two_divisions D H n per : 0 < D -> 0 < H -> PI * H < 4 * INR (n / per) * D ->
  (2 <= fst (fst (sub_box_divisions (PI * / 4 * D * D * H) (V3 D D H) n per)))%Z.
Proof.
  intros HD HH HB. unfold sub_box_divisions. pose proof PI_RGT_0 as HP. destruct (Nat.div n per) as [|q].
  - cbn [INR] in HB. assert (0 < PI * H) by (apply Rmult_lt_0_compat; lra). lra.
  - cbn [fst vx]. set (q' := INR (S q)) in *. assert (Hq : 0 < q') by (apply lt_0_INR; lia). clearbody q'.
    set (l := Rpower _ _). assert (L : 0 < l < D).
    { unfold l. split; [apply exp_pos|]. apply Rlt_le_trans with (Rpower (D * D * D) (1 / 3)); [|rewrite cube_root by exact HD; lra]. apply Rlt_Rpower_l; [lra|]. split.
      - apply Rdiv_lt_0_compat; [|exact Hq]. repeat (apply Rmult_lt_0_compat; try lra).
      - apply Rmult_lt_reg_r with q'; [exact Hq|]. unfold Rdiv. rewrite Rmult_assoc, Rinv_l, Rmult_1_r by lra.
        assert (0 < D * D) by (apply Rmult_lt_0_compat; lra). nra. }
    clearbody l. assert (X : 1 < D / l) by (apply Rmult_lt_reg_r with l; [lra|]; unfold Rdiv; rewrite Rmult_assoc, Rinv_l by lra; lra).
    unfold ceilZ. assert (floorZ (- (D / l)) < -1)%Z by (apply floorZ_lt; lra). lia.
Qed.

Lemma vadd_vsub a b : vadd a (vsub b a) = b.
Proof. destruct a as [x y z], b as [x' y' z']. unfold vadd, vsub. cbn [vx vy vz]. f_equal; ring. Qed.
(** what is left of a call that ended *)
Lemma run_result_cyl fuel u u' junk vel timeout late n gc a b shr per taken rate tend st l : setup_cylinder fuel u u' junk gc a b shr per taken ->
  narrow_at gc a b taken (Rmax 0 tend) -> (forall s, In s l -> srad s < (vx b - vx a) / 2) ->
  run_both fuel u u' junk vel timeout late n gc rate shr per tend = Ok (Some (st, l)) ->
  0 < rate /\ exists ps T, map snd ps = map snd taken /\ length l = length ps /\ 0 <= T /\
    (st = Stopped -> (forall k, timeout k = false) -> tend <= T) /\
    (forall k, (k < length ps)%nat -> exists s, nth_error l k = Some s /\ srad0 s = snd (pget ps k) /\
       srad s = snd (pget ps k) + (snd (pget ps k) * g_rel gc + g_abs gc) * T /\ ball_in_cylinder a b (spos s) (srad s)) /\
    (forall i j x y, (i < j)%nat -> nth_error l i = Some x -> nth_error l j = Some y -> srad x + srad y <= TakeSpec.distance (spos x) (spos y)) /\
    (forall k, (k < length ps)%nat -> 0 < snd (pget ps k)).
Proof.
  intros [SP SQ Hu Hu' HC HF Hrel Hab Hs HT Hne Hfill HB] HN Hl E. destruct SP as (gc0 & gc1 & SB & SE). destruct (cyl_returns _ _ _ _ SB) as (sp & SL & SN).
  destruct (cyl_specimen _ _ _ SN) as (Lx & Ly & Lz & Ty & Ln & Bx). unfold run_both in E. rewrite SE, SL in E.
  destruct (Nat.eqb _ 0); [discriminate|]. destruct (rleb_spec rate 0) as [(R0 & _)|(R0 & Hrate)]; rewrite R0 in E; [discriminate|]. split; [lra|].
  rewrite Ty, Ln, Bx in E. change (V3 (bat (bounds_of a b) 0 0) (bat (bounds_of a b) 1 0) (bat (bounds_of a b) 2 0)) with (V3 (vx a) (vy a) (vz a)) in E.
  assert (Ea : V3 (vx a) (vy a) (vz a) = a) by (destruct a; reflexivity). rewrite Ea in E.
  set (D := vx b - vx a) in *. set (H := vz b - vz a) in *.
  assert (EL : vsub b a = V3 D D H) by (unfold vsub, D, H; f_equal; symmetry; exact SQ). rewrite EL in *.
  assert (EV : PI * / 4 * D * D * H = cylinder_volume a b) by (unfold cylinder_volume; fold D H; field).
  unfold specimen_volume in E. rewrite Ty, Ln in E. cbn [vx vy vz] in E. rewrite EV in E.
  destruct (rltb _ _); cbn [obind] in E; [discriminate|]. destruct (rltb _ _); cbn [obind] in E; [discriminate|].
  destruct (rltb _ _); cbn [obind] in E; [discriminate|].
  destruct (create_spheres _ _ _ _ _ _ _ _ _ _ _ _ _ _ _) as [[ps|]| |] eqn:EC; cbn [obind] in E; try discriminate.
  destruct (simulate_particles _ _ _ _ _ _ _ _ _ _ _ _) as [[st' l']| |] eqn:ES; cbn [omap] in E; try discriminate. injection E as <- <-.
  assert (Vp : 0 <= cylinder_volume a b * g_frac gc).
  { apply Rmult_le_pos; [|exact HF]. rewrite <- EV. pose proof PI_RGT_0. repeat (apply Rmult_le_pos; try lra). }
  destruct (created_good _ _ _ _ _ _ _ _ _ _ _ _ _ _ Hu Hu' HC Vp Hs HT Hne Hfill EC) as (EM & G & G').
  assert (LL : length ps = length taken) by (transitivity (length (map snd ps)); [symmetry; apply map_length|rewrite EM; apply map_length]).
  destruct (simulated_cyl vel timeout late n gc a D H ps Lx Lz Hrel Hab G (G' eq_refl) (cylinder_volume a b) per tend st' l') as (LN & T & HT0 & HTe & HK & HA).
  - rewrite LL, <- EV. apply two_divisions; assumption.
  - intros k Hk. assert (Ik : In (snd (pget ps k)) (map snd taken)) by (rewrite <- EM; apply in_map; apply nth_In; exact Hk).
    apply in_map_iff in Ik. destruct Ik as (p & <- & Hp). apply HN. exact Hp.
  - exact Hl.
  - exact ES.
  - exists ps, T. split; [exact EM|]. split; [exact LN|]. split; [exact HT0|]. split; [exact HTe|]. split; [|split; [exact HA|intros k Hk; apply G; exact Hk]].
    intros k Hk. destruct (HK k Hk) as (s & K1 & K2 & K3 & K4). exists s. rewrite <- EL, vadd_vsub in K4. auto.
Qed.

(** ** C91 *)
(** MaximizeParticleDistance in a cylinder: the particles have the radii of the take phase, do not overlap and are inside; unless the
    wall clock or an exception ended the simulation, they have the asked distance.  The balls have to stay narrower than the cylinder
    until the simulation ends, which is the time of the first event after the one asked for (C91_overshoot_refuted). *)
Theorem C91_cylinder_distance_partial : forall fuel u u' junk vel timeout late n vel2 gc a b d taken gc' before ps,
  setup_cylinder fuel u u' junk gc a b 0 1 taken -> narrow_at gc a b taken (Rmax 0 (/ 2 * d / g_abs gc)) ->
  (forall st l, run_both fuel u u' junk vel timeout late n gc (g_abs gc) 0 1 (/ 2 * d / g_abs gc) = Ok (Some (st, l)) -> forall s, In s l -> srad s < (vx b - vx a) / 2) ->
  maximize_distance fuel u u' junk vel timeout late n vel2 gc d = Ok (Some gc') -> gc_particles gc' before = Ok ps ->
  map snd ps = map snd taken /\ apart_by 0 ps /\ in_cylinder_by 0 a b ps /\ g_spec gc' = g_spec gc /\
  (** and, unless the wall clock or an exception ended the simulation, they have the asked distance *)
  (g_continue gc = false -> (forall k, timeout k = false) -> apart_by d ps /\ in_cylinder_by (d / 2) a b ps).
Proof.
  intros fuel u u' junk vel timeout late n vel2 gc a b d taken gc' before ps SU HN HG0 EM EP.
  unfold maximize_distance, after in EM. destruct (run_both _ _ _ _ _ _ _ _ _ _ _ _ _) as [[[st l]|]| |] eqn:ER; cbn [obind] in EM; try discriminate.
  destruct (run_result_cyl _ _ _ _ _ _ _ _ _ _ _ _ _ _ _ _ _ _ SU HN (HG0 _ _ eq_refl) ER) as (Habs & ps0 & T & E1 & LN & HT0 & HTe & HK & HA & HP).
  set (rows := map (export_row true) l) in *.
  assert (Eg : st <> Running /\ (g_continue gc = false -> st = Stopped) /\ gc' = with_spheres gc (map (created rows vel2 (g_rel gc) (g_abs gc)) (particle_ids (length rows)))).
  { destruct st; [discriminate| |].
    - injection EM as <-. repeat split; auto; discriminate.
    - destruct (g_continue gc); [|discriminate]. injection EM as <-. repeat split; auto; discriminate. }
  destruct Eg as (_ & Hst & ->). unfold gc_particles in EP. cbn [with_spheres g_spheres] in EP. rewrite recreated in EP. injection EP as <-.
  assert (ND : forall k p, nth_error rows k = Some p -> exists s, nth_error l k = Some s /\ p = (spos s, snd (pget ps0 k)) /\
     srad s = snd (pget ps0 k) + (snd (pget ps0 k) * g_rel gc + g_abs gc) * T /\ ball_in_cylinder a b (spos s) (srad s) /\ 0 < snd (pget ps0 k)).
  { intros k p Hp. unfold rows in Hp. rewrite nth_error_map in Hp. destruct (nth_error l k) as [s|] eqn:Es; [|discriminate]. cbn [option_map] in Hp. injection Hp as <-.
    assert (Hk : (k < length ps0)%nat) by (rewrite <- LN; apply nth_error_Some; congruence).
    destruct (HK k Hk) as (s' & Es' & S0 & SR & SB). rewrite Es in Es'. injection Es' as <-. exists s. split; [reflexivity|]. unfold export_row. rewrite S0. auto. }
  destruct SU as [_ _ _ _ _ _ Hrel Hab _ _ _ _ _].
  assert (GR : forall k, (0 < snd (pget ps0 k)) -> 0 <= (snd (pget ps0 k) * g_rel gc + g_abs gc) * T) by (intros k Hk; apply Rmult_le_pos; [nra|exact HT0]).
  assert (MAIN : forall m, m <= 2 * (g_abs gc * T) -> apart_by m rows /\ in_cylinder_by (m / 2) a b rows).
  { intros m Hm. split.
    - intros i j p q Hij Hp Hq. destruct (ND _ _ Hp) as (s1 & N1 & -> & R1 & _ & P1). destruct (ND _ _ Hq) as (s2 & N2 & -> & R2 & _ & P2). cbn [fst snd].
      specialize (HA i j s1 s2 Hij N1 N2). rewrite R1, R2 in HA.
      assert (0 <= snd (pget ps0 i) * g_rel gc * T) by (apply Rmult_le_pos; [nra|exact HT0]). assert (0 <= snd (pget ps0 j) * g_rel gc * T) by (apply Rmult_le_pos; [nra|exact HT0]). nra.
    - intros p Hp. destruct (In_nth_error _ _ Hp) as (k & Hk). destruct (ND _ _ Hk) as (s1 & N1 & -> & R1 & B1 & P1). cbn [fst snd].
      assert (0 <= snd (pget ps0 k) * g_rel gc * T) by (apply Rmult_le_pos; [nra|exact HT0]).
      assert (snd (pget ps0 k) + m / 2 <= srad s1) by (rewrite R1; nra). unfold ball_in_cylinder in B1. lra. }
  assert (0 <= g_abs gc * T) by (apply Rmult_le_pos; lra).
  split.
  { rewrite <- E1. apply nth_ext with (d := 0) (d' := 0); [unfold rows; rewrite !map_length; exact LN|].
    intros k Hk. unfold rows in *. rewrite !map_length in Hk. destruct (nth_error (map (export_row true) l) k) as [p|] eqn:Ep.
    - destruct (ND _ _ Ep) as (s & _ & -> & _). rewrite (nth_error_nth _ _ 0 (map_nth_error snd _ _ Ep)). cbn [snd]. unfold pget.
      symmetry. exact (map_nth snd ps0 (V3 0 0 0, 0) k).
    - apply nth_error_None in Ep. rewrite map_length in Ep. lia. }
  destruct (MAIN 0) as (M1 & M2); [lra|]. split; [exact M1|]. split; [replace 0 with (0 / 2) by lra; exact M2|]. split; [reflexivity|].
  intros HG HTi. specialize (HTe (Hst HG) HTi). apply MAIN.
  assert (g_abs gc * (/ 2 * d / g_abs gc) <= g_abs gc * T) by (apply Rmult_le_compat_l; lra). replace (g_abs gc * (/ 2 * d / g_abs gc)) with (d / 2) in H0 by (field; lra). lra.
Qed.
(** MaximizeParticleVolumeFraction in a cylinder: the same, and each particle has at least its size before the shrinkage, when the
    returned particles are narrower than the cylinder. *)
Theorem C91_cylinder_fraction_partial : forall fuel u u' junk vel timeout late n gc a b s taken gc' ps ps0,
  setup_cylinder fuel u u' junk gc a b s 10 taken -> narrow_at gc a b taken ((1 / (1 - s) - 1) / g_rel gc) ->
  maximize_fraction fuel u u' junk vel timeout late n gc s = Ok (Some gc') ->
  gc_particles gc' false = Ok ps -> gc_particles gc' true = Ok ps0 ->
  (forall p, In p ps -> snd p < (vx b - vx a) / 2) ->
  map snd ps0 = map snd taken /\ map fst ps = map fst ps0 /\ apart_by 0 ps /\ in_cylinder_by 0 a b ps /\ g_spec gc' = g_spec gc /\
  (g_continue gc = false -> (forall k, timeout k = false) ->
    (forall k r, nth_error (map snd taken) k = Some r -> exists r', nth_error (map snd ps) k = Some r' /\ r / (1 - s) <= r') /\
    forall c, nth_error (g_curve gc) (length (g_curve gc) - 1) = Some c ->
      cylinder_volume a b * g_frac gc * sumR (map cfrac (g_curve gc)) - volume_of_ball (cmax c / 2) <= total_volume (map snd ps)).
Proof.
  intros fuel u u' junk vel timeout late n gc a b shr taken gc' ps ps0 SU HN EM EP EP0 HG1.
  unfold maximize_fraction, after in EM. destruct (run_both _ _ _ _ _ _ _ _ _ _ _ _ _) as [[[st l]|]| |] eqn:ER; cbn [obind] in EM; try discriminate.
  assert (Eg : (g_continue gc = false -> st = Stopped) /\ gc' = with_spheres gc l).
  { destruct st; [discriminate| |].
    - injection EM as <-. split; auto.
    - destruct (g_continue gc); [|discriminate]. injection EM as <-. split; auto; discriminate. }
  destruct Eg as (Hst & ->). unfold gc_particles in EP, EP0. cbn [with_spheres g_spheres] in EP, EP0. injection EP as <-. injection EP0 as <-.
  assert (HG0 : forall s, In s l -> srad s < (vx b - vx a) / 2) by (intros x Hx; exact (HG1 _ (in_map (export_row false) _ _ Hx))).
  assert (Hrate : 0 < g_rel gc). { unfold run_both in ER. destruct (g_spec gc); try discriminate. destruct (Nat.eqb _ 0); [discriminate|]. destruct (rleb_spec (g_rel gc) 0) as [(R0 & _)|(_ & R0)]; [rewrite R0 in ER; discriminate|lra]. }
  assert (HN' : narrow_at gc a b taken (Rmax 0 ((1 / (1 - shr) - 1) / g_rel gc))).
  { rewrite Rmax_right; [exact HN|]. destruct SU as [_ _ _ _ _ _ _ _ Hs _ _ _ _]. apply Rmult_le_pos; [|left; apply Rinv_0_lt_compat; exact Hrate].
    assert (1 <= 1 / (1 - shr)); [|lra]. apply Rmult_le_reg_r with (1 - shr); [lra|]. unfold Rdiv. rewrite Rmult_assoc, Rinv_l by lra. lra. }
  destruct (run_result_cyl _ _ _ _ _ _ _ _ _ _ _ _ _ _ _ _ _ _ SU HN' HG0 ER) as (Hrel & pz & T & E1 & LN & HT0 & HTe & HK & HA & HP).
  assert (LT : length l = length taken) by (rewrite LN; transitivity (length (map snd pz)); [symmetry; apply map_length|rewrite E1; apply map_length]).
  assert (NT : forall k, snd (pget pz k) = nth k (map snd taken) 0) by (intros k; rewrite <- E1; symmetry; exact (map_nth snd pz (V3 0 0 0, 0) k)).
  assert (HK' : forall k s, nth_error l k = Some s -> srad0 s = nth k (map snd taken) 0 /\
     srad s = nth k (map snd taken) 0 + (nth k (map snd taken) 0 * g_rel gc + g_abs gc) * T /\ ball_in_cylinder a b (spos s) (srad s) /\ 0 < nth k (map snd taken) 0).
  { intros k s Es. assert (Hk : (k < length pz)%nat) by (rewrite <- LN; apply nth_error_Some; congruence).
    destruct (HK k Hk) as (s' & Es' & S0 & SR & SB). rewrite Es in Es'. injection Es' as <-. rewrite <- NT. auto. }
  destruct SU as [SPec _ Hu _ HC Hfr _ Hab Hs HTk _ _ _].
  split.
  { apply nth_ext with (d := 0) (d' := 0); [rewrite !map_length; exact LT|]. intros k Hk. rewrite !map_length in Hk.
    destruct (nth_error l k) as [s|] eqn:Es; [|apply nth_error_None in Es; lia]. destruct (HK' _ _ Es) as (S0 & _).
    rewrite map_map. rewrite (nth_error_nth _ _ 0 (map_nth_error (fun x => snd (export_row true x)) _ _ Es)). exact S0. }
  split; [rewrite !map_map; reflexivity|]. split.
  { intros i j p q Hij Hp Hq. rewrite nth_error_map in Hp, Hq. destruct (nth_error l i) as [s1|] eqn:E2; [|discriminate]. destruct (nth_error l j) as [s2|] eqn:E3; [|discriminate].
    injection Hp as <-. injection Hq as <-. cbn [export_row fst snd]. specialize (HA i j s1 s2 Hij E2 E3). lra. }
  split.
  { intros p Hp. apply in_map_iff in Hp. destruct Hp as (s & <- & Hs'). destruct (In_nth_error _ _ Hs') as (k & Hk). destruct (HK' _ _ Hk) as (_ & _ & B & _).
    unfold ball_in_cylinder in B. cbn [export_row fst snd]. lra. }
  split; [reflexivity|]. intros HG HTi. specialize (HTe (Hst HG) HTi).
  assert (GE : forall k s, nth_error l k = Some s -> 0 < nth k (map snd taken) 0 / (1 - shr) <= srad s).
  { intros k s Es. destruct (HK' _ _ Es) as (_ & SR & _ & P0). set (r := nth k (map snd taken) 0) in *. split; [apply Rdiv_lt_0_compat; lra|].
    assert (1 / (1 - shr) - 1 <= g_rel gc * T).
    { replace (1 / (1 - shr) - 1) with (g_rel gc * ((1 / (1 - shr) - 1) / g_rel gc)) by (field; lra). apply Rmult_le_compat_l; lra. }
    assert (0 <= g_abs gc * T) by (apply Rmult_le_pos; lra). replace (r / (1 - shr)) with (r + r * (1 / (1 - shr) - 1)) by (field; lra). rewrite SR. nra. }
  split.
  - intros k r Hr. destruct (nth_error l k) as [s|] eqn:Es.
    + exists (srad s). rewrite !nth_error_map, Es. split; [reflexivity|]. pose proof (GE _ _ Es) as G. rewrite (nth_error_nth _ _ 0 Hr) in G. lra.
    + apply nth_error_None in Es. assert (k < length (map snd taken))%nat by (apply nth_error_Some; congruence). assert (LM : length (map snd taken) = length taken) by apply map_length. rewrite LM in H. lia.
  - intros c Hc. destruct SPec as (gc0 & gc1 & SB & _). destruct (cyl_returns _ _ _ _ SB) as (sp & _ & SN). destruct (cyl_specimen _ _ _ SN) as (Lx & Ly & Lz & _).
    assert (Vp : 0 <= cylinder_volume a b * g_frac gc) by (apply Rmult_le_pos; [unfold cylinder_volume; pose proof PI_RGT_0; repeat (apply Rmult_le_pos; try lra)|exact Hfr]).
    destruct (C64_take_phase_partial fuel u junk (cylinder_volume a b) shr (g_frac gc) (g_curve gc) taken Hu) as (groups & HG' & HV & _ & HPm); auto.
    { eapply Forall_impl; [|exact HC]. cbv beta. intros x Hx. lra. } { lra. }
    assert (LG : length groups = length (g_curve gc)) by (clear - HG'; induction HG'; cbn; congruence).
    destruct (HV (length (g_curve gc)) (Nat.le_refl _)) as (_ & HV2).
    assert (NZ : length (g_curve gc) <> 0%nat) by (intros Z0; rewrite Z0 in Hc; destruct (g_curve gc); discriminate).
    specialize (HV2 c NZ Hc). rewrite firstn_all in HV2. rewrite <- LG, firstn_all in HV2.
    assert (TM : total_volume (concat groups) <= total_volume (map snd (map (export_row false) l))).
    { rewrite (total_perm (concat groups) (map (fun r => r / (1 - shr)) (map snd taken))).
      - apply total_mono; [rewrite !map_length; symmetry; exact LT|]. intros k Hk. assert (LM : length (map (fun r => r / (1 - shr)) (map snd taken)) = length taken) by (rewrite map_length; apply map_length). rewrite LM in Hk.
        destruct (nth_error l k) as [s|] eqn:Es; [|apply nth_error_None in Es; lia]. pose proof (GE _ _ Es) as G.
        rewrite (nth_error_nth _ _ 0 (map_nth_error snd _ _ (map_nth_error (export_row false) _ _ Es))). cbn [export_row snd].
        assert (EQ : nth k (map (fun r => r / (1 - shr)) (map snd taken)) 0 = nth k (map snd taken) 0 / (1 - shr)) by (rewrite <- (map_nth (fun r => r / (1 - shr))); f_equal; unfold Rdiv; ring). rewrite EQ. lra.
      - symmetry. apply Permutation_map with (f := fun r => r / (1 - shr)) in HPm. eapply perm_trans; [exact HPm|].
        rewrite map_map. rewrite (map_ext _ (fun x => x)) by (intros x; field; lra). rewrite map_id. apply Permutation_refl. }
    lra.
Qed.

Print Assumptions C91_cylinder_distance_partial.
Print Assumptions C91_cylinder_fraction_partial.
