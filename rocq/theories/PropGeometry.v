(** C91: GeometryConcrete from the parameters to the particles; C92: two-dimensional slices *)
From Coq Require Import Reals ZArith List Bool Lia Lra Psatz Permutation.
From Verif Require Import Outcome AdaptiveModel AdaptiveProofs Vec3 CollisionModel CollisionSpec CollisionProofs CollisionProofs2 SubBoxModel SubBoxProofs EventModel SimModel SimSpec SimProofs SimProofs2 SimProofs3 SimProofs6
  TakeModel TakeSpec TakeProofs TakeProofs2 TakeProofs3 PropTake PropSim GeometryModel GeometryProofs.
Import ListNotations.
Local Open Scope R_scope.

(** ** Specification *)
(** the surfaces of two different balls are at least [d] apart *)
Definition apart_by (d : R) (ps : list particle) : Prop :=
  forall i j p q, (i < j)%nat -> nth_error ps i = Some p -> nth_error ps j = Some q -> snd p + snd q + d <= TakeSpec.distance (fst p) (fst q).
(** the surface of every ball is inside the box from [a] to [b] and at least [m] away from its faces *)
Definition inside_by (m : R) (a b : v3) (ps : list particle) : Prop :=
  forall p, In p ps -> vx a + snd p + m <= vx (fst p) <= vx b - snd p - m /\ vy a + snd p + m <= vy (fst p) <= vy b - snd p - m /\
                       vz a + snd p + m <= vz (fst p) <= vz b - snd p - m.
(** the corners of a specimen: the columns of its bounding box *)
Definition lower_corner (s : specimen) : v3 := V3 (bat (sbox s) 0 0) (bat (sbox s) 1 0) (bat (sbox s) 2 0).
Definition upper_corner (s : specimen) : v3 := V3 (bat (sbox s) 0 1) (bat (sbox s) 1 1) (bat (sbox s) 2 1).
(** the volume of the box from [a] to [b] *)
Definition box_volume (a b : v3) : R := (vx b - vx a) * (vy b - vy a) * (vz b - vz a).

(** What the user sets up: SetSpecimenBox succeeded with the corners [a] and [b]; the curve has positive diameters smaller than the
    specimen; [taken] are the particles of the take phase (C64), at least one, with a particle in every size class (C65). *)
Record setup (fuel : nat) (u u' : nat -> R) (junk : nat -> v3) (gc : geometry_concrete) (a b : v3) (shrinkage : R)
  (taken : list particle) : Prop := {
  st_spec : exists gc0 gc1, set_specimen_box gc0 a b = Returns gc1 /\ g_spec gc = g_spec gc1;
  st_u : unit_stream u;
  st_u' : strict_stream u';
  st_curve : good_curve (vsub b a) (g_curve gc);
  st_frac : 0 <= g_frac gc;
  st_rel : 0 <= g_rel gc;
  st_abs : 0 <= g_abs gc;
  st_shr : 0 <= shrinkage < 1;
  st_take : take_phase fuel u junk (box_volume a b) shrinkage (g_frac gc) (g_curve gc) [] = Some taken;
  st_some : taken <> [];
  st_fill : classes_filled (map snd taken) }.

Lemma box_specimen a b sp : new_specimen (bounds_of a b) SBox = Ok sp ->
  0 < vx b - vx a /\ 0 < vy b - vy a /\ 0 < vz b - vz a /\ stype sp = SBox /\ slen sp = vsub b a /\ sbox sp = bounds_of a b.
Proof.
  unfold new_specimen, calculate_length, length_of, bread. cbn [check_bounding_box bounds_of brows bcols Nat.eqb negb andb Nat.ltb Nat.leb obind bat vnth].
  destruct (rleb_spec (vx b - vx a) 0) as [(-> & Hx)|(-> & Hx)]; cbn [obind omap]; [discriminate|].
  destruct (rleb_spec (vy b - vy a) 0) as [(-> & Hy)|(-> & Hy)]; cbn [obind omap]; [discriminate|].
  destruct (rleb_spec (vz b - vz a) 0) as [(-> & Hz)|(-> & Hz)]; cbn [obind omap]; [discriminate|].
  intros E. injection E as <-. repeat split; try lra; reflexivity.
Qed.
Lemma box_returns gc a b gc' : set_specimen_box gc a b = Returns gc' -> exists sp, g_spec gc' = PLive sp /\ new_specimen (bounds_of a b) SBox = Ok sp.
Proof.
  unfold set_specimen_box. destruct (g_spec gc); try discriminate; destruct (new_specimen _ _) as [sp| |] eqn:E; try discriminate; intros H; injection H as <-; exists sp; split; reflexivity.
Qed.
(** what is left of a call that ended *)
Lemma run_result fuel u u' junk vel timeout late n gc a b shr per taken rate tend st l : setup fuel u u' junk gc a b shr taken ->
  run_both fuel u u' junk vel timeout late n gc rate shr per tend = Ok (Some (st, l)) ->
  0 < rate /\ exists ps T, map snd ps = map snd taken /\ length l = length ps /\ 0 <= T /\
    (st = Stopped -> (forall k, timeout k = false) -> tend <= T) /\
    (forall k, (k < length ps)%nat -> exists s, nth_error l k = Some s /\ srad0 s = snd (pget ps k) /\
       srad s = snd (pget ps k) + (snd (pget ps k) * g_rel gc + g_abs gc) * T /\ ball_in_box a (vsub b a) (spos s) (srad s)) /\
    (forall i j x y, (i < j)%nat -> nth_error l i = Some x -> nth_error l j = Some y -> srad x + srad y <= TakeSpec.distance (spos x) (spos y)) /\
    (forall k, (k < length ps)%nat -> 0 < snd (pget ps k)).
Proof.
  intros [SP Hu Hu' HC HF Hrel Hab Hs HT Hne Hfill] E. destruct SP as (gc0 & gc1 & SB & SE). destruct (box_returns _ _ _ _ SB) as (sp & SL & SN).
  destruct (box_specimen _ _ _ SN) as (Lx & Ly & Lz & Ty & Ln & Bx). unfold run_both in E. rewrite SE, SL in E.
  destruct (Nat.eqb _ 0); [discriminate|]. destruct (rleb_spec rate 0) as [(R0 & _)|(R0 & Hrate)]; rewrite R0 in E; [discriminate|]. split; [lra|].
  rewrite Ty, Ln, Bx in E. change (V3 (bat (bounds_of a b) 0 0) (bat (bounds_of a b) 1 0) (bat (bounds_of a b) 2 0)) with (V3 (vx a) (vy a) (vz a)) in E.
  assert (Ea : V3 (vx a) (vy a) (vz a) = a) by (destruct a; reflexivity). rewrite Ea in E.
  unfold specimen_volume in E. rewrite Ty, Ln in E. change (vx (vsub b a) * vy (vsub b a) * vz (vsub b a)) with (box_volume a b) in E.
  destruct (rltb (box_volume a b) (tenm 14)); cbn [obind] in E; [discriminate|].
  destruct (create_spheres _ _ _ _ _ _ _ _ _ _ _ _ _ _ _) as [[ps|]| |] eqn:EC; cbn [obind] in E; try discriminate.
  destruct (simulate_particles _ _ _ _ _ _ _ _ _ _ _ _) as [[st' l']| |] eqn:ES; cbn [omap] in E; try discriminate. injection E as <- <-.
  assert (Vp : 0 <= box_volume a b * g_frac gc) by (apply Rmult_le_pos; [unfold box_volume; apply Rmult_le_pos; [apply Rmult_le_pos|]; lra|exact HF]).
  destruct (created_good _ _ _ _ _ _ _ _ _ _ _ _ _ _ Hu Hu' HC Vp Hs HT Hne Hfill EC) as (EM & G & _).
  assert (LL : length ps = length taken) by (transitivity (length (map snd ps)); [symmetry; apply map_length|rewrite EM; apply map_length]).
  assert (Bx' : 0 < vx (vsub b a)) by exact Lx. assert (By' : 0 < vy (vsub b a)) by exact Ly. assert (Bz' : 0 < vz (vsub b a)) by exact Lz.
  destruct (simulated _ _ _ _ _ _ _ _ _ _ _ _ _ Bx' By' Bz' Hrel Hab G ES) as (LN & T & HT0 & HTe & HK & HA).
  exists ps, T. split; [exact EM|]. split; [exact LN|]. split; [exact HT0|]. split; [exact HTe|]. split; [exact HK|]. split; [exact HA|]. intros k Hk. apply G. exact Hk.
Qed.
(** the particles after MaximizeParticleDistance *)
Lemma recreated ps vel rel ab before : map (export_row before) (map (created ps vel rel ab) (particle_ids (length ps))) = ps.
Proof.
  apply nth_ext with (d := (V3 0 0 0, 0)) (d' := (V3 0 0 0, 0)); [unfold particle_ids; rewrite !map_length, seq_length; reflexivity|].
  intros k Hk. unfold particle_ids in *. rewrite !map_map in *. rewrite map_length, seq_length in Hk.
  set (f := fun x : nat => export_row before (created ps vel rel ab (FIRST_ID + Z.of_nat x))).
  rewrite (nth_indep _ _ (f 0%nat)) by (rewrite map_length, seq_length; exact Hk). rewrite (map_nth f), seq_nth by exact Hk. unfold f. cbn [Nat.add]. rewrite created_at.
  unfold export_row, new_sphere. cbn [spos srad0 srad]. destruct before; destruct (nth k ps (V3 0 0 0, 0)); reflexivity.
Qed.

(** ** C91 *)
(** MaximizeParticleDistance, with any random numbers, velocities and any wall clock: the particles have the radii of the take
    phase, do not overlap and are inside the specimen. *)
Theorem C91_distance_particles_partial : forall fuel u u' junk vel timeout late n vel2 gc a b d taken gc' before ps,
  setup fuel u u' junk gc a b 0 taken ->
  maximize_distance fuel u u' junk vel timeout late n vel2 gc d = Ok (Some gc') -> gc_particles gc' before = Ok ps ->
  map snd ps = map snd taken /\ apart_by 0 ps /\ inside_by 0 a b ps /\ g_spec gc' = g_spec gc /\
  (** and, unless the wall clock or an exception ended the simulation, they have the asked distance *)
  (g_continue gc = false -> (forall k, timeout k = false) -> apart_by d ps /\ inside_by (d / 2) a b ps).
Proof.
  intros fuel u u' junk vel timeout late n vel2 gc a b d taken gc' before ps SU EM EP.
  unfold maximize_distance, after in EM. destruct (run_both _ _ _ _ _ _ _ _ _ _ _ _ _) as [[[st l]|]| |] eqn:ER; cbn [obind] in EM; try discriminate.
  destruct (run_result _ _ _ _ _ _ _ _ _ _ _ _ _ _ _ _ _ _ SU ER) as (Habs & ps0 & T & E1 & LN & HT0 & HTe & HK & HA & HP).
  set (rows := map (export_row true) l) in *.
  assert (Eg : st <> Running /\ (g_continue gc = false -> st = Stopped) /\ gc' = with_spheres gc (map (created rows vel2 (g_rel gc) (g_abs gc)) (particle_ids (length rows)))).
  { destruct st; [discriminate| |].
    - injection EM as <-. repeat split; auto; discriminate.
    - destruct (g_continue gc); [|discriminate]. injection EM as <-. repeat split; auto; discriminate. }
  destruct Eg as (_ & Hst & ->). unfold gc_particles in EP. cbn [with_spheres g_spheres] in EP. rewrite recreated in EP. injection EP as <-.
  assert (ND : forall k p, nth_error rows k = Some p -> exists s, nth_error l k = Some s /\ p = (spos s, snd (pget ps0 k)) /\
     srad s = snd (pget ps0 k) + (snd (pget ps0 k) * g_rel gc + g_abs gc) * T /\ ball_in_box a (vsub b a) (spos s) (srad s) /\ 0 < snd (pget ps0 k)).
  { intros k p Hp. unfold rows in Hp. rewrite nth_error_map in Hp. destruct (nth_error l k) as [s|] eqn:Es; [|discriminate]. cbn [option_map] in Hp. injection Hp as <-.
    assert (Hk : (k < length ps0)%nat) by (rewrite <- LN; apply nth_error_Some; congruence).
    destruct (HK k Hk) as (s' & Es' & S0 & SR & SB). rewrite Es in Es'. injection Es' as <-. exists s. split; [reflexivity|]. unfold export_row. rewrite S0. auto. }
  destruct SU as [_ _ _ _ _ Hrel Hab _ _ _ _ _].
  assert (GR : forall k, (0 < snd (pget ps0 k)) -> 0 <= (snd (pget ps0 k) * g_rel gc + g_abs gc) * T) by (intros k Hk; apply Rmult_le_pos; [nra|exact HT0]).
  assert (MAIN : forall m, m <= 2 * (g_abs gc * T) -> apart_by m rows /\ inside_by (m / 2) a b rows).
  { intros m Hm. split.
    - intros i j p q Hij Hp Hq. destruct (ND _ _ Hp) as (s1 & N1 & -> & R1 & _ & P1). destruct (ND _ _ Hq) as (s2 & N2 & -> & R2 & _ & P2). cbn [fst snd].
      specialize (HA i j s1 s2 Hij N1 N2). rewrite R1, R2 in HA.
      assert (0 <= snd (pget ps0 i) * g_rel gc * T) by (apply Rmult_le_pos; [nra|exact HT0]). assert (0 <= snd (pget ps0 j) * g_rel gc * T) by (apply Rmult_le_pos; [nra|exact HT0]). nra.
    - intros p Hp. destruct (In_nth_error _ _ Hp) as (k & Hk). destruct (ND _ _ Hk) as (s1 & N1 & -> & R1 & B1 & P1). cbn [fst snd].
      assert (0 <= snd (pget ps0 k) * g_rel gc * T) by (apply Rmult_le_pos; [nra|exact HT0]).
      assert (snd (pget ps0 k) + m / 2 <= srad s1) by (rewrite R1; nra). unfold ball_in_box in B1. cbn [vsub vx vy vz] in B1. lra. }
  assert (0 <= g_abs gc * T) by (apply Rmult_le_pos; lra).
  split.
  { rewrite <- E1. apply nth_ext with (d := 0) (d' := 0); [unfold rows; rewrite !map_length; exact LN|].
    intros k Hk. unfold rows in *. rewrite !map_length in Hk. destruct (nth_error (map (export_row true) l) k) as [p|] eqn:Ep.
    - destruct (ND _ _ Ep) as (s & _ & -> & _). rewrite (nth_error_nth _ _ 0 (map_nth_error snd _ _ Ep)). cbn [snd]. unfold pget.
      symmetry. exact (map_nth snd ps0 (V3 0 0 0, 0) k).
    - apply nth_error_None in Ep. rewrite map_length in Ep. lia. }
  destruct (MAIN 0) as (M1 & M2); [lra|]. split; [exact M1|]. split; [replace 0 with (0 / 2) by lra; exact M2|]. split; [reflexivity|].
  intros HG HTi. specialize (HTe (Hst HG) HTi). apply MAIN.
  assert (g_abs gc * (/ 2 * d / g_abs gc) <= g_abs gc * T) by (apply Rmult_le_compat_l; lra). replace (g_abs gc * (/ 2 * d / g_abs gc)) with (d / 2) in H0 by (field; lra). lra.
Qed.
Lemma total_perm l l' : Permutation l l' -> total_volume l = total_volume l'.
Proof. unfold total_volume. induction 1; cbn [map sumR]; lra. Qed.
Lemma ball_mono r r' : 0 <= r <= r' -> volume_of_ball r <= volume_of_ball r'.
Proof. intros H. unfold volume_of_ball. assert (0 < PI) by apply PI_RGT_0. assert (r ^ 3 <= r' ^ 3) by (apply pow_incr; exact H). nra. Qed.
Lemma total_mono : forall l l', length l = length l' -> (forall k, (k < length l)%nat -> 0 <= nth k l 0 <= nth k l' 0) -> total_volume l <= total_volume l'.
Proof.
  unfold total_volume. induction l as [|x l IH]; intros [|y l'] HL H; try discriminate; cbn [map sumR]; [lra|].
  pose proof (ball_mono x y (H 0%nat ltac:(cbn; lia))). pose proof (IH l' ltac:(cbn in HL; lia) (fun k Hk => H (S k) ltac:(cbn; lia))). lra.
Qed.

(** MaximizeParticleVolumeFraction: the particles do not overlap and are inside; before the simulation they had the radii of the
    take phase.  Unless the wall clock or an exception ended the simulation, each has at least its size before the shrinkage, and
    the total volume is at least the asked fraction of the specimen, up to one ball of the smallest class. *)
Theorem C91_fraction_particles_partial : forall fuel u u' junk vel timeout late n gc a b s taken gc' ps ps0,
  setup fuel u u' junk gc a b s taken ->
  maximize_fraction fuel u u' junk vel timeout late n gc s = Ok (Some gc') ->
  gc_particles gc' false = Ok ps -> gc_particles gc' true = Ok ps0 ->
  map snd ps0 = map snd taken /\ map fst ps = map fst ps0 /\ apart_by 0 ps /\ inside_by 0 a b ps /\ g_spec gc' = g_spec gc /\
  (g_continue gc = false -> (forall k, timeout k = false) ->
    (forall k r, nth_error (map snd taken) k = Some r -> exists r', nth_error (map snd ps) k = Some r' /\ r / (1 - s) <= r') /\
    forall c, nth_error (g_curve gc) (length (g_curve gc) - 1) = Some c ->
      box_volume a b * g_frac gc * sumR (map cfrac (g_curve gc)) - volume_of_ball (cmax c / 2) <= total_volume (map snd ps)).
Proof.
  intros fuel u u' junk vel timeout late n gc a b shr taken gc' ps ps0 SU EM EP EP0.
  unfold maximize_fraction, after in EM. destruct (run_both _ _ _ _ _ _ _ _ _ _ _ _ _) as [[[st l]|]| |] eqn:ER; cbn [obind] in EM; try discriminate.
  destruct (run_result _ _ _ _ _ _ _ _ _ _ _ _ _ _ _ _ _ _ SU ER) as (Hrel & pz & T & E1 & LN & HT0 & HTe & HK & HA & HP).
  assert (Eg : (g_continue gc = false -> st = Stopped) /\ gc' = with_spheres gc l).
  { destruct st; [discriminate| |].
    - injection EM as <-. split; auto.
    - destruct (g_continue gc); [|discriminate]. injection EM as <-. split; auto; discriminate. }
  destruct Eg as (Hst & ->). unfold gc_particles in EP, EP0. cbn [with_spheres g_spheres] in EP, EP0. injection EP as <-. injection EP0 as <-.
  assert (LT : length l = length taken) by (rewrite LN; transitivity (length (map snd pz)); [symmetry; apply map_length|rewrite E1; apply map_length]).
  assert (NT : forall k, snd (pget pz k) = nth k (map snd taken) 0) by (intros k; rewrite <- E1; symmetry; exact (map_nth snd pz (V3 0 0 0, 0) k)).
  assert (HK' : forall k s, nth_error l k = Some s -> srad0 s = nth k (map snd taken) 0 /\
     srad s = nth k (map snd taken) 0 + (nth k (map snd taken) 0 * g_rel gc + g_abs gc) * T /\ ball_in_box a (vsub b a) (spos s) (srad s) /\ 0 < nth k (map snd taken) 0).
  { intros k s Es. assert (Hk : (k < length pz)%nat) by (rewrite <- LN; apply nth_error_Some; congruence).
    destruct (HK k Hk) as (s' & Es' & S0 & SR & SB). rewrite Es in Es'. injection Es' as <-. rewrite <- NT. auto. }
  destruct SU as [SPec Hu _ HC Hfr _ Hab Hs HTk _ _ _].
  split.
  { apply nth_ext with (d := 0) (d' := 0); [rewrite !map_length; exact LT|]. intros k Hk. rewrite !map_length in Hk.
    destruct (nth_error l k) as [s|] eqn:Es; [|apply nth_error_None in Es; lia]. destruct (HK' _ _ Es) as (S0 & _).
    rewrite map_map. rewrite (nth_error_nth _ _ 0 (map_nth_error (fun x => snd (export_row true x)) _ _ Es)). exact S0. }
  split; [rewrite !map_map; reflexivity|]. split.
  { intros i j p q Hij Hp Hq. rewrite nth_error_map in Hp, Hq. destruct (nth_error l i) as [s1|] eqn:E2; [|discriminate]. destruct (nth_error l j) as [s2|] eqn:E3; [|discriminate].
    injection Hp as <-. injection Hq as <-. cbn [export_row fst snd]. specialize (HA i j s1 s2 Hij E2 E3). lra. }
  split.
  { intros p Hp. apply in_map_iff in Hp. destruct Hp as (s & <- & Hs'). destruct (In_nth_error _ _ Hs') as (k & Hk). destruct (HK' _ _ Hk) as (_ & _ & B & _).
    unfold ball_in_box in B. cbn [vsub vx vy vz] in B. cbn [export_row fst snd]. lra. }
  split; [reflexivity|]. intros HG HTi. specialize (HTe (Hst HG) HTi).
  assert (GE : forall k s, nth_error l k = Some s -> 0 < nth k (map snd taken) 0 / (1 - shr) <= srad s).
  { intros k s Es. destruct (HK' _ _ Es) as (_ & SR & _ & P0). set (r := nth k (map snd taken) 0) in *. split; [apply Rdiv_lt_0_compat; lra|].
    assert (1 / (1 - shr) - 1 <= g_rel gc * T).
    { replace (1 / (1 - shr) - 1) with (g_rel gc * ((1 / (1 - shr) - 1) / g_rel gc)) by (field; lra). apply Rmult_le_compat_l; lra. }
    assert (0 <= g_abs gc * T) by (apply Rmult_le_pos; lra). replace (r / (1 - shr)) with (r + r * (1 / (1 - shr) - 1)) by (field; lra). rewrite SR. nra. }
  split.
  - intros k r Hr. destruct (nth_error l k) as [s|] eqn:Es.
    + exists (srad s). rewrite !nth_error_map, Es. split; [reflexivity|]. pose proof (GE _ _ Es) as G. rewrite (nth_error_nth _ _ 0 Hr) in G. lra.
    + apply nth_error_None in Es. assert (k < length (map snd taken))%nat by (apply nth_error_Some; congruence). assert (LM : length (map snd taken) = length taken) by apply map_length. rewrite LM in H. lia.
  - intros c Hc. destruct SPec as (gc0 & gc1 & SB & _). destruct (box_returns _ _ _ _ SB) as (sp & _ & SN). destruct (box_specimen _ _ _ SN) as (Lx & Ly & Lz & _).
    assert (Vp : 0 <= box_volume a b * g_frac gc) by (apply Rmult_le_pos; [unfold box_volume; apply Rmult_le_pos; [apply Rmult_le_pos|]; lra|exact Hfr]).
    destruct (C64_take_phase_partial fuel u junk (box_volume a b) shr (g_frac gc) (g_curve gc) taken Hu) as (groups & HG' & HV & _ & HPm); auto.
    { eapply Forall_impl; [|exact HC]. cbv beta. intros x Hx. lra. } { lra. }
    assert (LG : length groups = length (g_curve gc)) by (clear - HG'; induction HG'; cbn; congruence).
    destruct (HV (length (g_curve gc)) (Nat.le_refl _)) as (_ & HV2).
    assert (NZ : length (g_curve gc) <> 0%nat) by (intros Z0; rewrite Z0 in Hc; destruct (g_curve gc); discriminate).
    specialize (HV2 c NZ Hc). rewrite firstn_all in HV2. rewrite <- LG, firstn_all in HV2.
    assert (TM : total_volume (concat groups) <= total_volume (map snd (map (export_row false) l))).
    { rewrite (total_perm (concat groups) (map (fun r => r / (1 - shr)) (map snd taken))).
      - apply total_mono; [rewrite !map_length; symmetry; exact LT|]. intros k Hk. assert (LM : length (map (fun r => r / (1 - shr)) (map snd taken)) = length taken) by (rewrite map_length; apply map_length). rewrite LM in Hk.
        destruct (nth_error l k) as [s|] eqn:Es; [|apply nth_error_None in Es; lia]. pose proof (GE _ _ Es) as G.
        rewrite (nth_error_nth _ _ 0 (map_nth_error snd _ _ (map_nth_error (export_row false) _ _ Es))). cbn [export_row snd].
        assert (EQ : nth k (map (fun r => r / (1 - shr)) (map snd taken)) 0 = nth k (map snd taken) 0 / (1 - shr)) by (rewrite <- (map_nth (fun r => r / (1 - shr))); f_equal; unfold Rdiv; ring). rewrite EQ. lra.
      - symmetry. apply Permutation_map with (f := fun r => r / (1 - shr)) in HPm. eapply perm_trans; [exact HPm|].
        rewrite map_map. rewrite (map_ext _ (fun x => x)) by (intros x; field; lra). rewrite map_id. apply Permutation_refl. }
    lra.
Qed.

(** ** Runs with one ball in a cube of side 10 *)
Definition demo_curve : list gclass := [mkClass 2 2 1].
Definition demo (rel ab : R) : geometry_concrete :=
  mkGC (PLive (mkSpecimen (bounds_of zero3 cube10) SBox (V3 (10 - 0) (10 - 0) (10 - 0)))) None demo_curve (8 / 1000) 2000000 10 rel ab false.
Lemma ten_box : forall gc, g_spec gc <> PFreed ->
  set_specimen_box gc zero3 cube10 = Returns (with_spec gc (PLive (mkSpecimen (bounds_of zero3 cube10) SBox (V3 (10 - 0) (10 - 0) (10 - 0))))).
Proof.
  intros gc H. unfold set_specimen_box, new_specimen, calculate_length, length_of, bread.
  cbn [check_bounding_box bounds_of brows bcols Nat.eqb negb andb Nat.ltb Nat.leb obind bat vnth zero3 cube10 vx vy vz]. rewrite rleb_f by lra. cbn [obind omap].
  destruct (g_spec gc); [reflexivity|reflexivity|congruence].
Qed.
Lemma ten_len : V3 (10 - 0) (10 - 0) (10 - 0) = cube10.
Proof. unfold cube10. f_equal; ring. Qed.
Lemma ten_volume : box_volume zero3 cube10 = 1000.
Proof. unfold box_volume, zero3, cube10. cbn [vx vy vz]. ring. Qed.
Lemma demo_take u s junk : take_phase 2 u junk 1000 s (8 / 1000) demo_curve [] = Some [(junk 0%nat, 1 * (1 - s))].
Proof. unfold take_phase, demo_curve. rewrite take_one. reflexivity. Qed.
Lemma single_sizes fuel r sizes : 0 < r -> size_classes fuel [r] = Ok (Some sizes) -> sizes = [2 * r].
Proof.
  intros Hr. unfold size_classes. cbn [rev List.app]. destruct fuel as [|f]; cbn [doubling]; [discriminate|]. rewrite rltb_f by lra. intros E. injection E as <-. reflexivity.
Qed.
Lemma single_filled r : 0 < r -> classes_filled [r].
Proof.
  intros Hr fuel sizes E c Hc H. apply single_sizes in E; [|exact Hr]. subst sizes. cbn [length] in Hc. apply (H r); [now left|]. split; left; [lia|cbn; lia].
Qed.
Lemma ten_divisions per : (0 < per)%nat -> sub_box_divisions 1000 cube10 1 per = (1, 1, 1)%Z.
Proof.
  intros Hp. unfold sub_box_divisions. destruct (Nat.div 1 per) as [|q] eqn:Q; [reflexivity|].
  assert (q = 0%nat). { destruct per as [|[|p]]; [lia|cbn in Q; lia|]. rewrite Nat.div_small in Q by lia. discriminate. } subst q.
  cbn [INR cube10 vx vy vz]. replace (1000 / 1) with (10 * 10 * 10) by lra. rewrite cube_root by lra.
  unfold ceilZ. rewrite (floorZ_eq _ (-1)) by lra. reflexivity.
Qed.
Lemma demo_setup rel ab u u' s junk : 0 <= rel -> 0 <= ab -> 0 <= s < 1 -> unit_stream u -> strict_stream u' ->
  setup 2 u u' junk (demo rel ab) zero3 cube10 s [(junk 0%nat, 1 * (1 - s))].
Proof.
  intros Hr Ha Hs Hu Hu'. constructor; auto.
  - exists gc_new. eexists. split; [apply ten_box; discriminate|reflexivity].
  - constructor; [|constructor]. cbn [cmin cmax cfrac vsub cube10 zero3 vx vy vz]. lra.
  - cbn [demo g_frac]. lra.
  - rewrite ten_volume. apply demo_take.
  - discriminate.
  - apply single_filled. cbn [snd]. lra.
Qed.
Lemma place_single u' s w tries pos a : (forall k, u' k = w) -> 0 <= s < 1 -> 0 <= w < 1 -> (0 <= a < 5)%Z ->
  let r := 1 * (1 - s) in let c := r + 0 + (10 - 2 * r) * w in IZR a <= c / 2 < IZR a + 1 ->
  place_phase 2 SBox zero3 cube10 s 0 0 tries u' [r] pos = Ok (Some (set_pos pos 0 (V3 c c c))).
Proof.
  intros Hw Hs Hw1 Ha r c Hc. assert (Hr : 0 < r <= 1) by (unfold r; lra).
  unfold place_phase, size_classes. cbn [rev List.app doubling]. rewrite rltb_f by lra. cbn [obind].
  unfold num_per_class. cbn [length Nat.eqb combine place_classes seq fold_left].
  assert (MB : make_boxes cube10 (2 * r) s = boxes5).
  { unfold make_boxes. replace (2 * r / (1 - s)) with 2 by (unfold r; field; lra). unfold cube10, boxes5. cbn [vx vy vz]. rewrite (floorZ_eq _ 5) by lra. reflexivity. }
  rewrite MB. cbn [place_class].
  assert (T0 : trunc ((c - 0) / (10 / 5)) = a) by (apply trunc_is; [lia|]; replace ((c - 0) / (10 / 5)) with (c / 2) by field; exact Hc).
  rewrite (place_one_accept SBox zero3 cube10 0 0 tries u' (fun i => nth i [r] 0) 1 boxes5 pos (fun _ => []) 0 0 0 (V3 c c c) a a a);
    [|unfold zero3, cube10, random_coordinate; cbn [nth vx vy vz]; rewrite !Hw; reflexivity
     |reflexivity|exact T0|exact T0|exact T0|unfold sb_index, sb_count, boxes5; cbn [sb_n]; lia|intros o []].
  reflexivity.
Qed.
Lemma create_single u u' junk s w tries a : (forall k, u' k = w) -> 0 <= s < 1 -> 0 <= w < 1 -> (0 <= a < 5)%Z ->
  let r := 1 * (1 - s) in let c := r + 0 + (10 - 2 * r) * w in IZR a <= c / 2 < IZR a + 1 ->
  create_spheres 2 u u' junk SBox zero3 cube10 1000 s (8 / 1000) 0 0 tries demo_curve [] = Ok (Some [(V3 c c c, r)]).
Proof.
  intros Hw Hs Hw1 Ha r c Hc. unfold create_spheres. 
  assert (CK : check_curve demo_curve = true).
  { unfold check_curve, class_ok, demo_curve. cbn [forallb cmin cmax cfrac]. rewrite (rltb_f 2 2), (rltb_f 1 0), (rltb_f 1 1) by lra. reflexivity. }
  rewrite CK, demo_take. cbn [map snd fst length]. fold r.
  match goal with |- obind ?p _ = _ => assert (E : p = Ok (Some (set_pos (fun i => nth i [junk 0%nat] (V3 0 0 0)) 0 (V3 c c c)))) by exact (place_single u' s w tries _ a Hw Hs Hw1 Ha Hc) end.
  rewrite E. reflexivity.
Qed.

(** One sphere at rest in the middle of the cube, radius 1/2, growing at the rate 1/2: it meets all six walls at the time 9. *)
Definition ten_grid : grid := new_grid 1 1 1 zero3 cube10.
Definition ten_object : Z -> object := object_of ten_grid (specimen_cylinder ten_grid (vx cube10 / 2) (vz cube10)).
Definition mid (i : Z) : sphere := created [(V3 5 5 5, / 2)] (fun _ => zero3) 1 0 i.
Lemma mid_at : mid FIRST_ID = new_sphere FIRST_ID (V3 5 5 5) zero3 (/ 2) (/ 2 * 1 + 0).
Proof. exact (created_at [(V3 5 5 5, / 2)] (fun _ => zero3) 1 0 0). Qed.
Lemma mid_packing : packing ten_grid ten_object wall_ids (particle_ids 1) mid.
Proof.
  apply (packing_of zero3 cube10 1 1 1 [(V3 5 5 5, / 2)] (fun _ => zero3) 1 0); try lia; try (cbn [cube10 vx vy vz]; lra); try lra.
  - intros [|k] Hk; [|cbn in Hk; lia]. unfold pget. cbn [nth fst snd]. unfold ball_in_box, below_upper. cbn [fst snd zero3 cube10 vx vy vz]. lra.
  - intros i j Hij. cbn in Hij. lia.
Qed.
Lemma mid_wall s k : sph s = mid -> (k < 6)%nat -> predict_box_wall s (wallof ten_grid (0, 0, 0)%Z k) FIRST_ID = Ok 9.
Proof.
  intros Es Hk. assert (Kd : bw_kind (wallof ten_grid (0, 0, 0)%Z k) = Physical) by (destruct k as [|[|[|[|[|[|k]]]]]]; try lia; reflexivity).
  unfold predict_box_wall. rewrite Kd. destruct (side_cases k Hk) as (a & up & Ha & ->).
  destruct (wall_values ten_grid (0, 0, 0)%Z a up (sph s FIRST_ID) Ha) as (V1 & _). unfold predict_wall. rewrite V1, Es, mid_at. cbn [obind new_sphere stime].
  assert (Gap : SimProofs.gap ten_grid (0, 0, 0)%Z a up (new_sphere FIRST_ID (V3 5 5 5) zero3 (/ 2) (/ 2 * 1 + 0)) 0 = 9 / 2).
  { unfold SimProofs.gap, lo, hi, centre_at, radius_at, plane, ten_grid, zero3, cube10. destruct a as [|[|[|a]]], up; try lia;
      cbn [new_grid vnth vadd smul vx vy vz new_sphere spos svel stime srad sgrow gh ghx ghy ghz gorg co Z.add]; lra. }
  assert (DG : dgap a up (new_sphere FIRST_ID (V3 5 5 5) zero3 (/ 2) (/ 2 * 1 + 0)) = - / 2).
  { unfold dgap, zero3. destruct a as [|[|[|a]]], up; try lia; cbn [new_sphere svel sgrow vnth vx vy vz]; lra. }
  rewrite Gap, DG. unfold wall_time. rewrite (rleb_f 0 (- / 2)) by lra. rewrite Bool.andb_false_r.
  destruct (reqb_spec (- / 2) 0) as [(_ & F)|(-> & _)]; [lra|]. cbv zeta. replace (- (9 / 2) / - / 2) with 9 by field. rewrite rleb_t by lra. cbn [new_sphere stime]. f_equal. ring.
Qed.
Lemma mid_run em te timeout late : 0 < te <= 9 -> (forall k, timeout k = false) -> (forall k, late k = false) ->
  exists b s, add_spheres ten_grid (map mid (particle_ids 1)) wall_ids = Ok b /\
    simulate ten_object (num_boxes ten_grid) em te timeout late 2 10 (particle_ids 1) (initial_sim (num_boxes ten_grid) mid b) = Ok (Stopped, s) /\
    srad (sph s FIRST_ID) = 5.
Proof.
  intros Hte Hti Hla. pose proof mid_packing as PK. destruct (packing_added _ _ _ _ _ PK) as (b & AD). exists b.
  pose proof (pk_grid _ _ _ _ _ PK) as OK. pose proof (pk_sphere _ _ _ _ _ PK) as SPH.
  destruct (packing_start _ _ _ _ _ b 10 PK AD) as (L0 & E0 & HL & S1 & S2 & S3 & S4 & S5).
  pose proof HL as ((P & Co & So & _) & _).
  assert (G0 : ingrid ten_grid (0, 0, 0)%Z) by (intros [|[|[|a]]] Ha; try lia; cbn; lia).
  assert (Gu : forall c, ingrid ten_grid c -> c = (0, 0, 0)%Z).
  { intros [[x y] z] G. apply ingrid_in_grid in G. destruct G as (A & B & C). cbn [ten_grid new_grid gnx gny gnz] in *. repeat f_equal; lia. }
  assert (Io : In FIRST_ID (particle_ids 1)) by (left; reflexivity).
  assert (Wo : ten_object FIRST_ID = OSphere) by reflexivity.
  assert (Times : forall e, In e (evs (lsim L0)) -> etime e = 9).
  { intros e He. destruct (So e He) as ((c & G & A1 & A2) & Pe & Ge). apply Gu in G. subst c.
    apply (p_cont _ _ _ _ _ P) in A1; [|exact G0]. apply (p_cont _ _ _ _ _ P) in A2; [|exact G0]. unfold predict in Pe.
    destruct A1 as [[W1|[]]|(k1 & L1 & W1)], A2 as [[W2|[]]|(k2 & L2 & W2)].
    - rewrite <- W1, <- W2 in Pe. change (FIRST_ID + Z.of_nat 0)%Z with FIRST_ID in Pe. rewrite Wo in Pe. unfold predict_spheres in Pe. rewrite Z.eqb_refl in Pe. injection Pe as Pe. unfold EVENTNULL in Pe. lra.
    - rewrite <- W1, W2 in Pe. change (FIRST_ID + Z.of_nat 0)%Z with FIRST_ID in Pe. rewrite Wo in Pe. rewrite mid_wall in Pe by auto. injection Pe as Pe. lra.
    - rewrite W1, <- W2 in Pe. change (FIRST_ID + Z.of_nat 0)%Z with FIRST_ID in Pe. rewrite Wo in Pe. rewrite mid_wall in Pe by auto. injection Pe as Pe. lra.
    - rewrite W1, W2 in Pe. injection Pe as Pe. lra. }
  destruct (p_walls _ _ _ _ _ P (0, 0, 0)%Z 0%nat G0 ltac:(lia)) as (d & Hd & Wd).
  assert (Hreg : In FIRST_ID (content (lsim L0) (idx ten_grid (0, 0, 0)%Z))).
  { apply (p_reg _ _ _ _ _ P); auto. intros a Ha. rewrite S1, mid_at. unfold plane, hi, lo, centre_at, radius_at, ten_grid, zero3, cube10.
    destruct a as [|[|[|a]]]; try lia; cbn [new_grid vnth vadd smul vx vy vz new_sphere spos svel stime srad sgrow gh ghx ghy ghz gorg co Z.add]; lra. }
  assert (Pr : predict ten_object (lsim L0) FIRST_ID d = Ok 9) by (unfold predict; rewrite Wo, Wd; apply mid_wall; [exact S1|lia]).
  destruct (C78_event_found_partial ten_grid ten_object wall_ids (particle_ids 1) mid b L0 10 em te timeout late 0 L0 (idx ten_grid (0, 0, 0)%Z) FIRST_ID d 9 PK AD E0 eq_refl) as (st & L' & EP & _); auto.
  { cbn. lia. } { rewrite S5. lra. }
  assert (N1 : next_time (lsim L0) = 9).
  { unfold next_time. destruct (evs (lsim L0)) as [|e l] eqn:El; [|apply Times; left; reflexivity].
    destruct (Co FIRST_ID d 9) as (e & He & _); [exists (0, 0, 0)%Z; auto|exact Pr|rewrite S5; lra|]. rewrite El in He. contradiction. }
  assert (X : st = Running /\ lglobal L' = 9).
  { unfold pass in EP. rewrite Hti, S2 in EP. cbn [orb] in EP. rewrite rltb_t in EP by lra. cbn [negb] in EP. cbv zeta in EP.
    unfold fetch in EP. cbn [lglobal] in EP. rewrite N1 in EP. destruct (reqb_spec 9 EVENTNULL) as [(_ & F)|(R1 & _)]; [unfold EVENTNULL in F; lra|]. rewrite R1 in EP. cbn [obind lsim lglobal lold lreset lcount lnochange] in EP.
    destruct (perform_next _ _) as [s1| |]; cbn [obind] in EP; try discriminate.
    assert (Z0 : lnochange L0 = 0). { unfold start in E0. destruct (set_barrier _ _ _ _); cbn [omap] in E0; try discriminate. injection E0 as <-. reflexivity. }
    rewrite Z0 in EP. rewrite rltb_f in EP.
    - cbn [andb] in EP. injection EP as <- <-. cbn [lglobal]. auto.
    - unfold tenm. assert (/ 10 ^ 6 <= / 1); [apply Rinv_le_contravar; [lra|apply pow_R1_Rle; lra]|]. rewrite Rinv_1 in H. lra. }
  destruct X as (-> & XL).
  assert (E2 : passes ten_object (num_boxes ten_grid) em te timeout late 2 L0 = Ok (Stopped, L')).
  { cbn [passes obind]. rewrite Hla, EP. cbn [obind]. unfold pass at 1. rewrite XL, Hti. cbn [orb]. rewrite rltb_f by lra. reflexivity. }
  exists (sync ten_object (particle_ids 1) (lglobal L') (lsim L')). split; [exact AD|].
  assert (ES : simulate ten_object (num_boxes ten_grid) em te timeout late 2 10 (particle_ids 1) (initial_sim (num_boxes ten_grid) mid b) =
     Ok (Stopped, sync ten_object (particle_ids 1) (lglobal L') (lsim L'))) by (unfold simulate; rewrite E0; cbn [obind]; rewrite E2; reflexivity).
  split; [exact ES|].
  destruct (C61_final_packing_partial _ _ _ _ _ b 10 em te timeout late 2 _ _ PK AD ES) as (T & _ & HR & _). destruct (HR _ Io) as (R1 & R2).
  assert (T = 9). { rewrite <- R1. unfold sync. cbn [particle_ids map seq fold_left]. change (FIRST_ID + Z.of_nat 0)%Z with FIRST_ID. unfold move. unfold is_sphere. rewrite Wo. cbn [sph].
    unfold set_sphere. rewrite Z.eqb_refl, XL. unfold move_and_grow. cbv zeta. try destruct (reqb _ _); reflexivity. }
  rewrite R2, mid_at, H. cbn [new_sphere srad sgrow]. field.
Qed.

Definition half : nat -> R := fun _ => / 2.
Definition zeros : nat -> R := fun _ => 0.
Definition still : nat -> v3 := fun _ => zero3.
Definition never : nat -> bool := fun _ => false.
Lemma demo_volume rel ab sp : g_spec (demo rel ab) = PLive sp -> specimen_volume sp = Ok 1000.
Proof.
  intros E. injection E as <-. unfold specimen_volume. cbn [stype slen vx vy vz]. rewrite rltb_f.
  - f_equal. ring.
  - unfold tenm. assert (/ 10 ^ 14 <= / 1); [apply Rinv_le_contravar; [lra|apply pow_R1_Rle; lra]|]. rewrite Rinv_1 in H. lra.
Qed.
Lemma demo_run rel ab u' s w a per tend vel timeout late n : (forall k, u' k = w) -> 0 <= s < 1 -> 0 <= w < 1 -> (0 <= a < 5)%Z -> (0 < per)%nat ->
  let r := 1 * (1 - s) in let c := r + 0 + (10 - 2 * r) * w in IZR a <= c / 2 < IZR a + 1 ->
  forall rate, 0 < rate ->
  run_both 2 zeros u' still vel timeout late n (demo rel ab) rate s per tend =
  obind (add_spheres ten_grid (map (created [(V3 c c c, r)] vel rel ab) (particle_ids 1)) wall_ids) (fun b =>
    omap Some (omap (fun '(st, s) => (st, map (sph s) (particle_ids 1)))
      (simulate ten_object (num_boxes ten_grid) 2000000 tend timeout late n 10 (particle_ids 1)
         (initial_sim (num_boxes ten_grid) (created [(V3 c c c, r)] vel rel ab) b)))).
Proof.
  intros Hw Hs Hw1 Ha Hp r c Hc rate Hrate. unfold run_both. cbn [demo g_spec g_curve demo_curve length Nat.eqb].
  rewrite rleb_f by exact Hrate. cbn [stype]. rewrite (demo_volume rel ab _ eq_refl). cbn [obind slen sbox]. rewrite ten_len.
  change (V3 (bat (bounds_of zero3 cube10) 0 0) (bat (bounds_of zero3 cube10) 1 0) (bat (bounds_of zero3 cube10) 2 0)) with zero3.
  change (g_frac (demo rel ab)) with (8 / 1000).
  rewrite (create_single zeros u' still s w 10000000 a Hw Hs Hw1 Ha Hc). cbn [obind]. unfold simulate_particles. cbn [length].
  rewrite ten_divisions by exact Hp. cbn [demo g_rel g_abs g_events g_barrier]. fold ten_grid. fold r c.
  destruct (add_spheres _ _ _); reflexivity.
Qed.
Lemma demo_mid : let r := 1 * (1 - / 2) in let c := r + 0 + (10 - 2 * r) * / 2 in created [(V3 c c c, r)] still 1 0 = mid.
Proof. cbv zeta. unfold mid, still. replace (1 * (1 - / 2) + 0 + (10 - 2 * (1 * (1 - / 2))) * / 2) with 5 by field. replace (1 * (1 - / 2)) with (/ 2) by field. reflexivity. Qed.

(** Missing: that the particles do not become larger than asked.  The loop ends only after an event beyond the final time, and the
    particles are grown up to that event: one ball of diameter 2, shrunk to one half, at rest in a cube of side 10, ends with the
    diameter 10, no wall clock and no exception being involved. *)
Theorem C91_overshoot_refuted : exists u u' junk vel timeout late gc gc' taken p,
  setup 2 u u' junk gc zero3 cube10 (/ 2) taken /\ (forall k, timeout k = false) /\ g_continue gc = false /\
  maximize_fraction 2 u u' junk vel timeout late 2 gc (/ 2) = Ok (Some gc') /\ gc_particles gc' false = Ok [p] /\
  (forall c, In c (g_curve gc) -> cmax c = 2) /\ 2 * snd p = 10.
Proof.
  destruct (mid_run 2000000 ((1 / (1 - / 2) - 1) / 1) never never) as (b & s & AD & ES & HR).
  { replace ((1 / (1 - / 2) - 1) / 1) with 1 by field. lra. } { reflexivity. } { reflexivity. }
  exists zeros, half, still, still, never, never, (demo 1 0), (with_spheres (demo 1 0) [sph s FIRST_ID]), [(still 0%nat, 1 * (1 - / 2))], (export_row false (sph s FIRST_ID)).
  split; [apply demo_setup; try lra; try lia; intro; unfold zeros, half; lra|]. split; [reflexivity|]. split; [reflexivity|]. split; [|split; [reflexivity|split]].
  - unfold maximize_fraction. change (g_rel (demo 1 0)) with 1.
    rewrite (demo_run 1 0 half (/ 2) (/ 2) 2 10 ((1 / (1 - / 2) - 1) / 1) still never never 2 (fun _ => eq_refl)); try lra; try lia.
    rewrite demo_mid. unfold after. rewrite AD. cbn [obind]. rewrite ES. reflexivity.
  - intros c [<-|[]]. reflexivity.
  - cbn [export_row snd]. rewrite HR. lra.
Qed.

(** Missing: what happens when the wall clock ends the simulation.  The call returns as if it had succeeded; here the ball of radius
    1 touches the faces although the distance 2 was asked for. *)
Theorem C91_wall_clock_refuted : exists u u' junk vel vel2 timeout late gc gc' taken ps,
  setup 2 u u' junk gc zero3 cube10 0 taken /\ g_continue gc = false /\
  maximize_distance 2 u u' junk vel timeout late 1 vel2 gc 2 = Ok (Some gc') /\ gc_particles gc' false = Ok ps /\
  ~ inside_by (2 / 2) zero3 cube10 ps.
Proof.
  set (sp := created [(V3 1 1 1, 1)] still 0 1).
  assert (PK : packing ten_grid ten_object wall_ids (particle_ids 1) sp).
  { apply (packing_of zero3 cube10 1 1 1 [(V3 1 1 1, 1)] still 0 1); try lia; try (cbn [cube10 vx vy vz]; lra); try lra.
    - intros [|k] Hk; [|cbn in Hk; lia]. unfold pget. cbn [nth fst snd]. unfold ball_in_box, below_upper. cbn [fst snd zero3 cube10 vx vy vz]. lra.
    - intros i j Hij. cbn in Hij. lia. }
  destruct (packing_added _ _ _ _ _ PK) as (b & AD). destruct (packing_start _ _ _ _ _ b 10 PK AD) as (L0 & E0 & _ & S1 & S2 & _).
  exists zeros, zeros, still, still, still, (fun _ => true), never, (demo 0 1). eexists. exists [(still 0%nat, 1 * (1 - 0))]. eexists.
  split; [apply demo_setup; try lra; try lia; intro; unfold zeros; lra|]. split; [reflexivity|]. split; [|split].
  - unfold maximize_distance. change (g_abs (demo 0 1)) with 1.
    rewrite (demo_run 0 1 zeros 0 0 0 1 (/ 2 * 2 / 1) still (fun _ => true) never 1 (fun _ => eq_refl)); try lra; try lia.
    replace (1 * (1 - 0) + 0 + (10 - 2 * (1 * (1 - 0))) * 0) with 1 by ring. replace (1 * (1 - 0)) with 1 by ring. fold sp. rewrite AD. cbn [obind].
    unfold simulate. rewrite E0. cbn [obind passes]. unfold pass. cbn [orb obind omap after]. reflexivity.
  - unfold gc_particles. cbn [with_spheres g_spheres]. rewrite recreated. reflexivity.
  - rewrite S2, S1 || idtac. intros H. unfold sync in H. cbn [particle_ids map seq fold_left length] in H. rewrite S2 in H.
    change (FIRST_ID + Z.of_nat 0)%Z with FIRST_ID in H. unfold move, is_sphere in H. change (ten_object FIRST_ID) with OSphere in H. cbn [sph] in H.
    unfold set_sphere in H. rewrite Z.eqb_refl, S1 in H. unfold sp in H. change FIRST_ID with (FIRST_ID + Z.of_nat 0)%Z in H. rewrite created_at in H.
    specialize (H _ (or_introl eq_refl)). cbn [nth fst snd export_row move_and_grow new_sphere spos srad0 srad svel stime vadd smul vx vy vz zero3 cube10 still] in H. lra.
Qed.

(** ** the object after a call that failed *)
(** Missing: setting the specimen a second time with a box that is refused.  The first specimen is gone, the pointer to it is not:
    every further call that uses it, and the destructor, are undefined. *)
Theorem C91_specimen_freed_refuted : exists a b a' b' gc1 gc2,
  set_specimen_box gc_new a b = Returns gc1 /\ set_specimen_box gc1 a' b' = Throws gc2 /\ destroy gc1 = true /\ destroy gc2 = false /\
  (forall x y, set_specimen_box gc2 x y = Undefined) /\
  (forall fuel u u' junk vel timeout late n gc s, gc = gc2 -> maximize_fraction fuel u u' junk vel timeout late n gc s = UB).
Proof.
  exists zero3, cube10, zero3, zero3. eexists. eexists. split; [apply ten_box; discriminate|]. split; [|split; [|split; [|split]]].
  - unfold set_specimen_box. cbn [with_spec g_spec gc_new]. unfold new_specimen, calculate_length, length_of, bread.
    cbn [check_bounding_box bounds_of brows bcols Nat.eqb negb andb Nat.ltb Nat.leb obind bat vnth zero3 vx]. rewrite rleb_t by lra. cbn [obind omap]. reflexivity.
  - reflexivity.
  - reflexivity.
  - reflexivity.
  - intros fuel u u' junk vel timeout late n gc s ->. reflexivity.
Qed.
(** Otherwise a call of SetSpecimenBox returns or throws and the object can be used and destroyed. *)
Theorem C91_specimen_partial : forall gc a b, g_spec gc <> PFreed -> vx a < vx b -> vy a < vy b -> vz a < vz b ->
  exists gc' sp, set_specimen_box gc a b = Returns gc' /\ g_spec gc' = PLive sp /\ stype sp = SBox /\ slen sp = vsub b a /\ lower_corner sp = a /\ upper_corner sp = b /\ destroy gc' = true /\
    g_curve gc' = g_curve gc /\ g_spheres gc' = g_spheres gc /\ g_frac gc' = g_frac gc /\ g_rel gc' = g_rel gc /\ g_abs gc' = g_abs gc.
Proof.
  intros gc a b H Hx Hy Hz. unfold set_specimen_box, new_specimen, calculate_length, length_of, bread.
  cbn [check_bounding_box bounds_of brows bcols Nat.eqb negb andb Nat.ltb Nat.leb obind bat vnth]. rewrite !rleb_f by lra. cbn [obind omap].
  destruct (g_spec gc); [| |congruence]; do 2 eexists; (split; [reflexivity|]); destruct a, b; repeat split; reflexivity.
Qed.
(** SetSpecimenCylinder keeps the old specimen until the new one exists: a refused box leaves the object as it was. *)
Theorem C91_cylinder_specimen : forall gc a b,
  (vx a < vx b -> vy a < vy b -> vz a < vz b ->
    exists gc' sp, set_specimen_cylinder gc a b = Returns gc' /\ g_spec gc' = PLive sp /\ stype sp = SCylinder /\ slen sp = vsub b a /\
      lower_corner sp = a /\ upper_corner sp = b /\ destroy gc' = true /\
      g_curve gc' = g_curve gc /\ g_spheres gc' = g_spheres gc /\ g_frac gc' = g_frac gc /\ g_rel gc' = g_rel gc /\ g_abs gc' = g_abs gc) /\
  (vx b <= vx a \/ vy b <= vy a \/ vz b <= vz a -> set_specimen_cylinder gc a b = Throws gc).
Proof.
  intros gc a b. unfold set_specimen_cylinder, new_specimen, calculate_length, length_of, bread.
  cbn [check_bounding_box bounds_of brows bcols Nat.eqb negb andb Nat.ltb Nat.leb obind bat vnth]. split.
  - intros Hx Hy Hz. rewrite !rleb_f by lra. cbn [obind omap].
    do 2 eexists. split; [reflexivity|]. destruct a, b. repeat split; reflexivity.
  - intros H. destruct (Rle_lt_dec (vx b) (vx a)); [rewrite rleb_t by lra; reflexivity|]. rewrite (rleb_f (vx b - vx a)) by lra.
    destruct (Rle_lt_dec (vy b) (vy a)); [cbn [obind]; rewrite rleb_t by lra; reflexivity|]. rewrite (rleb_f (vy b - vy a)) by lra.
    cbn [obind]. rewrite (rleb_t (vz b - vz a)) by (destruct H as [|[]]; lra). reflexivity.
Qed.
Print Assumptions C91_cylinder_specimen.
Example C91_cylinder_example : set_specimen_cylinder gc_new (V3 0 0 0) (V3 1 0 1) = Throws gc_new.
Proof. apply C91_cylinder_specimen. cbn [vx vy vz]. lra. Qed.
(** The growth rates exclude each other. *)
Theorem C91_growth_rates : forall gc r, g_rel (set_absolute_growth_rate gc r) = 0 /\ g_abs (set_absolute_growth_rate gc r) = r /\
  g_abs (set_relative_growth_rate gc r) = 0 /\ g_rel (set_relative_growth_rate gc r) = r /\
  g_spec (set_absolute_growth_rate gc r) = g_spec gc /\ g_spec (set_relative_growth_rate gc r) = g_spec gc.
Proof. intros. repeat split. Qed.

(** ** the built-in grading curves *)
(** For 1 to 6 classes: they pass the check of the particle creator, start at 16 mm, continue without gaps towards smaller
    particles, and the fractions do not exceed the whole; any other number of classes throws and changes nothing. *)
Theorem C91_named_curves : forall gc name num,
  ((1 <= num <= 6)%Z -> exists gc', set_grading_curve gc name num = Returns gc' /\ length (g_curve gc') = Z.to_nat num /\
     check_curve (g_curve gc') = true /\
     (forall c, nth_error (g_curve gc') 0 = Some c -> cmax c = 16) /\
     (forall k c c', nth_error (g_curve gc') k = Some c -> nth_error (g_curve gc') (S k) = Some c' -> cmax c' = cmin c) /\
     Forall (fun c => 0 < cmin c < cmax c /\ 0 < cfrac c) (g_curve gc') /\ sumR (map cfrac (g_curve gc')) <= 1) /\
  (~ (1 <= num <= 6)%Z -> set_grading_curve gc name num = Throws gc).
Proof.
  intros gc name num. split.
  - intros Hn. unfold set_grading_curve. destruct (Z.ltb_spec num 1); [lia|]. destruct (Z.ltb_spec 6 num); [lia|]. cbn [orb]. eexists. split; [reflexivity|].
    cbn [with_curve g_curve]. assert (N : exists m, Z.to_nat num = m /\ (m = 1 \/ m = 2 \/ m = 3 \/ m = 4 \/ m = 5 \/ m = 6)%nat) by (exists (Z.to_nat num); split; [reflexivity|lia]).
    destruct N as (m & -> & N).
    destruct N as [->|[->|[->|[->|[->| ->]]]]]; destruct name; (split; [reflexivity|]);
      (split; [unfold check_curve, class_ok; cbn [firstn full_curve forallb cmin cmax cfrac]; rewrite !rltb_f by lra; reflexivity|]);
      (split; [intros c E; injection E as <-; reflexivity|]);
      (split; [intros k c c' E E'; do 7 (destruct k as [|k]; [first [discriminate E|discriminate E'|injection E as <-; injection E' as <-; reflexivity]|]); first [discriminate E|destruct k; discriminate E]|]);
      (split; [repeat constructor; cbn [cmin cmax cfrac]; lra|]); cbn [firstn full_curve map sumR cfrac]; lra.
  - intros Hn. unfold set_grading_curve. destruct (Z.ltb_spec num 1); [reflexivity|]. destruct (Z.ltb_spec 6 num); [reflexivity|lia].
Qed.

(** ** C92 *)
(** the point (x, y, z) belongs to the ball [p]; the point (x, y) belongs to the disk [c] *)
Definition in_ball (p : particle) (x y z : R) : Prop := (x - vx (fst p))² + (y - vy (fst p))² + (z - vz (fst p))² <= (snd p)².
Definition in_disk (c : circle) (x y : R) : Prop := let '(cx, cy, r) := c in (x - cx)² + (y - cy)² <= r².
Definition disk_radius (c : circle) : R := snd c.
Definition disks_apart (cs : list circle) : Prop := forall i j x1 y1 r1 x2 y2 r2, (i < j)%nat ->
  nth_error cs i = Some (x1, y1, r1) -> nth_error cs j = Some (x2, y2, r2) -> r1 + r2 <= sqrt ((x1 - x2)² + (y1 - y2)²).
Lemma slice_one z rmin p c : In c (get_particles_2d z rmin [p]) <->
  Rabs (vz (fst p) - z) < snd p /\ c = (vx (fst p), vy (fst p), sqrt (snd p * snd p - (vz (fst p) - z) * (vz (fst p) - z))) /\ rmin < disk_radius c.
Proof.
  unfold get_particles_2d. cbn [flat_map]. cbv zeta. rewrite app_nil_r.
  destruct (rltb_spec (Rabs (vz (fst p) - z)) (snd p)) as [(-> & H)|(-> & H)].
  - destruct (rltb_spec rmin (sqrt (snd p * snd p - (vz (fst p) - z) * (vz (fst p) - z)))) as [(-> & H')|(-> & H')]; cbn [In]; split.
    + intros [<-|[]]. auto.
    + intros (_ & -> & _). auto.
    + intros [].
    + intros (_ & -> & H2). unfold disk_radius in H2. cbn [snd] in H2. lra.
  - split; [intros []|]. intros (H2 & _). lra.
Qed.
Lemma slice_in z rmin ps c : In c (get_particles_2d z rmin ps) <-> exists p, In p ps /\ In c (get_particles_2d z rmin [p]).
Proof.
  unfold get_particles_2d. rewrite in_flat_map. split; intros (p & Hp & Hc); exists p; (split; [exact Hp|]).
  - cbn [flat_map]. rewrite app_nil_r. exact Hc.
  - cbn [flat_map] in Hc. rewrite app_nil_r in Hc. exact Hc.
Qed.
Lemma section_radius r d : Rabs d < r -> 0 < r * r - d * d /\ sqrt (r * r - d * d) * sqrt (r * r - d * d) = r * r - d * d /\ 0 < sqrt (r * r - d * d).
Proof.
  intros H. assert (P : 0 < r * r - d * d) by (unfold Rabs in H; destruct (Rcase_abs d); nra). split; [exact P|]. split; [apply sqrt_sqrt; lra|apply sqrt_lt_R0; exact P].
Qed.
Lemma sections_apart r1 r2 d1 d2 x y : Rabs d1 < r1 -> Rabs d2 < r2 -> (r1 + r2)² <= x² + y² + (d1 - d2)² ->
  sqrt (r1 * r1 - d1 * d1) + sqrt (r2 * r2 - d2 * d2) <= sqrt (x² + y²).
Proof.
  intros H1 H2 H. destruct (section_radius _ _ H1) as (_ & Q1 & P1). destruct (section_radius _ _ H2) as (_ & Q2 & P2).
  set (a := sqrt (r1 * r1 - d1 * d1)) in *. set (b := sqrt (r2 * r2 - d2 * d2)) in *. clearbody a b.
  apply Rsqr_incr_0_var; [|apply sqrt_pos]. rewrite Rsqr_sqrt by (pose proof (Rle_0_sqr x); pose proof (Rle_0_sqr y); lra).
  unfold Rsqr in *. assert (K : a * b <= r1 * r2 + d1 * d2).
  { assert (S : 0 <= r1 * r2 + d1 * d2) by (unfold Rabs in H1, H2; destruct (Rcase_abs d1), (Rcase_abs d2); nra).
    apply Rsqr_incr_0_var; [|exact S]. unfold Rsqr. replace (a * b * (a * b)) with ((a * a) * (b * b)) by ring. rewrite Q1, Q2.
    assert (0 <= (r1 * d2 + r2 * d1) * (r1 * d2 + r2 * d1)) by apply Rle_0_sqr. nra. }
  nra.
Qed.
Lemma slice_cons z rmin p ps : get_particles_2d z rmin (p :: ps) = get_particles_2d z rmin [p] ++ get_particles_2d z rmin ps.
Proof. unfold get_particles_2d. cbn [flat_map]. rewrite app_nil_r. reflexivity. Qed.
Lemma slice_small z rmin p : (length (get_particles_2d z rmin [p]) <= 1)%nat.
Proof. unfold get_particles_2d. cbn [flat_map]. cbv zeta. rewrite app_nil_r. destruct (rltb _ _); [destruct (rltb _ _)|]; cbn; lia. Qed.
Lemma apart_tail d p ps : apart_by d (p :: ps) -> apart_by d ps /\ forall q, In q ps -> snd p + snd q + d <= TakeSpec.distance (fst p) (fst q).
Proof.
  intros H. split; [intros i j a b Hij Ha Hb; apply (H (S i) (S j)); auto; lia|]. intros q Hq. destruct (In_nth_error _ _ Hq) as (k & Hk). apply (H 0%nat (S k)); auto. lia.
Qed.

(** A slice at the height z: every disk is the section of one ball, with a radius above the threshold, and every ball whose section
    is that large contributes; the disks of balls that do not overlap do not overlap, and those of balls inside a box are inside its
    rectangle; one disk per ball. *)
Theorem C92_slice : forall z rmin ps, 0 <= rmin ->
  let cs := get_particles_2d z rmin ps in
  (forall c, In c cs -> rmin < disk_radius c /\ exists p, In p ps /\ forall x y, in_disk c x y <-> in_ball p x y z) /\
  (forall p, In p ps -> 0 < snd p -> (exists x y, in_ball p x y z /\ (x - vx (fst p))² + (y - vy (fst p))² > rmin²) ->
     exists c, In c cs /\ forall x y, in_disk c x y <-> in_ball p x y z) /\
  (length cs <= length ps)%nat /\
  (apart_by 0 ps -> disks_apart cs) /\
  (forall a b, inside_by 0 a b ps -> forall x y r, In (x, y, r) cs -> vx a + r <= x <= vx b - r /\ vy a + r <= y <= vy b - r).
Proof.
  intros z rmin ps Hm cs.
  assert (SEC : forall p, Rabs (vz (fst p) - z) < snd p -> forall x y,
    in_disk (vx (fst p), vy (fst p), sqrt (snd p * snd p - (vz (fst p) - z) * (vz (fst p) - z))) x y <-> in_ball p x y z).
  { intros p Hp x y. destruct (section_radius _ _ Hp) as (_ & Q & _). unfold in_disk, in_ball, Rsqr. rewrite Q. split; intros; nra. }
  split; [|split; [|split; [|split]]].
  - intros c Hc. apply slice_in in Hc. destruct Hc as (p & Hp & Hc). apply slice_one in Hc. destruct Hc as (H1 & -> & H2). split; [exact H2|]. exists p. split; [exact Hp|]. apply SEC. exact H1.
  - intros p Hp P0 (x & y & B & C). assert (Rabs (vz (fst p) - z) < snd p).
    { unfold in_ball, Rsqr in B. unfold Rsqr in C. assert (0 <= rmin * rmin) by nra.
      assert (X : (vz (fst p) - z)² < (snd p)²) by (unfold Rsqr; replace ((vz (fst p) - z) * (vz (fst p) - z)) with ((z - vz (fst p)) * (z - vz (fst p))) by ring; lra).
      apply Rsqr_lt_abs_0 in X. rewrite (Rabs_right (snd p)) in X by lra. exact X. }
    exists (vx (fst p), vy (fst p), sqrt (snd p * snd p - (vz (fst p) - z) * (vz (fst p) - z))). split; [|apply SEC; exact H].
    apply slice_in. exists p. split; [exact Hp|]. apply slice_one. split; [exact H|]. split; [reflexivity|]. unfold disk_radius. cbn [snd].
    destruct (section_radius _ _ H) as (_ & Q & P). unfold in_ball, Rsqr in B. unfold Rsqr in C. set (q := sqrt _) in *.
    replace ((z - vz (fst p)) * (z - vz (fst p))) with ((vz (fst p) - z) * (vz (fst p) - z)) in B by ring. destruct (Rlt_le_dec rmin q) as [L|L]; [exact L|exfalso].
    assert (q * q <= rmin * rmin) by (apply Rmult_le_compat; lra). lra.
  - unfold cs. clear cs SEC. induction ps as [|p ps IH]; [cbn; lia|]. rewrite slice_cons, app_length. cbn [length]. pose proof (slice_small z rmin p). lia.
  - unfold cs. clear cs SEC. induction ps as [|p ps IH]; intros HA; [intros i j x1 y1 r1 x2 y2 r2 _ E; destruct i; discriminate|].
    apply apart_tail in HA. destruct HA as (HA & HP). specialize (IH HA). rewrite slice_cons.
    intros i j x1 y1 r1 x2 y2 r2 Hij E1 E2. pose proof (slice_small z rmin p) as SM.
    set (l := get_particles_2d z rmin [p]) in *. destruct (Nat.lt_ge_cases i (length l)) as [Li|Li].
    + rewrite nth_error_app1 in E1 by exact Li. rewrite nth_error_app2 in E2 by lia. apply nth_error_In in E1, E2. apply slice_one in E1. apply slice_in in E2.
      destruct E2 as (q & Hq & E2). apply slice_one in E2. destruct E1 as (A1 & A2 & _). destruct E2 as (B1 & B2 & _). injection A2 as -> -> ->. injection B2 as -> -> ->.
      apply sections_apart; auto. specialize (HP q Hq). unfold TakeSpec.distance in HP. rewrite Rplus_0_r in HP.
      assert (D0 : 0 <= (vx (fst p) - vx (fst q))² + (vy (fst p) - vy (fst q))² + (vz (fst p) - vz (fst q))²) by (pose proof (Rle_0_sqr (vx (fst p) - vx (fst q))); pose proof (Rle_0_sqr (vy (fst p) - vy (fst q))); pose proof (Rle_0_sqr (vz (fst p) - vz (fst q))); lra).
      assert (0 <= Rabs (vz (fst p) - z)) by apply Rabs_pos. assert (0 <= Rabs (vz (fst q) - z)) by apply Rabs_pos.
      apply Rsqr_incr_1 in HP; [|lra|apply sqrt_pos]. rewrite Rsqr_sqrt in HP by exact D0.
      replace (vz (fst p) - z - (vz (fst q) - z)) with (vz (fst p) - vz (fst q)) by ring. exact HP.
    + rewrite nth_error_app2 in E1, E2 by lia. apply (IH (i - length l)%nat (j - length l)%nat); auto. lia.
  - intros a b HI x y r Hc. apply slice_in in Hc. destruct Hc as (p & Hp & Hc). apply slice_one in Hc. destruct Hc as (H1 & E & _). injection E as -> -> ->.
    specialize (HI p Hp). destruct (section_radius _ _ H1) as (_ & Q & P). assert (0 <= Rabs (vz (fst p) - z)) by apply Rabs_pos.
    set (q := sqrt _) in *.
    assert (QL : q <= snd p). { destruct (Rle_lt_dec q (snd p)) as [L|L]; [exact L|exfalso]. assert (0 <= (vz (fst p) - z) * (vz (fst p) - z)) by apply Rle_0_sqr. nra. }
    repeat split; lra.
Qed.
(** The exported slice of the particles of a simulation. *)
Theorem C92_export : forall gc a b ps z rmin cs gc0 gc1, 0 <= rmin ->
  set_specimen_box gc0 a b = Returns gc1 -> g_spec gc = g_spec gc1 ->
  gc_particles gc false = Ok ps -> apart_by 0 ps -> inside_by 0 a b ps -> gc_slice gc z rmin = Ok cs ->
  vz a < z < vz b /\ disks_apart cs /\ (forall x y r, In (x, y, r) cs -> rmin < r /\ vx a + r <= x <= vx b - r /\ vy a + r <= y <= vy b - r).
Proof.
  intros gc a b ps z rmin cs gc0 gc1 Hm SB SE EP HA HI E. destruct (box_returns _ _ _ _ SB) as (sp & SL & SN). destruct (box_specimen _ _ _ SN) as (_ & _ & _ & _ & _ & Bx).
  unfold gc_particles in EP. unfold gc_slice in E. destruct (g_spheres gc) as [l|]; [|discriminate]. injection EP as <-. rewrite SE, SL, Bx in E. cbn [bounds_of bat vnth] in E.
  destruct (rleb_spec z (vz a)) as [(R1 & _)|(R1 & H1)]; rewrite R1 in E; [discriminate|]. destruct (rleb_spec (vz b) z) as [(R2 & _)|(R2 & H2)]; rewrite R2 in E; [discriminate|].
  cbn [orb] in E. injection E as <-. destruct (C92_slice z rmin (map (export_row false) l) Hm) as (C1 & _ & _ & C3 & C4).
  split; [lra|]. split; [apply C3; exact HA|]. intros x y r Hc. split; [apply (C1 _ Hc)|]. apply (C4 a b HI). exact Hc.
Qed.
(** three balls, a slice that meets two of them *)
Example C92_example : let ps := [(V3 2 2 2, 1); (V3 5 5 2, 1); (V3 8 8 8, 1)] in
  apart_by 0 ps /\ inside_by 0 zero3 cube10 ps /\ get_particles_2d 2 0 ps = [(2, 2, 1); (5, 5, 1)].
Proof.
  cbv zeta. split; [|split].
  - assert (D : forall p q, 4 <= (vx p - vx q)² -> 1 + 1 + 0 <= TakeSpec.distance p q).
    { intros p q H. unfold TakeSpec.distance. replace (1 + 1 + 0) with (sqrt (2 * 2)) by (rewrite sqrt_square; lra). apply sqrt_le_1_alt.
      pose proof (Rle_0_sqr (vy p - vy q)). pose proof (Rle_0_sqr (vz p - vz q)). lra. }
    intros i j p q Hij Ei Ej. do 3 (destruct j as [|j]; [try lia; do 3 (destruct i as [|i]; [try lia; injection Ei as <-; injection Ej as <-; apply D; unfold Rsqr; cbn [vx fst]; lra|]); lia|]). destruct j; discriminate.
  - intros p [<-|[<-|[<-|[]]]]; cbn [fst snd vx vy vz zero3 cube10]; lra.
  - unfold get_particles_2d. cbn [flat_map fst snd vx vy vz]. cbv zeta. replace (2 - 2) with 0 by ring. replace (8 - 2) with 6 by ring.
    rewrite Rabs_R0, (Rabs_right 6) by lra. rewrite (rltb_t 0 1), (rltb_f 6 1) by lra. replace (1 * 1 - 0 * 0) with (1 * 1) by ring. rewrite sqrt_square by lra. rewrite rltb_t by lra. reflexivity.
Qed.
(** the hypotheses of the end-to-end theorems are met, and the call returns *)
Example C91_example : exists gc' ps, setup 2 zeros half still (demo 1 0) zero3 cube10 (/ 2) [(still 0%nat, 1 * (1 - / 2))] /\
  maximize_fraction 2 zeros half still still never never 2 (demo 1 0) (/ 2) = Ok (Some gc') /\ gc_particles gc' false = Ok ps /\ g_continue (demo 1 0) = false.
Proof.
  destruct (mid_run 2000000 ((1 / (1 - / 2) - 1) / 1) never never) as (b & s & AD & ES & _).
  { replace ((1 / (1 - / 2) - 1) / 1) with 1 by field. lra. } { reflexivity. } { reflexivity. }
  exists (with_spheres (demo 1 0) [sph s FIRST_ID]). eexists.
  split; [apply demo_setup; try lra; try lia; intro; unfold zeros, half; lra|]. split; [|split; reflexivity].
  unfold maximize_fraction. change (g_rel (demo 1 0)) with 1.
  rewrite (demo_run 1 0 half (/ 2) (/ 2) 2 10 ((1 / (1 - / 2) - 1) / 1) still never never 2 (fun _ => eq_refl)); try lra; try lia.
  rewrite demo_mid. unfold after. rewrite AD. cbn [obind]. rewrite ES. reflexivity.
Qed.
Print Assumptions C91_distance_particles_partial.
Print Assumptions C91_fraction_particles_partial.
Print Assumptions C91_overshoot_refuted.
Print Assumptions C91_wall_clock_refuted.
Print Assumptions C91_specimen_freed_refuted.
Print Assumptions C91_named_curves.
Print Assumptions C92_slice.
Print Assumptions C92_export.
