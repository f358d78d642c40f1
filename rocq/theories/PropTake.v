(** C64-C67: take phase, size classes, place phase, minimal distance. *)
From Coq Require Import Reals ZArith List Bool Lia Lra Psatz Permutation.
From Verif Require Import Outcome AdaptiveModel AdaptiveProofs Vec3 CollisionModel CollisionProofs CollisionProofs2 SubBoxModel SubBoxProofs
  TakeModel TakeSpec TakeProofs TakeProofs2 TakeProofs3.
Import ListNotations.
Local Open Scope R_scope.

Lemma rltb_t : forall a b, a < b -> rltb a b = true.
Proof. intros a b H. destruct (rltb_spec a b) as [(-> & L)|(-> & L)]; trivial; lra. Qed.
Lemma rltb_f : forall a b, b <= a -> rltb a b = false.
Proof. intros a b H. destruct (rltb_spec a b) as [(-> & L)|(-> & L)]; trivial; lra. Qed.
Lemma rleb_t : forall a b, a <= b -> rleb a b = true.
Proof. intros a b H. destruct (rleb_spec a b) as [(-> & L)|(-> & L)]; trivial; lra. Qed.
Lemma rleb_f : forall a b, b < a -> rleb a b = false.
Proof. intros a b H. destruct (rleb_spec a b) as [(-> & L)|(-> & L)]; trivial; lra. Qed.

(** ** C64 *)
(** Without boundary spheres: the radii (before shrinkage) form one group per class, each within the class; after every
    class, the volume taken so far does not exceed what the curve asks for so far, and misses it by no more than one
    largest particle of that class; the particle table lists the shrunk radii in decreasing order. *)
Theorem C64_take_phase_partial : forall fuel u junk volume shrinkage relVolume curve ps, unit_stream u ->
  Forall (fun c => 0 < cmin c /\ cmin c <= cmax c /\ 0 <= cfrac c) curve -> 0 <= volume * relVolume -> shrinkage <= 1 ->
  take_phase fuel u junk volume shrinkage relVolume curve [] = Some ps ->
  exists groups : list (list R),
    Forall2 (fun c g => Forall (fun r => cmin c / 2 <= r <= cmax c / 2) g) curve groups /\
    (forall n, (n <= length curve)%nat ->
       let asked := volume * relVolume * sumR (map cfrac (firstn n curve)) in
       let taken := total_volume (concat (firstn n groups)) in
       taken <= asked /\
       forall c, n <> 0%nat -> nth_error curve (n - 1) = Some c -> asked - taken <= volume_of_ball (cmax c / 2)) /\
    decreasing (map snd ps) /\
    Permutation (map snd ps) (map (fun r => r * (1 - shrinkage)) (concat groups)).
Proof.
  intros fuel u junk volume shr relV curve ps Hu HC Ht Hs E. unfold take_phase in E.
  destruct (take_classes fuel u (volume * relV) curve None 0) as [[rs vs]|] eqn:E1; [|discriminate].
  destruct (take_classes_spec fuel u (volume * relV) curve None 0 rs vs Hu HC Ht (Rle_refl 0) E1) as (groups & Eg & HG & HT).
  assert (Em : map snd ps = map (fun r => r * (1 - shr)) (sort_desc rs)).
  { apply (f_equal (fun o => match o with Some l => l | None => [] end)) in E. cbn beta iota in E. rewrite <- E.
    cbn [map List.app]. apply map_snd_combine. rewrite map_length, seq_length, map_length.
    symmetry. apply Permutation_length. apply sort_desc_perm. }
  exists groups. split; [exact HG|]. split; [|split].
  - intros n Hn. specialize (HT n Hn). cbv zeta in *. rewrite Rplus_0_l in HT. exact HT.
  - rewrite Em. apply decreasing_map; [lra|]. apply sort_desc_sorted.
  - rewrite Em, <- Eg. apply Permutation_map. apply sort_desc_perm.
Qed.
(** and the phase terminates *)
Theorem C64_terminates_partial : forall u junk volume shrinkage relVolume curve boundary, unit_stream u ->
  Forall (fun c => 0 < cmin c /\ cmin c <= cmax c /\ 0 <= cfrac c) curve ->
  exists fuel0, forall fuel, (fuel0 <= fuel)%nat ->
    exists ps, take_phase fuel u junk volume shrinkage relVolume curve boundary = Some ps.
Proof.
  intros u junk volume shr relV curve boundary Hu HC.
  destruct (take_classes_terminates u (volume * relV) curve None 0 Hu HC) as (f & H).
  exists f. intros fuel Hf. unfold take_phase. destruct (H fuel Hf) as ([rs vs] & ->). eauto.
Qed.
(** Missing: smallest diameters of 0.  They pass the check of the curve and the loop never ends. *)
Theorem C64_zero_diameter_refuted : exists u curve, unit_stream u /\ check_curve curve = true /\
  forall fuel junk, take_phase fuel u junk 1 0 1 curve [] = None.
Proof.
  exists (fun _ => / 2), [mkClass 0 1 1]. split; [intro; lra|]. split.
  - unfold check_curve, class_ok. cbn [forallb cmin cmax cfrac]. rewrite (rltb_f 1 0), (rltb_f 1 1) by lra. reflexivity.
  - intros fuel junk. unfold take_phase. cbn [take_classes cfrac].
    assert (G : forall f k, take_class f (fun _ => / 2) (mkClass 0 1 1) (1 * 1 * 1) k 0 = None).
    { induction f as [|f IH]; intro k; [reflexivity|]. cbn [take_class].
      replace (random_radius (mkClass 0 1 1) (/ 2)) with 0.
      - replace (0 + ball_volume 0) with 0 by (unfold ball_volume; ring). rewrite rltb_t by lra. now rewrite IH.
      - unfold random_radius. cbn [cmin cmax]. unfold Rdiv. ring. }
    now rewrite G.
Qed.

(** a run that takes exactly one ball of radius 1 *)
Lemma radius_one : forall u, random_radius (mkClass 2 2 1) u = 1.
Proof.
  intro u. unfold random_radius. cbn [cmin cmax].
  replace ((1 - u) * (2 * 2 * 2) + u * (2 * 2 * 2)) with (2 * 2 * 2) by ring. rewrite cube_root by lra. field.
Qed.
Lemma take_one : forall u, take_classes 2 u (1000 * (8 / 1000)) [mkClass 2 2 1] None 0 = Some ([1], [(1000 * (8 / 1000) * 1, 0 + ball_volume 1 + ball_volume 1 - ball_volume 1)]).
Proof.
  intro u. cbn [take_classes take_class cfrac]. rewrite !radius_one.
  assert (B : 4 < ball_volume 1 < 8).
  { unfold ball_volume. pose proof PI2_3_2. pose proof PI_4. unfold PI2 in *. pose proof PI_RGT_0. split; lra. }
  rewrite (rltb_t (0 + ball_volume 1)) by lra. rewrite rltb_f by lra. reflexivity.
Qed.
(** Missing: boundary spheres.  The radii are sorted together with those of the boundary spheres, but the positions are
    not: the table no longer contains the boundary sphere that was handed in. *)
Theorem C64_boundary_refuted : exists u junk volume relVolume curve boundary ps, unit_stream u /\
  check_curve curve = true /\ take_phase 2 u junk volume 0 relVolume curve boundary = Some ps /\
  exists b, In b boundary /\ ~ In b ps.
Proof.
  exists (fun _ => 0), (fun _ => V3 0 0 0), 1000, (8 / 1000), [mkClass 2 2 1], [(V3 5 5 5, / 2)],
    [(V3 5 5 5, 1 * (1 - 0)); (V3 0 0 0, / 2 * (1 - 0))].
  split; [intro; lra|]. split; [|split].
  - unfold check_curve, class_ok. cbn [forallb cmin cmax cfrac]. rewrite (rltb_f 2 2), (rltb_f 1 0), (rltb_f 1 1) by lra. reflexivity.
  - unfold take_phase. rewrite take_one. cbn [map fst snd List.app length seq sort_desc fold_right insert_desc].
    rewrite rltb_f by lra. reflexivity.
  - exists (V3 5 5 5, / 2). split; [now left|]. intros [E|[E|[]]]; injection E; intros; lra.
Qed.
(** the hypotheses are met by a run with one particle *)
Example C64_example : exists ps, take_phase 2 (fun _ => 0) (fun _ => V3 0 0 0) 1000 (/ 2) (8 / 1000) [mkClass 2 2 1] [] = Some ps /\
  map snd ps = [1 * (1 - / 2)].
Proof. eexists. unfold take_phase. rewrite take_one. split; reflexivity. Qed.

(** ** C65 *)
(** The size classes of a table in decreasing order; class [c] holds the diameters below size [c] (all, for the first class) and not
    below size [c+1] (all, for the last). *)
Definition size_class_empty (sizes radii : list R) (c : nat) : Prop :=
  forall r, In r radii -> ~ ((c = 0%nat \/ 2 * r < nth c sizes 0) /\ (S c = length sizes \/ nth (S c) sizes 0 <= 2 * r)).
Lemma not_empty_class : forall sizes radii c, ~ size_class_empty sizes radii c ->
  exists r, In r radii /\ class_of sizes c (2 * r).
Proof.
  intros sizes radii c. unfold size_class_empty. induction radii as [|r rs IH]; intro H.
  - exfalso. apply H. intros r [].
  - destruct (class_ofb sizes c (2 * r)) eqn:E.
    + apply class_ofb_spec in E. exists r. split; [now left|trivial].
    + destruct IH as (r' & Hr' & C).
      * intro H'. apply H. intros r' [<-|Hr']; [|now apply H']. intro C. apply class_ofb_spec in C. congruence.
      * exists r'. split; [now right|trivial].
Qed.
(** If no class is empty, all particles are counted, so that the place phase visits every one. *)
Theorem C65_all_counted_partial : forall fuel radii sizes, decreasing radii -> radii <> [] -> (forall r, In r radii -> 0 < r) ->
  size_classes fuel radii = Ok (Some sizes) ->
  (forall c, (c < length sizes)%nat -> ~ size_class_empty sizes radii c) ->
  length (num_per_class sizes radii) = length sizes /\
  (forall c, (c < length sizes)%nat -> nth c (num_per_class sizes radii) 0%nat =
     length (filter (fun r => class_ofb sizes c (2 * r)) radii)) /\
  placed_number sizes radii = length radii.
Proof.
  intros fuel radii sizes HD Hne Hpos Es HE.
  destruct (size_classes_ok radii HD Hne Hpos) as (_ & _ & SC). destruct (SC fuel sizes Es) as (N0 & N1 & N2 & _ & _).
  destruct (counts_bound sizes radii HD N0 N1) as (CL & _). split; trivial.
  assert (HB0 : sizes <> []) by trivial.
  assert (HC : forall c, (c < length sizes)%nat -> nth c (num_per_class sizes radii) 0%nat = count_class sizes c radii).
  { intros c Hc. unfold num_per_class. destruct (Nat.eqb_spec (length sizes) 1) as [E1|E1].
    - assert (c = 0%nat) by lia. subst c. cbn [nth]. symmetry. apply count_all. intros r Hr. split; [now left|left; lia].
    - rewrite num_loop_spec; trivial.
      + destruct (Nat.eqb_spec c 0) as [->|]; reflexivity.
      + apply repeat_length.
      + destruct sizes as [|a [|b s]]; cbn [length] in *; congruence || lia.
      + intros; now left.
      + intros c' Hc'. apply not_empty_class. apply HE. lia.
      + intros c' _ _. apply nth_repeat. }
  split; [exact HC|]. unfold placed_number. rewrite nsum_ext with (g := fun c => count_class sizes c radii) by (intros; apply HC; lia).
  now apply count_total.
Qed.
(** Missing: empty classes.  Two particles of diameters 8 and 1: the counts say 1, 0, 0 and the second one is never placed. *)
Theorem C65_empty_class_refuted : exists radii sizes, decreasing radii /\ (forall r, In r radii -> 0 < r) /\
  size_classes 3 radii = Ok (Some sizes) /\ (placed_number sizes radii < length radii)%nat.
Proof.
  exists [4; / 2], [2 * 4; 2 * / 2 * 2 * 2; 2 * / 2 * 2]. split; [|split; [|split]].
  - cbn [decreasing In]. split; [|tauto]. intros y [<-|[]]. lra.
  - intros r [<-|[<-|[]]]; lra.
  - unfold size_classes. cbn [rev List.app doubling].
    rewrite (rltb_t (2 * / 2 * 2)), (rltb_t (2 * / 2 * 2 * 2)), (rltb_f (2 * / 2 * 2 * 2 * 2)) by lra. reflexivity.
  - unfold placed_number, num_per_class. cbn [length Nat.eqb num_loop nth repeat].
    rewrite rleb_t by lra. cbn [num_loop]. cbn [nth]. rewrite rleb_f by lra. cbn. lia.
Qed.
Example C65_example : decreasing [4; 3; 1] /\ size_classes 3 [4; 3; 1] = Ok (Some [2 * 4; 2 * 1 * 2]) /\
  forall c, (c < 2)%nat -> ~ size_class_empty [2 * 4; 2 * 1 * 2] [4; 3; 1] c.
Proof.
  split; [|split].
  - cbn [decreasing In]. repeat split; try tauto; intros y; intuition (subst; lra).
  - unfold size_classes. cbn [rev List.app doubling].
    rewrite (rltb_t (2 * 1 * 2)), (rltb_f (2 * 1 * 2 * 2)) by lra. reflexivity.
  - intros c Hc H. destruct c as [|[|c]]; try lia.
    + apply (H 4); [now left|]. cbn [nth length]. split; [now left|right; lra].
    + apply (H 1); [right; right; now left|]. cbn [nth length]. split; [right; lra|now left].
Qed.

(** ** C66 *)
(** Radii positive and in decreasing order, the largest particle (grown back) fits the specimen, and the requested distance is
    within the size of a sub-box.  Then the place phase never reads outside its tables, and if it finishes, every placed particle
    is inside and every two keep the requested distance.  [placed_number]: see C65. *)
Theorem C66_placed_apart_partial : forall fuel ty lo len shrinkage rel ab maxTries u radii pos, unit_stream u ->
  decreasing radii -> radii <> [] -> (forall r, In r radii -> 0 < r) -> 0 <= shrinkage < 1 ->
  2 * nth 0 radii 0 / (1 - shrinkage) <= vx len -> 2 * nth 0 radii 0 / (1 - shrinkage) <= vy len ->
  2 * nth 0 radii 0 / (1 - shrinkage) <= vz len ->
  (forall r, In r radii -> 0 <= r * (1 + rel) + ab <= 2 * r / (1 - shrinkage)) ->
  place_phase fuel ty lo len shrinkage rel ab maxTries u radii pos <> UB /\
  forall pos', place_phase fuel ty lo len shrinkage rel ab maxTries u radii pos = Ok (Some pos') ->
    exists sizes, size_classes fuel radii = Ok (Some sizes) /\
      let n := placed_number sizes radii in
      (n <= length radii)%nat /\
      (forall i, (i < n)%nat -> ball_in_box lo len (pos' i) (nth i radii 0)) /\
      (ty = SCylinder -> forall i, (i < n)%nat ->
         (vx (pos' i) - (vx lo + vx len / 2))² + (vy (pos' i) - (vy lo + vx len / 2))² <=
         (vx len / 2 - nth i radii 0 * (1 + rel) - ab)² /\ 0 <= vx len / 2 - nth i radii 0 * (1 + rel) - ab) /\
      (forall i j, (i < j < n)%nat ->
         nth i radii 0 + nth j radii 0 * (1 + rel) + ab <= distance (pos' i) (pos' j)).
Proof.
  intros fuel ty lo len shr rel ab maxTries u radii pos Hu HD Hne Hpos Hs Fx Fy Fz HR.
  destruct (place_phase_lemma fuel ty lo len shr rel ab maxTries u radii pos Hu HD Hne Hpos Hs Fx Fy Fz HR) as (NU & OK1).
  split; trivial. intros pos' E. destruct (OK1 pos' E) as (sizes & Es & L & (P1 & P2) & _). exists sizes. split; trivial. cbv zeta.
  split; trivial. split; [|split].
  - intros i Hi. apply P1. trivial.
  - intros -> i Hi. destruct (P1 i Hi) as (_ & HC). cbv beta in HC. unfold collides_boundary in HC. cbv zeta in HC.
    destruct (rltb_spec (/ 2 * vx len - nth i radii 0 * (1 + rel) - ab) 0) as [(Eb & Lt)|(Eb & Lt)]; rewrite Eb in HC; [discriminate|].
    match type of HC with Ok (rltb ?a ?b) = _ => destruct (rltb_spec a b) as [(Ec & Lc)|(Ec & Lc)]; rewrite Ec in HC; [discriminate|] end.
    unfold Rsqr. unfold Rdiv. rewrite (Rmult_comm (vx len)). split; [exact Lc|exact Lt].
  - intros i j Hij. specialize (P2 i j Hij). unfold far, reach in P2. unfold distance in *.
    replace (vx (pos' i) - vx (pos' j))² with (vx (pos' j) - vx (pos' i))² by (unfold Rsqr; ring).
    replace (vy (pos' i) - vy (pos' j))² with (vy (pos' j) - vy (pos' i))² by (unfold Rsqr; ring).
    replace (vz (pos' i) - vz (pos' j))² with (vz (pos' j) - vz (pos' i))² by (unfold Rsqr; ring). lra.
Qed.

(** runs with two balls of radius 1 in a box of side 10 *)
Lemma trunc_is : forall x n, (0 <= n)%Z -> IZR n <= x < IZR n + 1 -> trunc x = n.
Proof.
  intros x n Hn H. apply IZR_le in Hn. rewrite trunc_nonneg by lra. now apply floorZ_eq.
Qed.
Lemma place_one_accept : forall ty lo len rel ab maxTries u rad f b pos t i k tries p xi yi zi,
  p = V3 (random_coordinate (rad i) (vx lo) (vx len) (u k)) (random_coordinate (rad i) (vy lo) (vy len) (u (S k)))
         (random_coordinate (rad i) (vz lo) (vz len) (u (S (S k)))) ->
  collides_boundary ty lo len p (rad i) rel ab = Ok false ->
  trunc ((vx p - vx lo) / vx (sb_l b)) = xi -> trunc ((vy p - vy lo) / vy (sb_l b)) = yi ->
  trunc ((vz p - vz lo) / vz (sb_l b)) = zi -> (0 <= sb_index b xi yi zi < sb_count b)%Z ->
  (forall o, In o (t (sb_index b xi yi zi)) -> too_close pos rad i p rel ab o = false) ->
  place_one ty lo len rel ab maxTries u rad (S f) b pos t i k tries = Ok (Some (p, S (S (S k)))).
Proof.
  intros ty lo len rel ab mt u rad f b pos t i k tries p xi yi zi Hp HC Hx Hy Hz HB HT.
  cbn [place_one]. cbv zeta. rewrite <- Hp, HC. cbn [obind]. rewrite Hx, Hy, Hz.
  rewrite (proj2 (Z.leb_le _ _)) by lia. rewrite (proj2 (Z.ltb_lt _ _)) by lia. cbn [andb].
  replace (existsb _ _) with false; [reflexivity|]. symmetry. apply not_true_is_false. intro E. apply existsb_exists in E.
  destruct E as (o & Ho & E). rewrite HT in E by trivial. discriminate.
Qed.
Definition cube10 : v3 := V3 10 10 10.
Definition zero3 : v3 := V3 0 0 0.
Definition boxes5 : sboxes := mkSB (5, 5, 5)%Z (V3 (10 / 5) (10 / 5) (10 / 5)).
Lemma make_boxes5 : make_boxes cube10 (2 * 1) 0 = boxes5.
Proof.
  unfold make_boxes, cube10, boxes5. cbn [vx vy vz]. rewrite (floorZ_eq _ 5); [reflexivity|]. split; lra.
Qed.
Lemma place_two : forall u ab pos a, u 0%nat = 0 -> u 1%nat = 0 -> u 2%nat = 0 -> u 4%nat = 0 -> u 5%nat = 0 ->
  (0 <= a < 5)%Z -> IZR a <= (1 + 8 * u 3%nat) / 2 < IZR a + 1 ->
  ((3 <= a)%Z \/ (2 + ab)² <= (8 * u 3%nat)²) ->
  exists pos', place_phase 2 SBox zero3 cube10 0 0 ab 10 u [1; 1] pos = Ok (Some pos') /\
    pos' 0%nat = V3 1 1 1 /\ pos' 1%nat = V3 (1 + 8 * u 3%nat) 1 1 /\ forall i, (2 <= i)%nat -> pos' i = pos i.
Proof.
  intros u ab pos a U0 U1 U2 U4 U5 Ha Hb HT.
  set (q := V3 (1 + 8 * u 3%nat) 1 1).
  exists (set_pos (set_pos pos 0 (V3 1 1 1)) 1 q). split.
  2: { split; [reflexivity|]. split; [reflexivity|]. intros i Hi. unfold set_pos.
       destruct (Nat.eqb_spec i 1); [lia|]. destruct (Nat.eqb_spec i 0); [lia|reflexivity]. }
  unfold place_phase, size_classes. cbn [rev List.app doubling]. rewrite rltb_f by lra. cbn [obind].
  unfold num_per_class. cbn [length Nat.eqb combine place_classes seq fold_left]. rewrite make_boxes5. cbn [place_class].
  assert (T0 : trunc ((1 - 0) / (10 / 5)) = 0%Z) by (apply trunc_is; [lia|lra]).
  rewrite (place_one_accept SBox zero3 cube10 0 ab 10 u (fun i => nth i [1; 1] 0) 1 boxes5 pos (fun _ => []) 0 0 0 (V3 1 1 1) 0 0 0);
    [|unfold zero3, cube10, random_coordinate; cbn [nth vx vy vz]; rewrite U0, U1, U2; f_equal; ring
     |reflexivity|exact T0|exact T0|exact T0|cbn; lia|intros o []].
  cbn [obind].
  rewrite (place_one_accept SBox zero3 cube10 0 ab 10 u (fun i => nth i [1; 1] 0) 1 boxes5 (set_pos pos 0 (V3 1 1 1)) _ 1 3 0 q a 0 0).
  - cbn [obind]. reflexivity.
  - unfold zero3, cube10, random_coordinate, q; cbn [nth vx vy vz]; rewrite U4, U5. f_equal; ring.
  - reflexivity.
  - apply trunc_is; [lia|]. unfold q, zero3, boxes5. cbn [vx sb_l].
    replace ((1 + 8 * u 3%nat - 0) / (10 / 5)) with ((1 + 8 * u 3%nat) / 2) by field. exact Hb.
  - exact T0.
  - exact T0.
  - unfold sb_index, sb_count, boxes5. cbn [sb_n]. lia.
  - intros o Ho. apply insert_particle_In in Ho. destruct Ho as [[]|(-> & Ho)].
    unfold covered, boxes5 in Ho. cbn [sb_n sb_l nth zero3 vx vy vz] in Ho. unfold index_range in Ho.
    replace (trunc ((1 - 1 - 0) / (10 / 5))) with 0%Z in Ho by (symmetry; apply trunc_is; [lia|lra]).
    replace (trunc ((1 + 1 - 0) / (10 / 5))) with 1%Z in Ho by (symmetry; apply trunc_is; [lia|lra]).
    destruct HT as [H3|HT].
    + exfalso. unfold sb_index in Ho. cbn [sb_n] in Ho.
      change (zrange (Z.max (0 - 1) 0) (Z.min (1 + 1) (5 - 1))) with [0; 1; 2]%Z in Ho.
      cbn [flat_map map List.app In] in Ho. lia.
    + unfold too_close. cbn [nth]. change (set_pos pos 0 (V3 1 1 1) 0%nat) with (V3 1 1 1). unfold q. cbn [vx vy vz].
      apply rltb_f. unfold Rsqr in HT. nra.
Qed.

(** Missing: distances beyond the size of a sub-box.  Requested distance 7, accepted 6. *)
Theorem C66_large_distance_refuted : exists u radii pos pos', unit_stream u /\ decreasing radii /\ radii = [1; 1] /\
  place_phase 2 SBox zero3 cube10 0 0 7 10 u radii pos = Ok (Some pos') /\
  distance (pos' 0%nat) (pos' 1%nat) < nth 0 radii 0 + nth 1 radii 0 + 7.
Proof.
  set (u := fun n : nat => if Nat.eqb n 3 then 1 else 0).
  destruct (place_two u 7 (fun _ => zero3) 4) as (pos' & E & P0 & P1 & _); try reflexivity; try lia.
  { change (u 3%nat) with 1. lra. }
  exists u, [1; 1], (fun _ => zero3), pos'. split; [|split; [|split; [reflexivity|split; [exact E|]]]].
  - intro n. unfold u. destruct (Nat.eqb n 3); lra.
  - cbn [decreasing In]. repeat split; try tauto; intros y; intuition (subst; lra).
  - rewrite P0, P1. change (u 3%nat) with 1. unfold distance. cbn [vx vy vz nth].
    replace ((1 - (1 + 8 * 1))² + (1 - 1)² + (1 - 1)²) with (8 * 8) by (unfold Rsqr; ring). rewrite sqrt_square by lra. lra.
Qed.
(** Missing: the boundary spheres.  They are placed anew like all the others, and the spheres created keep away from those new
    places, not from the spheres that were handed in: the sphere created here lies exactly on the boundary sphere. *)
Theorem C66_boundary_spheres_refuted : exists u u' junk curve boundary new, unit_stream u /\ unit_stream u' /\
  check_curve curve = true /\ boundary = [(V3 5 1 1, 1)] /\
  create_spheres 2 u u' junk SBox zero3 cube10 1000 0 (8 / 1000) 0 0 10 curve boundary = Ok (Some new) /\
  map fst new = [V3 5 1 1].
Proof.
  set (u' := fun n : nat => if Nat.eqb n 3 then / 2 else 0).
  exists (fun _ => 0), u', (fun _ => zero3), [mkClass 2 2 1], [(V3 5 1 1, 1)].
  destruct (place_two u' 0 (fun i => nth i (map fst (combine [V3 5 1 1; zero3] [1; 1])) zero3) 2) as (pos' & E & P0 & P1 & _);
    try reflexivity; try lia.
  { change (u' 3%nat) with (/ 2). lra. }
  { right. change (u' 3%nat) with (/ 2). unfold Rsqr. lra. }
  assert (CK : check_curve [mkClass 2 2 1] = true).
  { unfold check_curve, class_ok. cbn [forallb cmin cmax cfrac]. rewrite (rltb_f 2 2), (rltb_f 1 0), (rltb_f 1 1) by lra. reflexivity. }
  exists (combine [pos' 1%nat] [1]).
  split; [intro; lra|]. split; [intro n; unfold u'; destruct (Nat.eqb n 3); lra|].
  split; [exact CK|]. split; [reflexivity|]. split.
  - unfold create_spheres. rewrite CK. unfold take_phase. rewrite take_one.
    cbn [map fst snd List.app length seq sort_desc fold_right insert_desc]. rewrite rltb_f by lra.
    cbn [map]. replace (1 * (1 - 0)) with 1 by ring.
    cbn [combine map fst snd length seq]. cbn [combine map fst] in E. 
    match type of E with ?x = _ => match goal with |- obind ?y _ = _ => change y with x end end. rewrite E. cbn [obind]. reflexivity.
  - cbn [combine map fst]. rewrite P1. change (u' 3%nat) with (/ 2). f_equal. f_equal. lra.
Qed.
(** the hypotheses of C66_placed_apart_partial are met, by a run that finishes with both balls placed *)
Example C66_example : exists u pos', unit_stream u /\
  place_phase 2 SBox zero3 cube10 0 0 1 10 u [1; 1] (fun _ => zero3) = Ok (Some pos') /\
  (forall r, In r [1; 1] -> 0 <= r * (1 + 0) + 1 <= 2 * r / (1 - 0)) /\ 2 * nth 0 [1; 1] 0 / (1 - 0) <= 10.
Proof.
  set (u := fun n : nat => if Nat.eqb n 3 then / 2 else 0).
  destruct (place_two u 1 (fun _ => zero3) 2) as (pos' & E & _); try reflexivity; try lia.
  { change (u 3%nat) with (/ 2). lra. }
  { right. change (u 3%nat) with (/ 2). unfold Rsqr. lra. }
  exists u, pos'. split; [intro n; unfold u; destruct (Nat.eqb n 3); lra|]. split; [exact E|]. cbn [nth In]. split; [|lra]. intros r [<-|[<-|[]]]; lra.
Qed.

(** ** C67 *)
(** distance of the surfaces of particles [i] and [j] *)
Definition surface_gap (ps : list particle) (i j : nat) : R :=
  distance (fst (pget ps i)) (fst (pget ps j)) - (snd (pget ps i) + snd (pget ps j)).
Lemma gap_eq : forall ps i j, gap ps i j = surface_gap ps i j.
Proof.
  intros. unfold gap, surface_gap, surface_distance, distance, vnorm, vsub, pget. reflexivity.
Qed.
(** A value returned is the distance of some two particles (so it is never below the minimum), and it is infinite only if
    there are no two particles or the search missed all pairs. *)
Theorem C67_never_below_partial : forall volume len ps m, minimal_distance volume len ps = Some m ->
  exists i j, (i < j < length ps)%nat /\ m = surface_gap ps i j.
Proof.
  intros volume len ps m E. pose proof (minimal_distance_lemma volume len ps) as L.
  destruct (sub_box_divisions volume len (length ps) 10) as [[nx ny] nz]. rewrite E in L.
  destruct L as ((b & i & j & _ & Hij & _ & _ & Em) & _). exists i, j. split; [trivial|]. now rewrite <- gap_eq.
Qed.
(** Fewer than ten particles: the exact minimum over all pairs. *)
Theorem C67_few_particles_partial : forall volume len ps, (length ps < 10)%nat ->
  (forall i j, (i < j < length ps)%nat -> exists m, minimal_distance volume len ps = Some m /\ m <= surface_gap ps i j) /\
  (forall m, minimal_distance volume len ps = Some m -> exists i j, (i < j < length ps)%nat /\ m = surface_gap ps i j).
Proof.
  intros volume len ps HN. split; [|apply C67_never_below_partial].
  intros i j Hij. pose proof (minimal_distance_lemma volume len ps) as L. unfold sub_box_divisions in L.
  rewrite Nat.div_small in L by trivial.
  assert (HI : forall p r, In 0%Z (stat_boxes (1, 1, 1)%Z len p r)).
  { intros p r. unfold stat_boxes. cbn [flat_map map List.app In]. left. unfold stat_index. lia. }
  assert (HS : exists b i0 j0, (0 <= b < 1 * 1 * 1)%Z /\ (i0 < j0 < length ps)%nat /\
      In b (stat_boxes (1, 1, 1)%Z len (fst (pget ps i0)) (snd (pget ps i0))) /\
      In b (stat_boxes (1, 1, 1)%Z len (fst (pget ps j0)) (snd (pget ps j0))) /\ gap ps i j = gap ps i0 j0).
  { exists 0%Z, i, j. split; [lia|]. split; [trivial|]. split; [apply HI|]. split; [apply HI|reflexivity]. }
  destruct (minimal_distance volume len ps) as [m|]; cbn [is_min] in L.
  - exists m. split; trivial. rewrite <- gap_eq. apply L. exact HS.
  - exfalso. exact (L _ HS).
Qed.
(** Any number of particles: two particles of which a corner of the surrounding cubes lies in the same sub-box are compared.
    [n] boxes of the size [h] in one direction; [in_slice]: the coordinate lies in the slice k of them *)
Definition in_slice (n : Z) (h c : R) (k : Z) : Prop := (0 <= k < n)%Z /\ IZR k * h <= c < (IZR k + 1) * h.
Definition cube_corner (p : particle) (c : v3) : Prop :=
  (vx c = vx (fst p) - snd p \/ vx c = vx (fst p) + snd p) /\ (vy c = vy (fst p) - snd p \/ vy c = vy (fst p) + snd p) /\ (vz c = vz (fst p) - snd p \/ vz c = vz (fst p) + snd p).
Definition corner_in_box (div : Z * Z * Z) (len : v3) (p : particle) (x y z : Z) : Prop :=
  let '(nx, ny, nz) := div in exists c, cube_corner p c /\
    in_slice nx (vx len / IZR nx) (vx c) x /\ in_slice ny (vy len / IZR ny) (vy c) y /\ in_slice nz (vz len / IZR nz) (vz c) z.
Lemma in_slice_index : forall n h c k, 0 < h -> in_slice n h c k -> stat_index c h n = k.
Proof.
  intros n h c k Hh (Hk & A & B). unfold stat_index. rewrite (floorZ_eq _ k); [lia|]. split.
  - apply Rmult_le_reg_r with h; [exact Hh|]. unfold Rdiv. rewrite Rmult_assoc, Rinv_l by lra. lra.
  - apply Rmult_lt_reg_r with h; [exact Hh|]. unfold Rdiv. rewrite Rmult_assoc, Rinv_l by lra. lra.
Qed.
Lemma corner_box : forall nx ny nz len p x y z, 0 < vx len -> 0 < vy len -> 0 < vz len -> (0 < nx)%Z -> (0 < ny)%Z -> (0 < nz)%Z -> corner_in_box (nx, ny, nz) len p x y z ->
  In (x * ny * nz + y * nz + z)%Z (stat_boxes (nx, ny, nz) len (fst p) (snd p)) /\ (0 <= x * ny * nz + y * nz + z < nx * ny * nz)%Z.
Proof.
  intros nx ny nz len p x y z Lx Ly Lz Nx Ny Nz (c & (Cx & Cy & Cz) & Sx & Sy & Sz).
  assert (PH : forall L n, 0 < L -> (0 < n)%Z -> 0 < L / IZR n) by (intros L n HL Hn; apply Rdiv_lt_0_compat; [exact HL|apply IZR_lt; exact Hn]).
  pose proof (in_slice_index _ _ _ _ (PH _ _ Lx Nx) Sx) as Ix. pose proof (in_slice_index _ _ _ _ (PH _ _ Ly Ny) Sy) as Iy. pose proof (in_slice_index _ _ _ _ (PH _ _ Lz Nz) Sz) as Iz.
  split.
  - unfold stat_boxes. cbn [flat_map map List.app]. rewrite <- Ix at 1. rewrite <- Iy at 1. rewrite <- Iz at 1.
    destruct Cx as [->| ->], Cy as [->| ->], Cz as [->| ->]; cbn [In]; intuition.
  - destruct Sx as (Sx & _), Sy as (Sy & _), Sz as (Sz & _). assert (0 <= y * nz <= (ny - 1) * nz)%Z by nia. assert (0 <= x * (ny * nz) <= (nx - 1) * (ny * nz))%Z by nia. nia.
Qed.
Theorem C67_same_box_partial : forall volume len ps i j x y z, 0 < vx len -> 0 < vy len -> 0 < vz len -> (i < j < length ps)%nat ->
  let div := sub_box_divisions volume len (length ps) 10 in
  corner_in_box div len (pget ps i) x y z -> corner_in_box div len (pget ps j) x y z ->
  exists m, minimal_distance volume len ps = Some m /\ m <= surface_gap ps i j.
Proof.
  intros volume len ps i j x y z Lx Ly Lz Hij div Hi Hj. pose proof (minimal_distance_lemma volume len ps) as L. fold div in L.
  destruct div as [[nx ny] nz] eqn:Ed.
  assert (N : (0 < nx /\ 0 < ny /\ 0 < nz)%Z).
  { unfold div, sub_box_divisions in Ed. destruct (Nat.div (length ps) 10); injection Ed as <- <- <-; lia. }
  destruct N as (Nx & Ny & Nz).
  destruct (corner_box nx ny nz len _ x y z Lx Ly Lz Nx Ny Nz Hi) as (Bi & Br). destruct (corner_box nx ny nz len _ x y z Lx Ly Lz Nx Ny Nz Hj) as (Bj & _).
  assert (HS : exists b i0 j0, (0 <= b < nx * ny * nz)%Z /\ (i0 < j0 < length ps)%nat /\
      In b (stat_boxes (nx, ny, nz)%Z len (fst (pget ps i0)) (snd (pget ps i0))) /\
      In b (stat_boxes (nx, ny, nz)%Z len (fst (pget ps j0)) (snd (pget ps j0))) /\ gap ps i j = gap ps i0 j0).
  { exists (x * ny * nz + y * nz + z)%Z, i, j. auto. }
  destruct (minimal_distance volume len ps) as [m|]; cbn [is_min] in L.
  - exists m. split; trivial. rewrite <- gap_eq. apply L. exact HS.
  - exfalso. exact (L _ HS).
Qed.
Print Assumptions C67_same_box_partial.
(** Missing: ten or more.  Ten particles of radius 1/20 along a bar 8 x 1 x 1: the closest two lie on both sides of a sub-box face
    and are never compared. *)
Definition bar_x : list R := [/ 2; 1; 19 / 10; 21 / 10; 3; 4; 5; 6; 7; 15 / 2].
Definition bar : list particle := map (fun x => (V3 x (/ 2) (/ 2), / 20)) bar_x.
Lemma bar_div : sub_box_divisions 8 (V3 8 1 1) (length bar) 10 = (4, 1, 1)%Z.
Proof.
  unfold sub_box_divisions. change (length bar / 10)%nat with 1%nat. cbn [INR].
  replace (8 / 1) with (2 * 2 * 2) by field. rewrite cube_root by lra. cbn [vx vy vz]. unfold ceilZ.
  replace (floorZ (- (8 / 2))) with (-4)%Z by (symmetry; apply floorZ_eq; lra).
  replace (floorZ (- (1 / 2))) with (-1)%Z by (symmetry; apply floorZ_eq; lra). reflexivity.
Qed.
Example C67_same_box_example :
  corner_in_box (sub_box_divisions 8 (V3 8 1 1) (length bar) 10) (V3 8 1 1) (pget bar 0) 0 0 0 /\
  corner_in_box (sub_box_divisions 8 (V3 8 1 1) (length bar) 10) (V3 8 1 1) (pget bar 1) 0 0 0.
Proof.
  rewrite bar_div. split; [exists (V3 (/ 2 - / 20) (/ 2 - / 20) (/ 2 - / 20))|exists (V3 (1 - / 20) (/ 2 - / 20) (/ 2 - / 20))];
    (split; [unfold cube_corner; cbn [vx vy vz fst snd pget bar bar_x map nth]; auto|]); unfold in_slice; cbn [vx vy vz]; repeat split; try lia; lra.
Qed.
Lemma bar_gap : forall a b, distance (V3 a (/ 2) (/ 2)) (V3 b (/ 2) (/ 2)) = Rabs (a - b).
Proof.
  intros a b. unfold distance. cbn [vx vy vz]. replace ((a - b)² + (/ 2 - / 2)² + (/ 2 - / 2)²) with ((a - b)²) by (unfold Rsqr; ring).
  apply sqrt_Rsqr_abs.
Qed.
Lemma stat_index_is : forall c sub n k, IZR k <= c / sub < IZR k + 1 -> (0 <= k < n)%Z -> stat_index c sub n = k.
Proof. intros c sub n k H Hk. unfold stat_index. rewrite (floorZ_eq _ k H). lia. Qed.
Theorem C67_ten_particles_refuted : exists volume len ps i j, volume = vx len * vy len * vz len /\
  (forall k, (k < length ps)%nat -> ball_in_box (V3 0 0 0) len (fst (pget ps k)) (snd (pget ps k))) /\
  (i < j < length ps)%nat /\
  forall m, minimal_distance volume len ps = Some m -> surface_gap ps i j < m.
Proof.
  exists 8, (V3 8 1 1), bar, 2%nat, 3%nat. split; [cbn [vx vy vz]; ring|]. split; [|split; [cbn; lia|]].
  - intros k Hk. change (length bar) with 10%nat in Hk. unfold ball_in_box.
    do 10 (destruct k as [|k]; [cbn [pget nth bar bar_x map fst snd vx vy vz]; unfold pget; cbn [nth bar bar_x map fst snd vx vy vz]; lra|]). lia.
  - intros m E. pose proof (minimal_distance_lemma 8 (V3 8 1 1) bar) as L. rewrite bar_div, E in L.
    destruct L as ((b & i & j & _ & Hij & Hi & Hj & ->) & _). change (gap bar i j) with (surface_gap bar i j). change (length bar) with 10%nat in Hij.
    assert (HX : forall k, (k < 10)%nat -> pget bar k = (V3 (nth k bar_x 0) (/ 2) (/ 2), / 20)).
    { intros k Hk. do 10 (destruct k as [|k]; [reflexivity|]). lia. }
    unfold surface_gap. rewrite !HX by lia. cbn [fst snd]. rewrite !bar_gap. rewrite HX in Hi, Hj by lia. cbn [fst snd] in Hi, Hj.
    assert (H23 : ~ (i = 2%nat /\ j = 3%nat)).
    { intros (-> & ->). unfold stat_boxes in Hi, Hj. cbn [bar_x nth vx vy vz flat_map map List.app] in Hi, Hj.
      rewrite (stat_index_is (19 / 10 + - / 20) (8 / 4) 4 0), (stat_index_is (19 / 10 + / 20) (8 / 4) 4 0) in Hi by (lra || lia).
      rewrite (stat_index_is (21 / 10 + - / 20) (8 / 4) 4 1), (stat_index_is (21 / 10 + / 20) (8 / 4) 4 1) in Hj by (lra || lia).
      assert (Y1 : stat_index (/ 2 + - / 20) (1 / 1) 1 = 0%Z) by (apply stat_index_is; [lra|lia]).
      assert (Y2 : stat_index (/ 2 + / 20) (1 / 1) 1 = 0%Z) by (apply stat_index_is; [lra|lia]).
      rewrite Y1, Y2 in Hi, Hj. cbn [flat_map map List.app In] in Hi, Hj. lia. }
    assert (Inc : forall a c, (a < c < 10)%nat -> ~ (a = 2%nat /\ c = 3%nat) -> nth a bar_x 0 + / 2 <= nth c bar_x 0).
    { intros a c Hac Hn.
      do 10 (destruct a as [|a]; [do 10 (destruct c as [|c]; [try lia; cbn [nth bar_x]; try lra; exfalso; now apply Hn|]); lia|]). lia. }
    specialize (Inc i j Hij H23). rewrite (Rabs_left1 (nth i bar_x 0 - nth j bar_x 0)) by lra.
    clear - Inc. set (xi := nth i bar_x 0) in *. set (xj := nth j bar_x 0) in *. clearbody xi xj.
    cbn [nth bar_x]. rewrite (Rabs_left1 (19 / 10 - 21 / 10)) by lra. lra.
Qed.
Example C67_example : let ps := [(V3 1 1 1, 1 / 2); (V3 3 1 1, 1 / 2); (V3 5 1 1, 1 / 4)] in
  (length ps < 10)%nat /\ surface_gap ps 0 1 = 1.
Proof.
  cbv zeta. split; [cbn; lia|]. unfold surface_gap, pget. cbn [nth fst snd]. unfold distance. cbn [vx vy vz].
  replace ((1 - 3)² + (1 - 1)² + (1 - 1)²) with (2 * 2) by (unfold Rsqr; ring). rewrite sqrt_square by lra. lra.
Qed.

Print Assumptions C64_take_phase_partial.
Print Assumptions C64_terminates_partial.
Print Assumptions C64_zero_diameter_refuted.
Print Assumptions C64_boundary_refuted.
Print Assumptions C65_all_counted_partial.
Print Assumptions C65_empty_class_refuted.
Print Assumptions C66_placed_apart_partial.
Print Assumptions C66_large_distance_refuted.
Print Assumptions C66_boundary_spheres_refuted.
Print Assumptions C67_never_below_partial.
Print Assumptions C67_few_particles_partial.
Print Assumptions C67_ten_particles_refuted.
