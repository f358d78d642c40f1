(** C112: the status lines of the sphere simulation. *)
From Coq Require Import Reals ZArith List Bool Lia Lra Psatz.
From Verif Require Import TakeModel AdaptiveModel AdaptiveProofs Outcome Vec3 CollisionModel CollisionSpec CollisionProofs SubBoxModel SubBoxSpec EventModel SimModel SimSpec SimProofs5
  SimProofs6 SimPrintModel.
Import ListNotations.
Local Open Scope R_scope.

(** ** Specification *)
Definition rsum (l : list R) : R := fold_right Rplus 0 l.
(** the volume of the spheres and their kinetic energy (density 3 / (4 pi)) at the time [t] *)
Definition volume_at (f : Z -> sphere) (ids : list Z) (t : R) : R :=
  rsum (map (fun i => 4 / 3 * PI * radius_at (f i) t ^ 3) ids).
Definition energy_at (f : Z -> sphere) (ids : list Z) (t : R) : R :=
  rsum (map (fun i => / 2 * radius_at (f i) t ^ 3 * dot (svel (f i)) (svel (f i))) ids).
(** the radius of a sphere follows its growth law (C61: in all states of the simulation) *)
Definition lawful (s : sphere) : Prop := srad s = sradG s + sgrow s * (stime s - sreset s).
(** the two spheres are the same and move and grow alike at all times *)
Definition same_motion (a b : sphere) : Prop :=
  sid a = sid b /\ svel a = svel b /\ sgrow a = sgrow b /\ forall t, centre_at a t = centre_at b t /\ radius_at a t = radius_at b t.

(** ** Moving *)
Lemma move_twice s t t' : move_and_grow (move_and_grow s t) t' = move_and_grow s t'.
Proof.
  unfold move_and_grow. cbn [sid spos svel srad sradG srad0 sgrow stime sreset]. f_equal.
  apply v3_eq; unfold vadd, smul; cbn [vx vy vz]; ring.
Qed.
Lemma same_refl_motion a : same_motion a a.
Proof. repeat split; auto. Qed.
Lemma move_same s t : lawful s -> same_motion (move_and_grow s t) s.
Proof.
  intros L. unfold same_motion, move_and_grow. cbn [sid svel sgrow]. split; [auto|]. split; [auto|]. split; [auto|].
  intros u. unfold centre_at, radius_at. cbn [spos svel srad sgrow stime]. split.
  - apply v3_eq; unfold vadd, smul; cbn [vx vy vz]; ring.
  - rewrite L. ring.
Qed.
Lemma fold_sum (f : Z -> R) l : forall x, fold_left (fun x i => x + f i) l x = x + rsum (map f l).
Proof. induction l as [|i l IH]; intros x; cbn [fold_left map rsum fold_right]; [lra|]. rewrite IH. unfold rsum. lra. Qed.
Lemma rsum_ext (f h : Z -> R) l : (forall i, In i l -> f i = h i) -> rsum (map f l) = rsum (map h l).
Proof. intros H. f_equal. apply map_ext_in. exact H. Qed.
Lemma rsum_le (f h : Z -> R) l : (forall i, In i l -> f i <= h i) -> rsum (map f l) <= rsum (map h l).
Proof.
  induction l as [|i l IH]; intros H; cbn [map rsum fold_right]; [lra|].
  assert (rsum (map f l) <= rsum (map h l)) by (apply IH; intros; apply H; right; auto).
  pose proof (H i (or_introl eq_refl)). unfold rsum in *. lra.
Qed.
Lemma rsum_lt (f h : Z -> R) l k : In k l -> (forall i, In i l -> f i <= h i) -> f k < h k -> rsum (map f l) < rsum (map h l).
Proof.
  induction l as [|i l IH]; intros Hk H Hlt; [destruct Hk|]. cbn [map rsum fold_right].
  assert (L: rsum (map f l) <= rsum (map h l)) by (apply rsum_le; intros; apply H; right; auto).
  pose proof (H i (or_introl eq_refl)). destruct Hk as [->|Hk]; [unfold rsum in *; lra|].
  assert (rsum (map f l) < rsum (map h l)) by (apply IH; auto; intros; apply H; right; auto). unfold rsum in *. lra.
Qed.

Section Sync.
  Variable what : Z -> object.
  Variable ids : list Z.
  Hypothesis SPH : forall i, In i ids -> what i = OSphere.
  Hypothesis ND : NoDup ids.

  Lemma sync_spheres t s : (forall i, In i ids -> sph (sync what ids t s) i = move_and_grow (sph s i) t) /\
    (forall i, ~ In i ids -> sph (sync what ids t s) i = sph s i).
  Proof. apply (fold_move what ids SPH t ids s); auto. Qed.
  Lemma sync_rest t : forall l s, let s' := fold_left (fun s i => move what s i t) l s in
    content s' = content s /\ inboxes s' = inboxes s /\ evs s' = evs s /\ bar s' = bar s.
  Proof.
    induction l as [|i l IH]; intros s; cbn [fold_left]; [auto|]. destruct (IH (move what s i t)) as (A & B & C & D).
    cbn zeta. rewrite A, B, C, D. unfold move. destruct (is_sphere what i); auto.
  Qed.
  Lemma sync_motion t s i : (forall i, In i ids -> lawful (sph s i)) -> same_motion (sph (sync what ids t s) i) (sph s i).
  Proof.
    intros L. destruct (sync_spheres t s) as (A & B). destruct (in_dec Z.eq_dec i ids) as [H|H].
    - rewrite A by auto. apply move_same; auto.
    - rewrite B by auto. apply same_refl_motion.
  Qed.
End Sync.

(** * The line *)
(** It names the time and the fraction of the specimen's volume that the spheres fill at this time; for a dog bone there is no
    line, the volume is refused (C68). *)
Theorem C112_fraction : forall what ids spec t s, NoDup ids -> (forall i, In i ids -> what i = OSphere /\ lawful (sph s i)) ->
  match log_status what ids spec t s with
  | Ok (_, ln) => exists V, specimen_volume spec = Ok V /\ ln_time ln = t /\ ln_fraction ln = volume_at (sph s) ids t / V
  | Throw => specimen_volume spec = Throw
  | UB => specimen_volume spec = UB
  end.
Proof.
  intros what ids spec t s ND H. unfold log_status. destruct (specimen_volume spec) as [V| |]; cbn [omap obind]; auto.
  exists V. split; [auto|]. cbn [ln_time ln_fraction]. split; [auto|]. f_equal. unfold total_volume, volume_at. rewrite fold_sum, Rplus_0_l.
  apply rsum_ext. intros i Hi. destruct (sync_spheres what ids (fun i Hi => proj1 (H i Hi)) ND t s) as (SY & _). rewrite SY by auto.
  unfold sphere_volume, ball_volume, move_and_grow, radius_at. cbn [srad]. pose proof (proj2 (H i Hi)) as L. unfold lawful in L. rewrite L.
  replace (sradG (sph s i) + sgrow (sph s i) * (stime (sph s i) - sreset (sph s i)) + sgrow (sph s i) * (t - stime (sph s i)))
    with (sradG (sph s i) + sgrow (sph s i) * (t - sreset (sph s i))) by ring. ring.
Qed.

(** The energy of the line is taken before the spheres are brought to the time of the line: each sphere counts with the radius
    it had at its own last event.  This is never more than the energy at the time of the line, and it is that energy if no sphere
    has an older clock or none grows; in particular in the last line of Simulate, before which the spheres are synchronised. *)
Theorem C112_energy_partial : forall what ids spec t s s' ln, NoDup ids ->
  (forall i, In i ids -> what i = OSphere /\ lawful (sph s i) /\ proper (sph s i) /\ stime (sph s i) <= t) ->
  (log_status what ids spec t s = Ok (s', ln) ->
     ln_energy ln <= energy_at (sph s) ids t /\
     ((forall i, In i ids -> stime (sph s i) = t \/ sgrow (sph s i) = 0) -> ln_energy ln = energy_at (sph s) ids t)) /\
  (last_status what ids spec t s = Ok (s', ln) -> ln_energy ln = energy_at (sph s) ids t).
Proof.
  intros what ids spec t s s' ln ND H.
  assert (E: forall s0 s0' l0, log_status what ids spec t s0 = Ok (s0', l0) ->
    ln_energy l0 = rsum (map (fun i => / 2 * srad (sph s0 i) ^ 3 * dot (svel (sph s0 i)) (svel (sph s0 i))) ids)).
  { intros s0 s0' l0. unfold log_status. destruct (specimen_volume spec) as [V| |]; cbn [omap obind]; try discriminate. intros E.
    inversion E. cbn [ln_energy]. unfold total_energy. rewrite fold_sum, Rplus_0_l. apply rsum_ext. intros i _. unfold sphere_energy. field. }
  assert (Q: forall i, 0 <= dot (svel (sph s i)) (svel (sph s i))) by (intros i; unfold dot; nra).
  split.
  - intros EL. rewrite (E _ _ _ EL). split.
    + apply rsum_le. intros i Hi. destruct (H i Hi) as (_ & _ & (R0 & G0) & Ht).
      assert (R1: srad (sph s i) <= radius_at (sph s i) t) by (unfold radius_at; nra).
      apply Rmult_le_compat_r; [apply Q|]. apply Rmult_le_compat_l; [lra|]. apply pow_incr. lra.
    + intros K. apply rsum_ext. intros i Hi. replace (radius_at (sph s i) t) with (srad (sph s i)); [auto|].
      unfold radius_at. destruct (K i Hi) as [->| ->]; ring.
  - intros EL. unfold last_status in EL. rewrite (E _ _ _ EL). apply rsum_ext. intros i Hi.
    destruct (sync_spheres what ids (fun i Hi => proj1 (H i Hi)) ND t s) as (SY & _). rewrite SY by auto.
    destruct (H i Hi) as (_ & L & _). unfold move_and_grow, radius_at. cbn [srad svel]. unfold lawful in L. rewrite L.
    replace (sradG (sph s i) + sgrow (sph s i) * (stime (sph s i) - sreset (sph s i)) + sgrow (sph s i) * (t - stime (sph s i)))
      with (sradG (sph s i) + sgrow (sph s i) * (t - sreset (sph s i))) by ring. auto.
Qed.

(** As soon as one moving sphere grows and had its last event before the time of the line, the energy of the line is too small. *)
Theorem C112_energy_refuted : forall what ids spec t s s' ln k, NoDup ids ->
  (forall i, In i ids -> what i = OSphere /\ lawful (sph s i) /\ proper (sph s i) /\ stime (sph s i) <= t) ->
  In k ids -> stime (sph s k) < t -> 0 < sgrow (sph s k) -> svel (sph s k) <> V3 0 0 0 ->
  log_status what ids spec t s = Ok (s', ln) -> ln_energy ln < energy_at (sph s) ids t.
Proof.
  intros what ids spec t s s' ln k ND H Hk Ht Hg Hv. unfold log_status. destruct (specimen_volume spec) as [V| |]; cbn [omap obind]; try discriminate.
  intros E. inversion E. cbn [ln_energy]. unfold total_energy. rewrite fold_sum, Rplus_0_l.
  assert (Q: forall i, 0 <= dot (svel (sph s i)) (svel (sph s i))) by (intros i; unfold dot; nra).
  apply (rsum_lt _ _ _ k Hk).
  - intros i Hi. destruct (H i Hi) as (_ & _ & (R0 & G0) & Hti).
    assert (R1: srad (sph s i) <= radius_at (sph s i) t) by (unfold radius_at; nra). unfold sphere_energy.
    replace (1 / 2 * srad (sph s i) * srad (sph s i) * srad (sph s i)) with (/ 2 * srad (sph s i) ^ 3) by field.
    apply Rmult_le_compat_r; [apply Q|]. apply Rmult_le_compat_l; [lra|]. apply pow_incr. lra.
  - destruct (H k Hk) as (_ & _ & (R0 & _) & _). unfold sphere_energy.
    replace (1 / 2 * srad (sph s k) * srad (sph s k) * srad (sph s k)) with (/ 2 * srad (sph s k) ^ 3) by field.
    assert (R1: srad (sph s k) < radius_at (sph s k) t) by (unfold radius_at; nra).
    assert (P: 0 < dot (svel (sph s k)) (svel (sph s k))).
    { destruct (svel (sph s k)) as [a b c]. unfold dot. cbn [vx vy vz].
      destruct (Req_dec a 0) as [->|Na]; [|nra]. destruct (Req_dec b 0) as [->|Nb]; [|nra].
      destruct (Req_dec c 0) as [->|Nc]; [|nra]. exfalso. apply Hv. reflexivity. }
    apply Rmult_lt_compat_r; [exact P|]. apply Rmult_lt_compat_l; [lra|]. set (x := srad (sph s k)) in *. set (y := radius_at (sph s k) t) in *. clearbody x y. assert (x * x < y * y) by nra. cbn [pow]. nra.
Qed.

(** * The simulation *)
(** Writing a line changes no event, no box and no velocity, and all spheres go on moving and growing as before; the next event is
    the same, and after it every sphere has the same boxes and the same motion as without the line, the spheres of the event even
    the same data.  Partial: the predictions made later may differ in the tolerances of C56 and C57, so whole histories with and
    without lines are not compared. *)
Theorem C112_undisturbed_partial : forall what ids spec t s s' ln, NoDup ids ->
  (forall i, what i = OSphere <-> In i ids) -> (forall i, In i ids -> lawful (sph s i)) ->
  log_status what ids spec t s = Ok (s', ln) ->
  content s' = content s /\ inboxes s' = inboxes s /\ evs s' = evs s /\ bar s' = bar s /\ next_time s' = next_time s /\
  (forall i, same_motion (sph s' i) (sph s i)) /\
  (forall c d u, what c = OSphere \/ what d = OSphere ->
    match perform what (move what (move what s c u) d u) c d, perform what (move what (move what s' c u) d u) c d with
    | Ok s1, Ok s1' => content s1' = content s1 /\ inboxes s1' = inboxes s1 /\ evs s1' = evs s1 /\
        (forall i, same_motion (sph s1' i) (sph s1 i)) /\
        (forall i, In i ids -> i = c \/ i = d -> sph s1' i = sph s1 i)
    | Throw, Throw => True
    | UB, UB => True
    | _, _ => False
    end).
Proof.
  intros what ids spec t s s' ln ND W L EL. unfold log_status in EL. destruct (specimen_volume spec) as [V| |]; cbn [omap obind] in EL; try discriminate.
  assert (Es: s' = sync what ids t s) by (inversion EL; reflexivity). clear EL. subst s'. set (z := sync what ids t s) in *.
  assert (SPH: forall i, In i ids -> what i = OSphere) by (intros; apply W; auto).
  destruct (sync_rest what t ids s) as (A & B & C & D). cbn zeta in A, B, C, D. fold (sync what ids t s) in A, B, C, D. fold z in A, B, C, D.
  destruct (sync_spheres what ids SPH ND t s) as (S1 & S2). fold z in S1, S2.
  assert (M: forall i, same_motion (sph z i) (sph s i)) by (intros i; apply sync_motion; auto).
  split; [auto|]. split; [auto|]. split; [auto|]. split; [auto|]. split; [unfold next_time; rewrite C; auto|]. split; [auto|].
  intros c d u Hcd.
  assert (MV: forall k, In k ids -> move_and_grow (sph z k) u = move_and_grow (sph s k) u).
  { intros k Hk. rewrite S1 by auto. apply move_twice. }
  (* only the moved spheres are read *)
  set (m := move what (move what s c u) d u). set (m' := move what (move what z c u) d u).
  assert (R1: content m' = content m /\ inboxes m' = inboxes m /\ evs m' = evs m /\ bar m' = bar m).
  { unfold m, m', move. destruct (is_sphere what c), (is_sphere what d); cbn [content inboxes evs bar]; auto. }
  destruct R1 as (R1 & R2 & R3 & R4).
  assert (P1: forall k, In k ids -> k = c \/ k = d -> sph m' k = sph m k).
  { intros k Hk Hcdk. unfold m, m', move, is_sphere.
    destruct Hcdk as [->| ->]; rewrite (SPH _ Hk).
    - destruct (what d); cbn [sph]; unfold set_sphere; rewrite ?Z.eqb_refl; try (apply MV; auto).
      destruct (Z.eqb_spec c d) as [->|N]; [|apply MV; auto]. rewrite Z.eqb_refl, !move_twice. apply MV. auto.
    - destruct (what c); cbn [sph]; unfold set_sphere; rewrite ?Z.eqb_refl; try (apply MV; auto).
      destruct (Z.eqb_spec d c) as [->|N]; [rewrite !move_twice|]; apply MV; auto. }
  assert (P2: forall k, same_motion (sph m' k) (sph m k)).
  { intros k. destruct (in_dec Z.eq_dec k ids) as [Hk|Hk].
    - destruct (Z.eq_dec k c) as [E1|N1]; [rewrite P1 by auto; apply same_refl_motion|].
      destruct (Z.eq_dec k d) as [E2|N2]; [rewrite P1 by auto; apply same_refl_motion|].
      assert (X: sph m' k = sph z k /\ sph m k = sph s k).
      { unfold m, m', move. destruct (is_sphere what c), (is_sphere what d); cbn [sph]; rewrite ?set_sphere_other by auto; auto. }
      destruct X as (-> & ->). apply M.
    - assert (X: sph m' k = sph z k /\ sph m k = sph s k).
      { assert (NS: what k <> OSphere) by (intros F; apply W in F; contradiction).
        unfold m, m', move, is_sphere. destruct (what c) eqn:Ec, (what d) eqn:Ed; cbn [sph];
          rewrite ?set_sphere_other by (intros ->; congruence); auto. }
      destruct X as (-> & ->). apply M. }
  clearbody m m'.
  assert (WALL: forall (f : sphere -> sphere) k, In k ids -> k = c \/ k = d ->
     forall i, same_motion (set_sphere (sph m') k (f (sph m' k)) i) (set_sphere (sph m) k (f (sph m k)) i)).
  { intros f k Hk Hc i. rewrite P1 by auto. unfold set_sphere. destruct (Z.eqb i k); [apply same_refl_motion|apply P2]. }
  assert (WALL2: forall (f : sphere -> sphere) k, In k ids -> k = c \/ k = d -> forall i, In i ids -> i = c \/ i = d ->
     set_sphere (sph m') k (f (sph m' k)) i = set_sphere (sph m) k (f (sph m k)) i).
  { intros f k Hk Hc i Hi Hci. rewrite (P1 k) by auto. unfold set_sphere. destruct (Z.eqb i k); auto. }
  assert (BW: forall w k, In k ids -> k = c \/ k = d ->
    match perform_box_wall m w k, perform_box_wall m' w k with
    | Ok s1, Ok s1' => content s1' = content s1 /\ inboxes s1' = inboxes s1 /\ evs s1' = evs s1 /\
        (forall i, same_motion (sph s1' i) (sph s1 i)) /\ (forall i, In i ids -> i = c \/ i = d -> sph s1' i = sph s1 i)
    | Throw, Throw => True | UB, UB => True | _, _ => False end).
  { intros w k Hk Hc. unfold perform_box_wall. destruct (bw_kind w).
    - cbn [content inboxes evs sph]. split; [auto|]. split; [auto|]. split; [auto|]. split; [apply WALL; auto|apply WALL2; auto].
    - unfold in_outside. rewrite R2. destruct (existsb _ _).
      + unfold remove_sphere_from. rewrite R2. destruct (without _ _); [auto|]. cbn [content inboxes evs sph]. rewrite R1.
        split; [auto|]. split; [auto|]. split; [auto|]. split; [auto|exact P1].
      + unfold add_sphere_to. cbn [content inboxes evs sph]. rewrite R1, R2. split; [auto|]. split; [auto|]. split; [auto|]. split; [auto|exact P1]. }
  assert (CY: forall w k, In k ids -> k = c \/ k = d ->
    match perform_cylinder_wall m w k, perform_cylinder_wall m' w k with
    | Ok s1, Ok s1' => content s1' = content s1 /\ inboxes s1' = inboxes s1 /\ evs s1' = evs s1 /\
        (forall i, same_motion (sph s1' i) (sph s1 i)) /\ (forall i, In i ids -> i = c \/ i = d -> sph s1' i = sph s1 i)
    | Throw, Throw => True | UB, UB => True | _, _ => False end).
  { intros w k Hk Hc. unfold perform_cylinder_wall. rewrite (P1 k) by auto. destruct (perform_cylinder w (sph m k)) as [x| |]; cbn [omap obind]; auto.
    cbn [content inboxes evs sph]. split; [auto|]. split; [auto|]. split; [auto|]. split.
    - exact (WALL (fun _ => x) k Hk Hc).
    - exact (WALL2 (fun _ => x) k Hk Hc). }
  unfold perform. destruct (what c) as [|w|w b] eqn:Ec, (what d) as [|w'|w' b'] eqn:Ed; try (destruct Hcd; discriminate).
  - apply W in Ec, Ed. cbn [content inboxes evs sph]. rewrite (P1 c), (P1 d) by auto.
    split; [auto|]. split; [auto|]. split; [auto|]. unfold set_sphere. split; intros i.
    + destruct (Z.eqb i c); [apply same_refl_motion|]. destruct (Z.eqb i d); [apply same_refl_motion|apply P2].
    + intros Hi Hci. destruct (Z.eqb i c); [auto|]. destruct (Z.eqb i d); [auto|]. apply P1; auto.
  - apply BW; auto. apply W; auto.
  - apply CY; auto. apply W; auto.
  - apply BW; auto. apply W; auto.
  - apply CY; auto. apply W; auto.
Qed.

Print Assumptions C112_fraction.
Print Assumptions C112_energy_partial.
Print Assumptions C112_energy_refuted.
Print Assumptions C112_undisturbed_partial.

(** A sphere of radius 1 that moves with the speed 1 and grows at the rate 1, and a resting one, in a box of volume 1000, at the time 1:
    the line reports the energy 1/2, at that time it is 4. *)
Definition c112_sph (i : Z) : sphere := if Z.eqb i 0 then new_sphere 0 (V3 3 3 3) (V3 1 0 0) 1 1 else new_sphere 1 (V3 7 7 7) (V3 0 0 0) 1 0.
Definition c112_spec : specimen := mkSpecimen (mkBounds 3 2 (fun _ j => match j with O => 0 | _ => 10 end)) SBox (V3 10 10 10).
Definition c112_what (i : Z) : object :=
  if orb (Z.eqb i 0) (Z.eqb i 1) then OSphere else OCylinder (new_cylinder (V3 0 0 0) (V3 0 0 1) 1) 0.
Example C112_case : let s := mkSim c112_sph (fun _ => []) (fun _ => []) [] 0 in
  NoDup [0%Z; 1%Z] /\ (forall i, c112_what i = OSphere <-> In i [0%Z; 1%Z]) /\
  (forall i, In i [0%Z; 1%Z] -> c112_what i = OSphere /\ lawful (sph s i) /\ proper (sph s i) /\ stime (sph s i) <= 1) /\
  stime (sph s 0%Z) < 1 /\ 0 < sgrow (sph s 0%Z) /\ svel (sph s 0%Z) <> V3 0 0 0 /\
  energy_at (sph s) [0%Z; 1%Z] 1 = 4 /\
  exists s' ln, log_status c112_what [0%Z; 1%Z] c112_spec 1 s = Ok (s', ln) /\ ln_energy ln = / 2.
Proof.
  cbv zeta. cbn [sph].
  assert (S0: c112_sph 0 = new_sphere 0 (V3 3 3 3) (V3 1 0 0) 1 1) by reflexivity.
  assert (S1: c112_sph 1 = new_sphere 1 (V3 7 7 7) (V3 0 0 0) 1 0) by reflexivity.
  split; [repeat constructor; cbn [In]; lia|].
  split. { intros i. unfold c112_what. cbn [In]. destruct (Z.eqb_spec i 0) as [->|N]; [cbn [orb]; tauto|].
    destruct (Z.eqb_spec i 1) as [->|N1]; cbn [orb]; [tauto|]. split; [discriminate|]. intros [F|[F|[]]]; lia. }
  split. { intros i [<-|[<-|[]]]; (split; [reflexivity|]); rewrite ?S0, ?S1; unfold lawful, proper, new_sphere; cbn [srad sradG sgrow stime sreset]; lra. }
  rewrite S0. unfold new_sphere at 1 2 3. cbn [stime sgrow svel].
  split; [lra|]. split; [lra|]. split; [intros F; injection F; lra|].
  split. { unfold energy_at. cbn [map rsum fold_right]. rewrite S0, S1. unfold radius_at, dot, new_sphere. cbn [srad sgrow stime svel vx vy vz pow]. lra. }
  unfold log_status, specimen_volume, c112_spec. cbn [stype slen vx vy vz].
  destruct (rltb_spec (10 * 10 * 10) (tenm 14)) as [(E & F)|(E & F)].
  - exfalso. unfold tenm in F. assert (/ 10 ^ 14 <= 1). { rewrite <- Rinv_1. apply Rinv_le_contravar; [lra|]. cbn [pow]. lra. } lra.
  - rewrite E. cbn [omap obind]. do 2 eexists. split; [reflexivity|]. cbn [ln_energy]. unfold total_energy. cbn [fold_left sph]. rewrite S0, S1.
    unfold sphere_energy, dot, new_sphere. cbn [srad svel vx vy vz]. lra.
Qed.
