(** GeometryConcrete with a cylinder specimen: what the simulation returns. *)
From Coq Require Import List ZArith Arith Bool Reals Lia Lra Psatz Permutation.
From Verif Require Import Outcome AdaptiveModel AdaptiveProofs Vec3 CollisionModel CollisionSpec CollisionProofs CollisionProofs2 SubBoxModel SubBoxProofs PropSubBox
  TakeModel TakeSpec TakeProofs TakeProofs3 PropTake SimModel SimSpec SimProofs SimProofs6 PropSim CylProofs5 PropCylSim GeometryModel GeometryProofs PropGeometry.
Import ListNotations.
Local Open Scope R_scope.

(** the ball with centre [c] and radius [r] is in the upright cylinder of the box with the corners [a] and [b] *)
Definition ball_in_cylinder (a b : v3) (c : v3) (r : R) : Prop :=
  sqrt ((vx c - (vx a + vx b) / 2)² + (vy c - (vy a + vy b) / 2)²) + r <= (vx b - vx a) / 2 /\ vz a + r <= vz c <= vz b - r.

Lemma simulate_radius what nb em te timeout late n b0 ids s0 st s : NoDup ids -> (forall i, In i ids -> what i = OSphere) ->
  simulate what nb em te timeout late n b0 ids s0 = Ok (st, s) ->
  forall i, In i ids -> srad (sph s i) = sradG (sph s i) + sgrow (sph s i) * (stime (sph s i) - sreset (sph s i)).
Proof.
  intros ND SPH E i Hi. unfold simulate in E. destruct (start _ _ _ _) as [L| |]; cbn [obind] in E; try discriminate.
  destruct (passes _ _ _ _ _ _ _ _) as [[st1 L1]| |]; cbn [omap] in E; try discriminate. injection E as _ <-.
  destruct (fold_move what ids SPH (lglobal L1) ids (lsim L1) (fun i H => H) ND) as (M & _).
  fold (sync what ids (lglobal L1) (lsim L1)) in M. rewrite M by exact Hi. reflexivity.
Qed.

Section Cylinder.
  Variables (vel : nat -> v3) (timeout late : nat -> bool) (n : nat) (gc : geometry_concrete) (lo : v3) (D H : R) (ps : list particle).
  Hypotheses (HD : 0 < D) (HH : 0 < H) (Hrel : 0 <= g_rel gc) (Hab : 0 <= g_abs gc).
  Let len := V3 D D H.
  Hypothesis GS : good_start lo len ps.
  Hypothesis GC : forall k, (k < length ps)%nat ->
    (vx (fst (pget ps k)) - (vx lo + D / 2))² + (vy (fst (pget ps k)) - (vy lo + D / 2))² <= (D / 2 - snd (pget ps k))² /\ 0 <= D / 2 - snd (pget ps k).
  Let ids := particle_ids (length ps).
  Let sph0 := created ps vel (g_rel gc) (g_abs gc).

  Lemma cylinder_packing_of nx nz tl : (2 <= nx)%Z -> (0 < nz)%Z -> 0 <= tl ->
    (forall k, (k < length ps)%nat -> snd (pget ps k) + (snd (pget ps k) * g_rel gc + g_abs gc) * tl < D / 2) ->
    let g := new_grid nx nx nz lo len in
    cylinder_packing nx nz lo D H (object_of g (specimen_cylinder g (D / 2) H)) wall_ids (cylinder_ids g (D / 2)) ids sph0 tl.
  Proof.
    intros Nx Nz Ht Hs g. destruct GS as (GB & GA). constructor.
    - auto.
    - apply packing_of; auto; lia.
    - cbv zeta. fold len g. intros x y z Hx Hy Hz. apply cylinder_objects; assumption.
    - intros i Hi. apply ids_in in Hi. destruct Hi as (k & Hk & ->). unfold sph0. rewrite created_at. fold (pget ps k).
      destruct (GC k Hk) as (C1 & C2). destruct (GB k Hk) as (Hr & (_ & _ & B3) & _). set (p := fst (pget ps k)) in *. set (r := snd (pget ps k)) in *. clearbody p r.
      unfold in_cylinder, SimSpec.lo, hi, centre_at, radius_at. cbn [new_sphere spos svel stime srad sgrow vadd smul vx vy vz vnth].
      replace (vx p + (0 - 0) * vx (vel k)) with (vx p) by ring. replace (vy p + (0 - 0) * vy (vel k)) with (vy p) by ring.
      split; [|cbn [len vz] in B3; lra]. fold (Rsqr (vx p - (vx lo + D / 2))) (Rsqr (vy p - (vy lo + D / 2))).
      apply sqrt_le_1_alt in C1. rewrite sqrt_Rsqr in C1 by exact C2. lra.
    - intros i Hi. apply ids_in in Hi. destruct Hi as (k & Hk & ->). unfold sph0. rewrite created_at. fold (pget ps k). unfold radius_at.
      cbn [new_sphere stime srad sgrow]. rewrite Rminus_0_r. apply Hs. exact Hk.
  Qed.

  Lemma simulated_cyl volume per time_end st l : (2 <= fst (fst (sub_box_divisions volume len (length ps) per)))%Z ->
    (forall k, (k < length ps)%nat -> snd (pget ps k) + (snd (pget ps k) * g_rel gc + g_abs gc) * Rmax 0 time_end < D / 2) ->
    (forall s, In s l -> srad s < D / 2) ->
    simulate_particles vel timeout late n gc SCylinder lo len volume per ps time_end = Ok (st, l) ->
    length l = length ps /\
    exists T, 0 <= T /\ (st = Stopped -> (forall k, timeout k = false) -> time_end <= T) /\
      (forall k, (k < length ps)%nat -> exists s, nth_error l k = Some s /\ srad0 s = snd (pget ps k) /\
         srad s = snd (pget ps k) + (snd (pget ps k) * g_rel gc + g_abs gc) * T /\ ball_in_cylinder lo (vadd lo len) (spos s) (srad s)) /\
      (forall i j a b, (i < j)%nat -> nth_error l i = Some a -> nth_error l j = Some b -> srad a + srad b <= TakeSpec.distance (spos a) (spos b)).
  Proof.
    intros Hn Hend Hl E. unfold simulate_particles in E. destruct (sub_box_divisions volume len (length ps) per) as [[nx ny] nz] eqn:ED. cbn [fst] in Hn.
    destruct (divisions_pos _ _ _ _ _ _ _ ED) as (_ & _ & Nz).
    assert (ny = nx). { unfold sub_box_divisions, len in ED. cbn [vx vy vz] in ED. destruct (Nat.div _ _); injection ED as <- <- <-; reflexivity. }
    subst ny. change (vx len) with D in E. change (vz len) with H in E. cbv zeta in E.
    set (g := new_grid nx nx nz lo len) in *. set (what := object_of g (specimen_cylinder g (D / 2) H)) in *. fold ids sph0 in E.
    pose proof (cylinder_packing_of nx nz (Rmax 0 time_end) Hn Nz (Rmax_l _ _) Hend) as CP0. cbv zeta in CP0. fold g in CP0. fold what in CP0.
    pose proof (cp_packing _ _ _ _ _ _ _ _ _ _ _ CP0) as PK. fold len g in PK.
    destruct (packing_added _ _ _ _ _ PK) as (b & AD). rewrite AD in E. cbn [obind] in E.
    destruct (simulate _ _ _ _ _ _ _ _ _ _) as [[st' s]| |] eqn:ES; cbn [omap] in E; try discriminate. injection E as <- <-.
    pose proof (simulate_same0 _ _ _ _ _ _ _ _ _ _ _ _ ES) as S0.
    pose proof (simulate_radius _ _ _ _ _ _ _ _ _ _ _ _ (pk_ids _ _ _ _ _ PK) (pk_sphere _ _ _ _ _ PK) ES) as SR.
    assert (Lids : length ids = length ps) by (unfold ids, particle_ids; rewrite map_length, seq_length; reflexivity).
    assert (Nid : forall k, (k < length ps)%nat -> nth_error ids k = Some (FIRST_ID + Z.of_nat k)%Z).
    { intros k Hk. unfold ids, particle_ids. rewrite (map_nth_error _ _ _ (d := k)); [reflexivity|]. rewrite (nth_error_nth' _ 0%nat) by (rewrite seq_length; exact Hk). rewrite seq_nth by exact Hk. reflexivity. }
    assert (Iid : forall k, (k < length ps)%nat -> In (FIRST_ID + Z.of_nat k)%Z ids) by (intros k Hk; apply ids_in; exists k; auto).
    assert (Law : forall k, (k < length ps)%nat -> srad0 (sph s (FIRST_ID + Z.of_nat k)%Z) = snd (pget ps k) /\
       srad (sph s (FIRST_ID + Z.of_nat k)%Z) = snd (pget ps k) + (snd (pget ps k) * g_rel gc + g_abs gc) * stime (sph s (FIRST_ID + Z.of_nat k)%Z)).
    { intros k Hk. specialize (S0 (FIRST_ID + Z.of_nat k)%Z). specialize (SR _ (Iid k Hk)). change (law (sph s (FIRST_ID + Z.of_nat k)%Z) = law (sph0 (FIRST_ID + Z.of_nat k)%Z)) in S0.
      unfold sph0 in S0. rewrite created_at in S0. fold (pget ps k) in S0. unfold law in S0. cbn [new_sphere srad0 sradG sreset sgrow] in S0.
      set (i := (FIRST_ID + Z.of_nat k)%Z) in *. clearbody i. injection S0 as A1 A2 A3 A4. split; [exact A1|]. rewrite SR, A2, A3, A4. ring. }
    split; [rewrite map_length; exact Lids|].
    (* the limit can be moved to the final time *)
    assert (Fin : exists T tl, T <= tl /\ time_end <= tl /\ (ps <> [] -> forall k, (k < length ps)%nat -> stime (sph s (FIRST_ID + Z.of_nat k)%Z) = T) /\
       cylinder_packing nx nz lo D H what wall_ids (cylinder_ids g (D / 2)) ids sph0 tl).
    { destruct (C61_cylinder_final_partial nx nz lo D H what wall_ids (cylinder_ids g (D / 2)) ids sph0 (Rmax 0 time_end) b (g_barrier gc) (g_events gc) time_end timeout late n st' s CP0 (Rmax_r _ _) AD ES)
        as (T & HT & HS & _). exists T, (Rmax T (Rmax 0 time_end)). split; [apply Rmax_l|]. split; [eapply Rle_trans; [apply Rmax_r|apply Rmax_r]|].
      split; [intros _ k Hk; apply HS, Iid; exact Hk|]. apply cylinder_packing_of; auto; [eapply Rle_trans; [exact HT|apply Rmax_l]|].
      intros k Hk. unfold Rmax at 1. destruct (Rle_dec _ _) as [_|Nl]; [apply Hend; exact Hk|].
      destruct (Law k Hk) as (_ & R1). rewrite (HS _ (Iid k Hk)) in R1. rewrite <- R1. apply Hl. apply in_map. apply Iid. exact Hk. }
    destruct Fin as (T0 & tl & Htl & Hte & HT0 & CP).
    destruct (C61_cylinder_final_partial nx nz lo D H what wall_ids (cylinder_ids g (D / 2)) ids sph0 tl b (g_barrier gc) (g_events gc) time_end timeout late n st' s CP Hte AD ES)
      as (T & HT & HS & HSt & Fine). exists T. split; [exact HT|]. split; [exact HSt|].
    destruct ps as [|p0 ps'] eqn:Eps; [split; [intros k Hk; cbn in Hk; lia|intros i j x y _ Ei; destruct i; discriminate]|].
    rewrite <- Eps in *.
    assert (TE : T = T0). { assert (K0 : (0 < length ps)%nat) by (rewrite Eps; cbn; lia). rewrite <- (HS _ (Iid 0%nat K0)). apply HT0; [rewrite Eps; discriminate|exact K0]. }
    destruct (Fine ltac:(lra)) as (_ & F2 & F3). split.
    - intros k Hk. exists (sph s (FIRST_ID + Z.of_nat k)%Z). split; [apply map_nth_error, Nid; exact Hk|]. destruct (Law k Hk) as (L1 & L2). split; [exact L1|].
      split; [rewrite L2, (HS _ (Iid k Hk)); reflexivity|]. destruct (F3 _ (Iid k Hk)) as (G1 & G2). unfold ball_in_cylinder, len, vadd. cbn [vx vy vz].
      replace ((vx lo + (vx lo + D)) / 2) with (vx lo + D / 2) by field. replace ((vy lo + (vy lo + D)) / 2) with (vy lo + D / 2) by field.
      replace ((vx lo + D - vx lo) / 2) with (D / 2) by field. split; [exact G1|lra].
    - intros i j x y Hij Ei Ej. assert (Hj : (j < length ps)%nat) by (rewrite <- Lids, <- (map_length (sph s)); apply nth_error_Some; congruence).
      rewrite (map_nth_error _ _ _ (Nid i ltac:(lia))) in Ei. rewrite (map_nth_error _ _ _ (Nid j Hj)) in Ej. injection Ei as <-. injection Ej as <-.
      rewrite <- dist_eq. apply F2; [apply Iid; lia|apply Iid; lia|]. intros Eq. apply id_inj in Eq. lia.
  Qed.
End Cylinder.
