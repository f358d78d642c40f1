(** Lemmas for GeometryConcrete (C91, C92) *)
From Coq Require Import Reals ZArith List Bool Lia Lra Psatz Permutation.
From Verif Require Import Outcome AdaptiveModel AdaptiveProofs Vec3 CollisionModel CollisionSpec CollisionProofs SubBoxModel SubBoxProofs
  EventModel SimModel SimSpec TakeModel TakeSpec TakeProofs TakeProofs2 TakeProofs3 PropTake PropSim GeometryModel.
Import ListNotations.
Local Open Scope R_scope.

(** ** the initial radius never changes *)
(** what no step of the simulation changes *)
Definition law (x : sphere) : R * R * R * R := (srad0 x, sradG x, sreset x, sgrow x).
Lemma set_sphere_r0 f i x k : law x = law (f i) -> law (set_sphere f i x k) = law (f k).
Proof. intros H. unfold set_sphere. destruct (Z.eqb_spec k i) as [->|]; auto. Qed.
Section Radius0.
  Variables (what : Z -> object) (nb : Z).
  Definition same0 (s s' : sim) : Prop := forall i, law (sph s' i) = law (sph s i).
  Lemma same0_trans a b c : same0 a b -> same0 b c -> same0 a c.
  Proof. intros H1 H2 i. rewrite H2. apply H1. Qed.
  Lemma move_same0 s c t : same0 s (move what s c t).
  Proof. intros i. unfold move. destruct (is_sphere what c); [|reflexivity]. cbn [sph]. apply set_sphere_r0. reflexivity. Qed.
  Lemma perform_same0 s c1 c2 s' : perform what s c1 c2 = Ok s' -> same0 s s'.
  Proof.
    assert (W : forall w i s', perform_box_wall s w i = Ok s' -> same0 s s').
    { intros w i s1. unfold perform_box_wall, remove_sphere_from. destruct (bw_kind w).
      - intros E. injection E as <-. intros k. cbn [sph]. apply set_sphere_r0. reflexivity.
      - destruct (in_outside s w i); [destruct (without _ _)|]; intros E; try discriminate; injection E as <-; intros k; reflexivity. }
    assert (Cy : forall w i s', perform_cylinder_wall s w i = Ok s' -> same0 s s').
    { intros w i s1. unfold perform_cylinder_wall. destruct (perform_cylinder w (sph s i)) as [x| |] eqn:E1; cbn [omap obind]; try discriminate.
      intros E. injection E as <-. intros k. cbn [sph]. apply set_sphere_r0. revert E1. unfold perform_cylinder.
      repeat match goal with |- context [if ?c then _ else _] => destruct c end; try discriminate; intros E1; injection E1 as <-; reflexivity. }
    unfold perform. destruct (what c1), (what c2); try (apply W); try (apply Cy); intros E; injection E as <-; try (intros k; reflexivity).
    intros k. cbn [sph].
    rewrite set_sphere_r0.
    - apply set_sphere_r0. reflexivity.
    - symmetry. apply set_sphere_r0. reflexivity.
  Qed.
  Lemma perform_next_same0 s s' : perform_next what s = Ok s' -> same0 s s'.
  Proof.
    unfold perform_next. destruct (evs s) as [|e l]; [discriminate|].
    destruct (perform _ _ _ _) as [s1| |] eqn:E1; cbn [obind]; try discriminate.
    set (s2 := with_events s1 _). destruct (create_in_boxes _ _ _ _ _) as [l1| |]; cbn [obind]; try discriminate.
    destruct (create_in_boxes _ _ _ _ _) as [l2| |]; cbn [omap]; try discriminate. intros E. injection E as <-.
    apply same0_trans with s1; [|intros k; reflexivity].
    apply same0_trans with (move what (move what s (efst e) (etime e)) (esnd e) (etime e)); [|eapply perform_same0; eassumption].
    eapply same0_trans; apply move_same0.
  Qed.
  Lemma set_barrier_same0 t s s' : set_barrier what nb t s = Ok s' -> same0 s s'.
  Proof. unfold set_barrier. destruct (rebuild _ _ _ _); cbn [omap]; try discriminate. intros E. injection E as <-. intros k. reflexivity. Qed.
  Lemma reset_same0 f L L' : reset what nb f L = Ok L' -> same0 (lsim L) (lsim L').
  Proof.
    unfold reset. destruct (set_barrier _ _ _ _) as [s| |] eqn:E; cbn [omap]; try discriminate. intros E1. injection E1 as <-. cbn [lsim]. eapply set_barrier_same0. eassumption.
  Qed.
  Lemma pass_same0 em tm to la L st L' : pass what nb em tm to la L = Ok (st, L') -> same0 (lsim L) (lsim L').
  Proof.
    unfold pass. destruct (orb _ _); [intros E; injection E as <- <-; intros k; reflexivity|].
    cbv zeta. destruct (if reqb _ _ then _ else _) as [L1| |] eqn:E1; cbn [obind]; try discriminate.
    assert (S1 : same0 (lsim L) (lsim L1)).
    { destruct (reqb _ _) in E1; [apply reset_same0 in E1; exact E1|injection E1 as <-; intros k; reflexivity]. }
    destruct (if la then _ else _) as [L2| |] eqn:E2; cbn [obind]; try discriminate.
    assert (S2 : same0 (lsim L1) (lsim L2)).
    { destruct la; [apply reset_same0 in E2; exact E2|injection E2 as <-; intros k; reflexivity]. }
    destruct (perform_next what (lsim L2)) as [s| |] eqn:E3; cbn [obind]; try discriminate. apply perform_next_same0 in E3.
    destruct (andb _ _); intros E; injection E as <- <-; cbn [lsim]; eapply same0_trans; eauto; eapply same0_trans; eauto.
  Qed.
  Lemma passes_same0 em tm to la n : forall L st L', passes what nb em tm to la n L = Ok (st, L') -> same0 (lsim L) (lsim L').
  Proof.
    induction n as [|n IH]; intros L st L'; cbn [passes]; [intros E; injection E as <- <-; intros k; reflexivity|].
    destruct (passes what nb em tm to la n L) as [[st1 L1]| |] eqn:E1; cbn [obind]; try discriminate.
    specialize (IH _ _ _ E1). destruct st1; intros E; try (injection E as <- <-; exact IH). apply pass_same0 in E. eapply same0_trans; eauto.
  Qed.
  Lemma sync_same0 ids t : forall s, same0 s (sync what ids t s).
  Proof.
    unfold sync. induction ids as [|i l IH]; intros s; cbn [fold_left]; [intros k; reflexivity|]. eapply same0_trans; [apply move_same0|apply IH].
  Qed.
  Lemma simulate_same0 em tm to la n b ids s st s' : simulate what nb em tm to la n b ids s = Ok (st, s') -> same0 s s'.
  Proof.
    unfold simulate, start. destruct (set_barrier what nb b s) as [s1| |] eqn:E1; cbn [omap obind]; try discriminate.
    destruct (passes _ _ _ _ _ _ _ _) as [[st1 L]| |] eqn:E2; cbn [omap]; try discriminate. intros E. injection E as <- <-.
    apply set_barrier_same0 in E1. apply passes_same0 in E2. cbn [lsim] in E2. eapply same0_trans; [eassumption|]. eapply same0_trans; [eassumption|]. apply sync_same0.
  Qed.
End Radius0.

(** ** the particles form a packing *)
Lemma id_inj a b : (FIRST_ID + Z.of_nat a)%Z = (FIRST_ID + Z.of_nat b)%Z -> a = b.
Proof. lia. Qed.
Lemma ids_in n i : In i (particle_ids n) <-> exists k, (k < n)%nat /\ i = (FIRST_ID + Z.of_nat k)%Z.
Proof.
  unfold particle_ids. rewrite in_map_iff. split; [intros (k & <- & Hk); apply in_seq in Hk; exists k; split; [lia|reflexivity]|intros (k & Hk & ->); exists k; split; [reflexivity|apply in_seq; lia]].
Qed.
Lemma created_at ps vel rel ab k : created ps vel rel ab (FIRST_ID + Z.of_nat k) =
  new_sphere (FIRST_ID + Z.of_nat k) (fst (nth k ps (V3 0 0 0, 0))) (vel k) (snd (nth k ps (V3 0 0 0, 0))) (snd (nth k ps (V3 0 0 0, 0)) * rel + ab).
Proof. unfold created. replace (Z.to_nat (FIRST_ID + Z.of_nat k - FIRST_ID)) with k by lia. reflexivity. Qed.
Section Numbers.
  Variables (g : grid) (x y z : Z).
  Hypotheses (Hx : (0 <= x < gnx g)%Z) (Hy : (0 <= y < gny g)%Z) (Hz : (0 <= z < gnz g)%Z).
  Lemma box_number : (0 <= box_index g x y z < num_boxes g)%Z /\ (box_index g x y z / (gny g * gnz g) = x)%Z /\
    ((box_index g x y z / gnz g) mod gny g = y)%Z /\ (box_index g x y z mod gnz g = z)%Z.
  Proof.
    unfold box_index, clampZ, num_boxes. rewrite !Z.min_l, !Z.max_l by lia. set (nx := gnx g) in *. set (ny := gny g) in *. set (nz := gnz g) in *.
    set (b := (ny * nz * x + nz * y + z)%Z).
    assert (Hr : (0 <= nz * y + z < ny * nz)%Z) by (split; [nia|]; assert (nz * (y + 1) <= nz * ny)%Z by (apply Z.mul_le_mono_nonneg_l; lia); lia).
    assert (Hb : (0 <= b < nx * ny * nz)%Z) by (split; [unfold b; nia|]; assert ((ny * nz) * (x + 1) <= (ny * nz) * nx)%Z by (apply Z.mul_le_mono_nonneg_l; lia); unfold b; lia).
    split; [exact Hb|].
    assert (E4 : (b / nz = ny * x + y)%Z) by (symmetry; apply (Z.div_unique_pos _ nz _ z); unfold b; lia).
    split; [symmetry; apply (Z.div_unique_pos _ (ny * nz) x (nz * y + z)); unfold b; lia|]. rewrite E4.
    split; [symmetry; apply (Z.mod_unique_pos _ ny x y); lia|symmetry; apply (Z.mod_unique_pos _ nz (ny * x + y) z); unfold b; lia].
  Qed.
  Lemma box_wall_object cyl k : (k < 6)%nat -> object_of g cyl (- (6 * box_index g x y z + Z.of_nat k + 1)) = OWall (build_wall g x y z k).
  Proof.
    intros Hk. destruct box_number as (Hb & E3 & E5 & E6). set (b := box_index g x y z) in *. unfold object_of.
    destruct (Z.leb_spec 0 (- (6 * b + Z.of_nat k + 1))); [lia|]. cbv zeta.
    replace (- - (6 * b + Z.of_nat k + 1) - 1)%Z with (6 * b + Z.of_nat k)%Z by ring.
    destruct (Z.ltb_spec (6 * b + Z.of_nat k) (6 * num_boxes g)); [|lia].
    assert (E1 : ((6 * b + Z.of_nat k) / 6 = b)%Z) by (symmetry; apply (Z.div_unique_pos _ 6 b (Z.of_nat k)); lia).
    assert (E2 : ((6 * b + Z.of_nat k) mod 6 = Z.of_nat k)%Z) by (symmetry; apply (Z.mod_unique_pos _ 6 b (Z.of_nat k)); lia).
    rewrite E1, E2, E3, E5, E6, Nat2Z.id. reflexivity.
  Qed.
  Lemma cylinder_objects cyl r : map (object_of g cyl) (cylinder_ids g r (box_index g x y z)) =
    if gets_cylinder g r x y then [OCylinder cyl (box_index g x y z)] else [].
  Proof.
    destruct box_number as (Hb & E3 & E5 & _). unfold cylinder_ids. rewrite E3, E5. set (b := box_index g x y z) in *.
    destruct (gets_cylinder g r x y); [|reflexivity]. cbn [map]. f_equal. unfold object_of.
    destruct (Z.leb_spec 0 (- (6 * num_boxes g + b + 1))); [lia|]. cbv zeta.
    replace (- - (6 * num_boxes g + b + 1) - 1)%Z with (6 * num_boxes g + b)%Z by ring.
    destruct (Z.ltb_spec (6 * num_boxes g + b) (6 * num_boxes g)); [lia|]. f_equal. lia.
  Qed.
End Numbers.
(** balls strictly below the upper faces *)
Definition below_upper (lo len : v3) (p : particle) : Prop :=
  vx (fst p) + snd p < vx lo + vx len /\ vy (fst p) + snd p < vy lo + vy len /\ vz (fst p) + snd p < vz lo + vz len.
Lemma dist_eq p q : CollisionSpec.distance p q = TakeSpec.distance p q.
Proof. unfold CollisionSpec.distance, TakeSpec.distance, vnorm, dot, vsub, Rsqr. cbn [vx vy vz]. reflexivity. Qed.
Lemma tdist_sym p q : TakeSpec.distance p q = TakeSpec.distance q p.
Proof. unfold TakeSpec.distance. f_equal. unfold Rsqr. ring. Qed.
Lemma packing_of lo len nx ny nz ps vel rel ab cyl :
  let g := new_grid nx ny nz lo len in
  (0 < nx)%Z -> (0 < ny)%Z -> (0 < nz)%Z -> 0 < vx len -> 0 < vy len -> 0 < vz len -> 0 <= rel -> 0 <= ab ->
  (forall k, (k < length ps)%nat -> 0 < snd (pget ps k) /\ ball_in_box lo len (fst (pget ps k)) (snd (pget ps k)) /\ below_upper lo len (pget ps k)) ->
  (forall i j, (i < j < length ps)%nat -> snd (pget ps i) + snd (pget ps j) <= TakeSpec.distance (fst (pget ps i)) (fst (pget ps j))) ->
  packing g (object_of g cyl) wall_ids (particle_ids (length ps)) (created ps vel rel ab).
Proof.
  intros g Hx Hy Hz Lx Ly Lz Hrel Hab HB HA.
  assert (Px : 0 < IZR nx) by (apply IZR_lt; exact Hx). assert (Py : 0 < IZR ny) by (apply IZR_lt; exact Hy). assert (Pz : 0 < IZR nz) by (apply IZR_lt; exact Hz).
  constructor.
  - cbn. repeat split; try assumption; apply Rdiv_lt_0_compat; assumption.
  - intros x y z Bx By Bz. unfold wall_ids, build_walls. rewrite !map_map. apply map_ext_in. intros k Hk. apply in_seq in Hk. apply box_wall_object; auto. lia.
  - unfold particle_ids. apply FinFun.Injective_map_NoDup; [intros a b; apply id_inj|apply seq_NoDup].
  - intros i Hi. apply ids_in in Hi. destruct Hi as (k & Hk & ->). unfold object_of, FIRST_ID. destruct (Z.leb_spec 0 (100000 + Z.of_nat k)); [reflexivity|lia].
  - intros i Hi. apply ids_in in Hi. destruct Hi as (k & Hk & ->). destruct (HB k Hk) as (Hr & _). do 4 eexists. split; [apply created_at|]. fold (pget ps k). split; [exact Hr|nra].
  - intros i a Hi Ha. apply ids_in in Hi. destruct Hi as (k & Hk & ->). destruct (HB k Hk) as (Hr & (B1 & B2 & B3) & (U1 & U2 & U3)).
    rewrite created_at. fold (pget ps k). set (p := fst (pget ps k)) in *. set (r := snd (pget ps k)) in *. clearbody p r. unfold SimSpec.lo, hi, centre_at, radius_at, plane.
    destruct a as [|[|[|a]]]; try lia; cbn [vnth vadd smul vx vy vz new_sphere spos svel stime srad sgrow gn gh g new_grid gnx gny gnz ghx ghy ghz gorg].
    + replace (IZR nx * (vx len / IZR nx)) with (vx len) by (field; lra). lra.
    + replace (IZR ny * (vy len / IZR ny)) with (vy len) by (field; lra). lra.
    + replace (IZR nz * (vz len / IZR nz)) with (vz len) by (field; lra). lra.
  - intros i j Hi Hj Hij. apply ids_in in Hi, Hj. destruct Hi as (k & Hk & ->). destruct Hj as (m & Hm & ->).
    assert (S : forall a b, (a < b < length ps)%nat -> ~ overlap_at (created ps vel rel ab (FIRST_ID + Z.of_nat a)) (created ps vel rel ab (FIRST_ID + Z.of_nat b)) 0).
    { intros a b Hab'. specialize (HA a b Hab'). rewrite !created_at. fold (pget ps a) (pget ps b). unfold overlap_at, centre_at, radius_at.
      cbn [new_sphere spos svel stime srad sgrow]. rewrite dist_eq. intros O.
      assert (Z0 : forall p v, vadd p (smul (0 - 0) v) = p) by (intros [a1 a2 a3] [b1 b2 b3]; unfold vadd, smul; cbn [vx vy vz]; f_equal; ring).
      rewrite !Z0 in O. lra. }
    destruct (Nat.lt_total k m) as [L|[->|L]]; [apply S; lia|congruence|]. intros O. apply (S m k); [lia|]. revert O. unfold overlap_at. rewrite !dist_eq, tdist_sym. intros O. rewrite Rplus_comm. exact O.
Qed.

(** ** what the simulation returns *)
Lemma divisions_pos volume len num per nx ny nz : sub_box_divisions volume len num per = (nx, ny, nz) -> (0 < nx)%Z /\ (0 < ny)%Z /\ (0 < nz)%Z.
Proof. unfold sub_box_divisions. destruct (Nat.div num per); intros E; injection E as <- <- <-; lia. Qed.
Definition good_start (lo len : v3) (ps : list particle) : Prop :=
  (forall k, (k < length ps)%nat -> 0 < snd (pget ps k) /\ ball_in_box lo len (fst (pget ps k)) (snd (pget ps k)) /\ below_upper lo len (pget ps k)) /\
  (forall i j, (i < j < length ps)%nat -> snd (pget ps i) + snd (pget ps j) <= TakeSpec.distance (fst (pget ps i)) (fst (pget ps j))).
Lemma simulated vel timeout late n gc lo len volume per ps time_end st l :
  0 < vx len -> 0 < vy len -> 0 < vz len -> 0 <= g_rel gc -> 0 <= g_abs gc -> good_start lo len ps ->
  simulate_particles vel timeout late n gc SBox lo len volume per ps time_end = Ok (st, l) ->
  length l = length ps /\
  exists T, 0 <= T /\ (st = Stopped -> (forall k, timeout k = false) -> time_end <= T) /\
    (forall k, (k < length ps)%nat -> exists s, nth_error l k = Some s /\ srad0 s = snd (pget ps k) /\
       srad s = snd (pget ps k) + (snd (pget ps k) * g_rel gc + g_abs gc) * T /\ ball_in_box lo len (spos s) (srad s)) /\
    (forall i j a b, (i < j)%nat -> nth_error l i = Some a -> nth_error l j = Some b -> srad a + srad b <= TakeSpec.distance (spos a) (spos b)).
Proof.
  intros Lx Ly Lz Hrel Hab (GB & GA) E. unfold simulate_particles in E. destruct (sub_box_divisions volume len (length ps) per) as [[nx ny] nz] eqn:ED.
  destruct (divisions_pos _ _ _ _ _ _ _ ED) as (Nx & Ny & Nz). set (g := new_grid nx ny nz lo len) in *. set (ids := particle_ids (length ps)) in *. set (sph0 := created ps vel (g_rel gc) (g_abs gc)) in *. cbv zeta in E.
  set (what := object_of g (specimen_cylinder g (vx len / 2) (vz len))) in *.
  pose proof (packing_of lo len nx ny nz ps vel (g_rel gc) (g_abs gc) (specimen_cylinder (new_grid nx ny nz lo len) (vx len / 2) (vz len)) Nx Ny Nz Lx Ly Lz Hrel Hab GB GA) as PK. cbv zeta in PK. fold g ids sph0 in PK. fold what in PK.
  destruct (packing_added _ _ _ _ _ PK) as (b & AD). rewrite AD in E. cbn [obind] in E.
  destruct (simulate _ _ _ _ _ _ _ _ _ _) as [[st' s]| |] eqn:ES; cbn [omap] in E; try discriminate. injection E as <- <-.
  pose proof (C61_final_packing_partial g what wall_ids ids sph0 b (g_barrier gc) (g_events gc) time_end timeout late n st' s PK AD ES) as (T & HT & HR & HD & HI & HS).
  pose proof (simulate_same0 _ _ _ _ _ _ _ _ _ _ _ _ ES) as S0. cbn [sph initial_sim] in S0.
  assert (Lids : length ids = length ps) by (unfold ids, particle_ids; rewrite map_length, seq_length; reflexivity).
  assert (Nid : forall k, (k < length ps)%nat -> nth_error ids k = Some (FIRST_ID + Z.of_nat k)%Z).
  { intros k Hk. unfold ids, particle_ids. rewrite (map_nth_error _ _ _ (d := k)); [reflexivity|]. rewrite (nth_error_nth' _ 0%nat) by (rewrite seq_length; exact Hk). rewrite seq_nth by exact Hk. reflexivity. }
  assert (Iid : forall k, (k < length ps)%nat -> In (FIRST_ID + Z.of_nat k)%Z ids) by (intros k Hk; apply ids_in; exists k; auto).
  assert (Px : 0 < IZR nx) by (apply IZR_lt; exact Nx). assert (Py : 0 < IZR ny) by (apply IZR_lt; exact Ny). assert (Pz : 0 < IZR nz) by (apply IZR_lt; exact Nz).
  split; [rewrite map_length; exact Lids|]. exists T. split; [exact HT|]. split; [exact HS|]. split.
  - intros k Hk. exists (sph s (FIRST_ID + Z.of_nat k)%Z). split; [apply map_nth_error, Nid; exact Hk|].
    split; [specialize (S0 (FIRST_ID + Z.of_nat k)%Z); change (law (sph s (FIRST_ID + Z.of_nat k)%Z) = law (sph0 (FIRST_ID + Z.of_nat k)%Z)) in S0; unfold sph0 in S0; rewrite created_at in S0; injection S0 as S0 _ _ _; exact S0|].
    destruct (HR _ (Iid k Hk)) as (_ & Rk). split; [rewrite Rk; unfold sph0; rewrite created_at; reflexivity|].
    unfold ball_in_box. pose proof (HI _ 0%nat (Iid k Hk) ltac:(lia)) as I0. pose proof (HI _ 1%nat (Iid k Hk) ltac:(lia)) as I1. pose proof (HI _ 2%nat (Iid k Hk) ltac:(lia)) as I2.
    unfold plane in I0, I1, I2. cbn [vnth gn gh g new_grid gnx gny gnz ghx ghy ghz gorg] in I0, I1, I2.
    replace (IZR nx * (vx len / IZR nx)) with (vx len) in I0 by (field; lra). replace (IZR ny * (vy len / IZR ny)) with (vy len) in I1 by (field; lra). replace (IZR nz * (vz len / IZR nz)) with (vz len) in I2 by (field; lra). lra.
  - intros i j x y Hij Ei Ej. assert (Hj : (j < length ps)%nat) by (rewrite <- Lids, <- (map_length (sph s)); apply nth_error_Some; congruence).
    rewrite (map_nth_error _ _ _ (Nid i ltac:(lia))) in Ei. rewrite (map_nth_error _ _ _ (Nid j Hj)) in Ej. injection Ei as <-. injection Ej as <-.
    rewrite <- dist_eq. apply HD; [apply Iid; lia|apply Iid; lia|]. intros Eq. apply id_inj in Eq. lia.
Qed.

(** ** the place phase draws its positions from the random numbers *)
Definition drawn (lo len : v3) (u : nat -> R) (r : R) (p : v3) : Prop := exists k,
  p = V3 (random_coordinate r (vx lo) (vx len) (u k)) (random_coordinate r (vy lo) (vy len) (u (S k))) (random_coordinate r (vz lo) (vz len) (u (S (S k)))).
Section Drawn.
  Variables (ty : specimen_type) (lo len : v3) (rel ab : R) (maxTries : Z) (u : nat -> R) (rad : nat -> R).
  Lemma place_one_drawn b pos t i : forall fuel k tries p k', place_one ty lo len rel ab maxTries u rad fuel b pos t i k tries = Ok (Some (p, k')) ->
    drawn lo len u (rad i) p.
  Proof.
    induction fuel as [|f IH]; intros k tries p k'; cbn [place_one]; [discriminate|]. cbv zeta.
    match goal with |- obind ?a _ = _ -> _ => destruct a as [[|]| |] end; cbn [obind]; try discriminate; [apply IH|].
    destruct (andb _ _); [|discriminate]. destruct (existsb _ _).
    - destruct (Z.ltb _ _); [discriminate|apply IH].
    - intros E. injection E as <- _. exists k. reflexivity.
  Qed.
  Lemma place_class_drawn fuel b : forall count i k pos t pos' k', place_class ty lo len rel ab maxTries u rad fuel b count i k pos t = Ok (Some (pos', k')) ->
    forall j, (i <= j < i + count -> drawn lo len u (rad j) (pos' j))%nat /\ (~ (i <= j < i + count) -> pos' j = pos j)%nat.
  Proof.
    induction count as [|c IH]; intros i k pos t pos' k'; cbn [place_class].
    - intros E. injection E as <- _. intros j. split; [lia|reflexivity].
    - destruct (place_one _ _ _ _ _ _ _ _ _ _ _ _ _ _ _) as [[[p k1]|]| |] eqn:E1; cbn [obind]; try discriminate. intros E j.
      destruct (IH _ _ _ _ _ _ E j) as (A & B). split; intros Hj.
      + destruct (Nat.eq_dec j i) as [->|N]; [|apply A; lia]. rewrite B by lia. unfold set_pos. rewrite Nat.eqb_refl. eapply place_one_drawn. exact E1.
      + rewrite B by lia. unfold set_pos. destruct (Nat.eqb_spec j i); [lia|reflexivity].
  Qed.
  Lemma place_classes_drawn fuel shr : forall cs added k pos pos', place_classes ty lo len rel ab maxTries u rad fuel shr cs added k pos = Ok (Some pos') ->
    forall j, (added <= j < added + fold_right (fun c n => snd c + n) 0 cs -> drawn lo len u (rad j) (pos' j))%nat /\ (j < added -> pos' j = pos j)%nat.
  Proof.
    induction cs as [|[size count] cs IH]; intros added k pos pos'; cbn [place_classes].
    - intros E. injection E as <-. intros j. cbn [fold_right]. split; [lia|reflexivity].
    - destruct (place_class _ _ _ _ _ _ _ _ _ _ _ _ _ _ _) as [[[p k1]|]| |] eqn:E1; cbn [obind]; try discriminate. intros E j.
      destruct (IH _ _ _ _ E j) as (A & B). destruct (place_class_drawn _ _ _ _ _ _ _ _ _ E1 j) as (C & D). cbn [fold_right snd]. split; intros Hj.
      + destruct (Nat.lt_ge_cases j (added + count)) as [L|L]; [rewrite B by exact L; apply C; lia|apply A; lia].
      + rewrite B by lia. apply D. lia.
  Qed.
End Drawn.
Lemma nsum_fold f : forall n a, nsum f a n = fold_right Nat.add 0%nat (map f (seq a n)).
Proof. induction n as [|n IH]; intros a; cbn [nsum seq map fold_right]; [reflexivity|]. rewrite IH. reflexivity. Qed.
Lemma fold_snd {A} (l : list (A * nat)) : fold_right (fun c n => snd c + n)%nat 0%nat l = fold_right Nat.add 0%nat (map snd l).
Proof. induction l as [|x l IH]; cbn; [reflexivity|]. now rewrite IH. Qed.
Lemma map_nth_seq {A} (d : A) (l : list A) : map (fun c => nth c l d) (seq 0 (length l)) = l.
Proof.
  apply nth_ext with (d := d) (d' := d); [rewrite map_length, seq_length; reflexivity|]. intros k Hk. rewrite map_length, seq_length in Hk.
  rewrite (nth_indep _ d (nth 0 l d)) by (rewrite map_length, seq_length; exact Hk). rewrite (map_nth (fun c => nth c l d)). now rewrite seq_nth.
Qed.
Lemma placed_sum sizes radii : length (num_per_class sizes radii) = length sizes ->
  fold_right (fun c n => snd c + n)%nat 0%nat (combine sizes (num_per_class sizes radii)) = placed_number sizes radii.
Proof.
  intros HL. unfold placed_number. rewrite nsum_fold, <- HL, map_nth_seq, fold_snd, map_snd_combine by (symmetry; exact HL). reflexivity.
Qed.
Definition strict_stream (u : nat -> R) : Prop := forall n, 0 <= u n < 1.
(** every size class of the place phase has a particle (otherwise some particles are not placed, see C65) *)
Definition classes_filled (radii : list R) : Prop := forall fuel sizes, size_classes fuel radii = Ok (Some sizes) ->
  forall c, (c < length sizes)%nat -> ~ size_class_empty sizes radii c.
Lemma drawn_below lo len u r p : strict_stream u -> 2 * r < vx len -> 2 * r < vy len -> 2 * r < vz len -> drawn lo len u r p -> below_upper lo len (p, r).
Proof.
  intros Hu Hx Hy Hz (k & ->). unfold below_upper, random_coordinate. cbn [fst snd vx vy vz].
  pose proof (Hu k). pose proof (Hu (S k)). pose proof (Hu (S (S k))). repeat split; nra.
Qed.
Definition good_curve (len : v3) (curve : list gclass) : Prop :=
  Forall (fun c => 0 < cmin c <= cmax c /\ 0 <= cfrac c /\ cmax c < vx len /\ cmax c < vy len /\ cmax c < vz len) curve.
Lemma created_good fuel u u' junk ty lo len volume shr frac tries curve taken ps :
  unit_stream u -> strict_stream u' -> good_curve len curve -> 0 <= volume * frac -> 0 <= shr < 1 ->
  take_phase fuel u junk volume shr frac curve [] = Some taken -> taken <> [] -> classes_filled (map snd taken) ->
  create_spheres fuel u u' junk ty lo len volume shr frac 0 0 tries curve [] = Ok (Some ps) ->
  map snd ps = map snd taken /\ good_start lo len ps /\
  (ty = SCylinder -> forall k, (k < length ps)%nat ->
     (vx (fst (pget ps k)) - (vx lo + vx len / 2))² + (vy (fst (pget ps k)) - (vy lo + vx len / 2))² <= (vx len / 2 - snd (pget ps k))² /\
     0 <= vx len / 2 - snd (pget ps k)).
Proof.
  intros Hu Hu' HC Hv Hs ET Hne Hfill E. unfold create_spheres in E. rewrite ET in E. destruct (check_curve curve); [|discriminate].
  destruct (C64_take_phase_partial fuel u junk volume shr frac curve taken Hu) as (groups & HG & _ & HD & HP); auto.
  { eapply Forall_impl; [|exact HC]. cbv beta. intros c Hc. lra. } { lra. }
  set (radii := map snd taken) in *.
  assert (Hr : forall r, In r radii -> 0 < r /\ 2 * r / (1 - shr) < vx len /\ 2 * r / (1 - shr) < vy len /\ 2 * r / (1 - shr) < vz len).
  { intros r Hr. apply (Permutation_in _ HP) in Hr. apply in_map_iff in Hr. destruct Hr as (q & <- & Hq).
    apply in_concat in Hq. destruct Hq as (g & Hg & Hq).
    assert (X : exists c, In c curve /\ cmin c / 2 <= q <= cmax c / 2).
    { clear - HG Hg Hq. induction HG as [|c g' cs gs H HG IH]; [contradiction|]. destruct Hg as [<-|Hg].
      - exists c. split; [now left|]. rewrite Forall_forall in H. apply H. exact Hq.
      - destruct (IH Hg) as (c' & Hc' & X). exists c'. split; [now right|exact X]. }
    destruct X as (c & Hc & X). unfold good_curve in HC. rewrite Forall_forall in HC. specialize (HC c Hc).
    replace (2 * (q * (1 - shr)) / (1 - shr)) with (2 * q) by (field; lra). split; [nra|lra]. }
  assert (Hne' : radii <> []) by (unfold radii; destruct taken; [congruence|discriminate]).
  assert (H0 : In (nth 0 radii 0) radii) by (apply nth_In; destruct radii; [congruence|cbn; lia]).
  assert (Hdiv : forall r, 0 < r -> r <= 2 * r / (1 - shr)).
  { intros r Pr. apply Rmult_le_reg_r with (1 - shr); [lra|]. replace (2 * r / (1 - shr) * (1 - shr)) with (2 * r) by (field; lra). nra. }
  set (junkpos := fun i => nth i (map fst taken) (V3 0 0 0)) in *.
  destruct (place_phase fuel ty lo len shr 0 0 tries u' radii junkpos) as [[pos|]| |] eqn:EP; cbn [obind] in E; try discriminate.
  destruct (C66_placed_apart_partial fuel ty lo len shr 0 0 tries u' radii junkpos) as (_ & P); auto.
  { intro k. specialize (Hu' k). lra. } { intros r Ir. apply Hr. exact Ir. } { left; apply (Hr _ H0). } { left; apply (Hr _ H0). } { left; apply (Hr _ H0). }
  { intros r Ir. destruct (Hr r Ir) as (Pr & _). specialize (Hdiv r Pr). lra. }
  destruct (P pos EP) as (sizes & ES & _ & PB & PC & PA). clear P.
  destruct (C65_all_counted_partial fuel radii sizes HD Hne' (fun r Ir => proj1 (Hr r Ir)) ES (Hfill fuel sizes ES)) as (CL & _ & CN).
  rewrite CN in PB, PC, PA.
  assert (LR : length radii = length taken) by (unfold radii; apply map_length).
  change (skipn (length (@nil particle)) (combine (map pos (seq 0 (length taken))) radii)) with (combine (map pos (seq 0 (length taken))) radii) in E.
  injection E as <-.
  assert (EL : length (map pos (seq 0 (length taken))) = length radii) by (rewrite map_length, seq_length; symmetry; exact LR).
  split; [apply map_snd_combine; exact EL|].
  assert (LC : @length particle (combine (map pos (seq 0 (length taken))) radii) = length radii) by (transitivity (Nat.min (length (map pos (seq 0 (length taken)))) (length radii)); [exact (combine_length _ _)|]; rewrite EL; apply Nat.min_id).
  assert (G : forall k, (k < length radii)%nat -> pget (combine (map pos (seq 0 (length taken))) radii) k = (pos k, nth k radii 0)).
  { intros k Hk. unfold pget. transitivity (nth k (map pos (seq 0 (length taken))) (V3 0 0 0), nth k radii 0); [exact (combine_nth _ _ k (V3 0 0 0) 0 EL)|]. f_equal.
    rewrite (nth_indep _ _ (pos 0%nat)) by (rewrite EL; exact Hk). rewrite map_nth, seq_nth by (rewrite <- LR; exact Hk). reflexivity. }
  assert (DR : forall k, (k < length radii)%nat -> drawn lo len u' (nth k radii 0) (pos k)).
  { intros k Hk. unfold place_phase in EP. rewrite ES in EP. cbn [obind] in EP.
    apply (place_classes_drawn _ _ _ _ _ _ _ _ _ _ _ _ _ _ _ EP). rewrite placed_sum by exact CL. rewrite CN. lia. }
  unfold good_start. rewrite LC. split; [split|].
  - intros k Hk. rewrite (G k Hk). cbn [fst snd]. assert (Ik : In (nth k radii 0) radii) by (apply nth_In; exact Hk). destruct (Hr _ Ik) as (R0 & R1 & R2 & R3).
    assert (2 * nth k radii 0 <= 2 * nth k radii 0 / (1 - shr)).
    { apply Rmult_le_reg_r with (1 - shr); [lra|]. replace (2 * nth k radii 0 / (1 - shr) * (1 - shr)) with (2 * nth k radii 0) by (field; lra). nra. }
    split; [exact R0|]. split; [apply PB; exact Hk|]. apply (drawn_below lo len u'); try lra; auto.
  - intros i j Hij. rewrite !G by lia. cbn [fst snd]. specialize (PA i j Hij). lra.
  - intros Ty k Hk. rewrite (G k Hk). cbn [fst snd]. destruct (PC Ty k Hk) as (C1 & C2).
    replace (vx len / 2 - nth k radii 0 * (1 + 0) - 0) with (vx len / 2 - nth k radii 0) in C1, C2 by ring. split; [exact C1|exact C2].
Qed.
