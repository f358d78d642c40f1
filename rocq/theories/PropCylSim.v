(** C61 for cylinder specimens: no two spheres overlap and none leaves the cylinder during the event-driven simulation. *)
From Coq Require Import Reals ZArith List Bool Lia Lra Psatz.
From Verif Require Import Outcome AdaptiveModel AdaptiveProofs Vec3 CollisionModel CollisionSpec CollisionProofs CollisionProofs2
  PropCollision EventModel EventSpec EventProofs SubBoxModel SubBoxSpec SubBoxProofs SubBoxProofs2 PropSubBox SimModel SimSpec SimProofs SimProofs2 SimProofs3
  SimProofs4 SimProofs5 SimProofs6 PropSim CylProofs1 CylProofs2 CylProofs3 CylProofs4 CylProofs5.
Import ListNotations.
Local Open Scope R_scope.

(** For every packing in a cylinder specimen with any number of spheres and of divisions (the same number, two or more, in
    both directions across, C63_one_division_refuted): AddSpheresToBoxes and the first SetTimeBarrier succeed.  If the
    pass [m] is defined, then at every moment from the event before it up to its own event, both included, no two spheres
    overlap and all of them are in the cylinder, the event moves no sphere and changes no radius, and time does not run
    backwards; all this as long as no sphere is as wide as the cylinder ([tlim]).  If a pass throws, all is well up to [tlim]:
    it was the bounce of a sphere as wide as the cylinder.
    Partial: exact arithmetic, no print-outs, and the limits of [cylinder_packing]. *)
Theorem C61_cylinder_partial : forall n nz org D H what walls cylinders ids sph0 tlim barrier0 events_max time_max timeout late,
  cylinder_packing n nz org D H what walls cylinders ids sph0 tlim ->
  let g := new_grid n n nz org (V3 D D H) in
  exists b L0, add_spheres g (map sph0 ids) walls = Ok b /\
    start what (num_boxes g) barrier0 (initial_sim (num_boxes g) sph0 (cylinder_boxes what cylinders b)) = Ok L0 /\
    sph (lsim L0) = sph0 /\ lglobal L0 = 0 /\
    let run := fun m => passes what (num_boxes g) events_max time_max timeout late m L0 in
    let fine := fun L t =>
      (forall i j, In i ids -> In j ids -> i <> j -> ~ overlap_at (sph (lsim L) i) (sph (lsim L) j) t) /\
      (forall i, In i ids -> in_cylinder org D H (sph (lsim L) i) t) in
    forall m st L, time_max <= tlim -> run m = Ok (st, L) -> lglobal L <= tlim ->
      (run (S m) = Throw -> forall t, lglobal L <= t <= tlim -> fine L t) /\
      forall st' L', run (S m) = Ok (st', L') ->
        lglobal L <= lglobal L' /\
        (forall t, lglobal L <= t <= lglobal L' -> t <= tlim -> fine L t) /\
        (lglobal L' <= tlim ->
         forall i, In i ids -> centre_at (sph (lsim L') i) (lglobal L') = centre_at (sph (lsim L) i) (lglobal L') /\
                               radius_at (sph (lsim L') i) (lglobal L') = radius_at (sph (lsim L) i) (lglobal L')).
Proof.
  intros n nz org D H what walls cylinders ids sph0 tlim barrier0 em tm timeout late CP g.
  set (p := V3 (vx org + D / 2) (vy org + D / 2) (vz org + H)). set (r := D / 2). set (hascyl := gets_cylinder g r).
  destruct (packing_added _ _ _ _ _ (cp_packing _ _ _ _ _ _ _ _ _ _ _ CP)) as (b & AD). fold g in AD. exists b.
  destruct (cs_start n nz org D H what walls cylinders ids sph0 tlim b CP AD barrier0) as (L0 & E & I & S1 & S2). fold g p r hascyl in E, I. exists L0.
  split; [exact AD|]. split; [exact E|]. split; [auto|]. split; [auto|]. cbv zeta. intros m st L Htm E1 Hl.
  pose proof (cs_grid _ _ _ _ _ _ _ _ _ _ _ CP) as OK. pose proof (pk_sphere _ _ _ _ _ (cp_packing _ _ _ _ _ _ _ _ _ _ _ CP)) as SPH.
  fold g in OK. pose proof (cs_X0 n nz org D H) as GX0. pose proof (cs_X1 n nz org D H _ _ _ _ _ _ CP) as GX1.
  pose proof (cs_Y0 n nz org D H) as GY0. pose proof (cs_Y1 n nz org D H _ _ _ _ _ _ CP) as GY1.
  pose proof (cs_ENC n nz org D H _ _ _ _ _ _ CP) as ENC. fold g p r hascyl in GX0, GX1, GY0, GY1, ENC.
  assert (Fine: forall L t, cfine g ids p r (lsim L) t ->
     (forall i j, In i ids -> In j ids -> i <> j -> ~ overlap_at (sph (lsim L) i) (sph (lsim L) j) t) /\
     (forall i, In i ids -> in_cylinder org D H (sph (lsim L) i) t)).
  { intros L1 t (A & B). split; [exact A|]. intros i Hi. apply (cs_inside n nz org D H _ _ _ _ _ _ CP). apply B. exact Hi. }
  destruct (cpasses_ok g what ids p r hascyl tlim OK SPH GX0 GX1 GY0 GY1 ENC sph0 em tm timeout late L0 I Htm m st L E1) as [HL|F]; [|lra].
  assert (Q: forall to la, (exists st' L', pass what (num_boxes g) em tm to la L = Ok (st', L') /\ clinv g what ids p r hascyl tlim sph0 L' /\ cquiet g ids p r L L') \/
     (pass what (num_boxes g) em tm to la L = UB) \/
     ((forall t, lglobal L <= t <= tlim -> cfine g ids p r (lsim L) t) /\
      forall st' L', pass what (num_boxes g) em tm to la L = Ok (st', L') -> tlim < lglobal L')).
  { intros to la. destruct (cpass_ok g what ids p r hascyl tlim OK SPH GX0 GX1 GY0 GY1 ENC sph0 em tm to la L HL) as [X|[(X & _)|X]]; auto. }
  cbn [passes]. rewrite E1. cbn [obind].
  assert (Rest: forall L', L' = L ->
     lglobal L <= lglobal L' /\
     (forall t, lglobal L <= t <= lglobal L' -> t <= tlim ->
        (forall i j, In i ids -> In j ids -> i <> j -> ~ overlap_at (sph (lsim L) i) (sph (lsim L) j) t) /\
        (forall i, In i ids -> in_cylinder org D H (sph (lsim L) i) t)) /\
     (lglobal L' <= tlim -> forall i, In i ids -> centre_at (sph (lsim L') i) (lglobal L') = centre_at (sph (lsim L) i) (lglobal L') /\
        radius_at (sph (lsim L') i) (lglobal L') = radius_at (sph (lsim L) i) (lglobal L'))).
  { intros L' ->. split; [lra|]. split; [|auto]. intros t Ht _. apply Fine. replace t with (lglobal L) by lra.
    apply (cpresent g what ids p r hascyl tlim OK SPH GX0 GX1 GY0 GY1 ENC (lsim L) (lglobal L)); [apply HL|lra]. }
  destruct st.
  - destruct (Q (timeout m) (late m)) as [(st2 & L2 & E2 & HL2 & (Q1 & Q2 & Q3))|[E2|(Q1 & Q2)]].
    + rewrite E2. split; [discriminate|]. intros st' L' X. injection X as <- <-. split; [auto|]. split; [|auto].
      intros t Ht _. apply Fine, Q2, Ht.
    + rewrite E2. split; discriminate.
    + split; [intros _ t Ht; apply Fine, Q1, Ht|]. intros st' L' X. specialize (Q2 st' L' X). split; [lra|]. split; [|intros; lra].
      intros t Ht Ht2. apply Fine, Q1. lra.
  - split; [discriminate|]. intros st' L' X. injection X as <- <-. exact (Rest L eq_refl).
  - split; [discriminate|]. intros st' L' X. injection X as <- <-. exact (Rest L eq_refl).
Qed.
Print Assumptions C61_cylinder_partial.

(** The result of Simulate in a cylinder specimen: the clocks of all spheres agree on a time [T]; if no sphere is as wide
    as the cylinder at that time, each radius is the initial radius plus growth rate times [T], no two spheres overlap and
    all are in the cylinder; a run that ends without the wall clock has reached the requested time. *)
Theorem C61_cylinder_final_partial : forall n nz org D H what walls cylinders ids sph0 tlim b barrier0 events_max time_max timeout late m st s,
  cylinder_packing n nz org D H what walls cylinders ids sph0 tlim -> time_max <= tlim ->
  let g := new_grid n n nz org (V3 D D H) in
  add_spheres g (map sph0 ids) walls = Ok b ->
  simulate what (num_boxes g) events_max time_max timeout late m barrier0 ids
    (initial_sim (num_boxes g) sph0 (cylinder_boxes what cylinders b)) = Ok (st, s) ->
  exists T, 0 <= T /\ (forall i, In i ids -> stime (sph s i) = T) /\
    (st = Stopped -> (forall k, timeout k = false) -> time_max <= T) /\
    (T <= tlim ->
      (forall i, In i ids -> srad (sph s i) = srad (sph0 i) + sgrow (sph0 i) * T) /\
      (forall i j, In i ids -> In j ids -> i <> j -> srad (sph s i) + srad (sph s j) <= distance (spos (sph s i)) (spos (sph s j))) /\
      (forall i, In i ids -> let c := spos (sph s i) in
        sqrt ((vx c - (vx org + D / 2))² + (vy c - (vy org + D / 2))²) + srad (sph s i) <= D / 2 /\
        vz org + srad (sph s i) <= vz c <= vz org + H - srad (sph s i))).
Proof.
  intros n nz org D H what walls cylinders ids sph0 tlim b barrier0 em tm timeout late m st s CP Htm g AD E.
  set (p := V3 (vx org + D / 2) (vy org + D / 2) (vz org + H)). set (r := D / 2). set (hascyl := gets_cylinder g r).
  destruct (cs_start n nz org D H what walls cylinders ids sph0 tlim b CP AD barrier0) as (L0 & E0 & I & S1 & S2). fold g p r hascyl in E0, I.
  unfold simulate in E. rewrite E0 in E. cbn [obind] in E.
  pose proof (cs_grid _ _ _ _ _ _ _ _ _ _ _ CP) as OK. pose proof (pk_sphere _ _ _ _ _ (cp_packing _ _ _ _ _ _ _ _ _ _ _ CP)) as SPH.
  fold g in OK. pose proof (cs_X0 n nz org D H) as GX0. pose proof (cs_X1 n nz org D H _ _ _ _ _ _ CP) as GX1.
  pose proof (cs_Y0 n nz org D H) as GY0. pose proof (cs_Y1 n nz org D H _ _ _ _ _ _ CP) as GY1.
  pose proof (cs_ENC n nz org D H _ _ _ _ _ _ CP) as ENC. fold g p r hascyl in GX0, GX1, GY0, GY1, ENC.
  destruct (passes what (num_boxes g) em tm timeout late m L0) as [[st1 L]| |] eqn:E1; cbn [omap obind] in E; try discriminate. injection E as -> <-.
  destruct (fold_move what ids SPH (lglobal L) ids (lsim L) (fun i H => H) (pk_ids _ _ _ _ _ (cp_packing _ _ _ _ _ _ _ _ _ _ _ CP))) as (M & _).
  fold (sync what ids (lglobal L) (lsim L)) in M.
  pose proof (cpasses_ok g what ids p r hascyl tlim OK SPH GX0 GX1 GY0 GY1 ENC sph0 em tm timeout late L0 I Htm m st L E1) as HL.
  pose proof (cp_divisions _ _ _ _ _ _ _ _ _ _ _ CP) as (_ & _ & Hlim).
  exists (lglobal L). split; [destruct HL as [(_ & _ & HL)|HL]; lra|]. split; [intros i Hi; rewrite M by auto; reflexivity|]. split.
  { intros -> Ht. destruct (passes_stopped _ _ _ _ _ _ _ _ _ E1) as [(k & _ & F)|F]; [rewrite Ht in F; discriminate|auto]. }
  intros Hl. destruct HL as [HL|F]; [|lra]. pose proof HL as (Iv & K & Pos). pose proof Iv as (P & _ & _ & _).
  assert (Mv: forall i, In i ids -> moved_to (sph (lsim L) i) (sph (sync what ids (lglobal L) (lsim L)) i) (lglobal L)).
  { intros i Hi. rewrite M by auto. apply move_and_grow_moved. apply (c_cons _ _ _ _ _ _ _ _ _ P i Hi). }
  destruct (cpresent g what ids p r hascyl tlim OK SPH GX0 GX1 GY0 GY1 ENC (lsim L) (lglobal L) P Hl) as (Q1 & Q2).
  split; [|split].
  - intros i Hi. destruct (Mv i Hi) as (_ & A & _ & B & _). rewrite B. unfold radius_at.
    rewrite (c_cons _ _ _ _ _ _ _ _ _ P i Hi). destruct (K i Hi) as (K1 & K2 & K3). rewrite K1, K2, K3.
    destruct (pk_new _ _ _ _ _ (cp_packing _ _ _ _ _ _ _ _ _ _ _ CP) i Hi) as (p0 & v & r0 & gr & -> & _). cbn [new_sphere sradG sreset sgrow srad]. ring.
  - intros i j Hi Hj Hij. specialize (Q1 i j Hi Hj Hij). unfold overlap_at in Q1.
    destruct (Mv i Hi) as (_ & _ & A & B & _). destruct (Mv j Hj) as (_ & _ & A' & B' & _). rewrite A, A', B, B'. lra.
  - intros i Hi. destruct (Mv i Hi) as (_ & _ & A & B & _). cbv zeta. rewrite A, B. specialize (Q2 i Hi).
    apply (cs_inside n nz org D H _ _ _ _ _ _ CP) in Q2. destruct Q2 as (Q2 & Q3 & Q4). unfold lo, hi in Q3, Q4. cbn [vnth] in Q3, Q4. unfold Rsqr. split; [exact Q2|lra].
Qed.
Print Assumptions C61_cylinder_final_partial.

(** two divisions across, one along the axis; two spheres with any velocities and moderate growth rates *)
Definition cyl_grid : grid := new_grid 2 2 1 (V3 0 0 0) (V3 4 4 4).
Definition cyl_what (d : Z) : object :=
  if Z.ltb d 6 then OWall (build_wall cyl_grid 0 0 0 (Z.to_nat d))
  else if Z.ltb d 12 then OWall (build_wall cyl_grid 0 1 0 (Z.to_nat (d - 6)))
  else if Z.ltb d 18 then OWall (build_wall cyl_grid 1 0 0 (Z.to_nat (d - 12)))
  else if Z.ltb d 24 then OWall (build_wall cyl_grid 1 1 0 (Z.to_nat (d - 18)))
  else if Z.ltb d 28 then OCylinder (specimen_cylinder cyl_grid (4 / 2) 4) (d - 24) else OSphere.
Definition cyl_walls (k : Z) : list Z := map (fun j => (6 * k + j)%Z) [0; 1; 2; 3; 4; 5]%Z.
Definition cyl_cylinders (k : Z) : list Z := [24 + k]%Z.
Definition cyl_spheres (v1 v2 : v3) (g1 g2 : R) (i : Z) : sphere :=
  if Z.eqb i 100 then new_sphere 100 (V3 1 2 2) v1 (1/2) g1 else new_sphere 101 (V3 3 2 2) v2 (1/2) g2.

Lemma cyl_cells x y : (0 <= x < 2)%Z -> (0 <= y < 2)%Z -> gets_cylinder cyl_grid (4 / 2) x y = true.
Proof.
  intros Hx Hy. assert (Q: forall qx qy, inside_cell 0 2 qx x -> inside_cell 0 2 qy y -> (qx - 2)² + (qy - 2)² = 2² -> gets_cylinder cyl_grid (4 / 2) x y = true).
  { intros qx qy A B C. apply (C63_enclosed_partial 2 1 (V3 0 0 0) 4 4 x y (V3 qx qy 0)); try lia; try lra.
    - cbn [new_grid ghx vx]. replace (4 / 2) with 2 by lra. exact A.
    - cbn [new_grid ghy vy]. replace (4 / 2) with 2 by lra. exact B.
    - cbn [vx vy]. replace (0 + 4 / 2) with 2 by lra. replace (4 / 2) with 2 by lra. exact C. }
  unfold inside_cell in Q.
  assert (x = 0 \/ x = 1)%Z as [-> | ->] by lia; assert (y = 0 \/ y = 1)%Z as [-> | ->] by lia;
    [apply (Q (4/5) (2/5))|apply (Q (4/5) (18/5))|apply (Q (16/5) (2/5))|apply (Q (16/5) (18/5))]; unfold Rsqr; lra.
Qed.
Example C61_cylinder_packing_example : forall v1 v2 g1 g2, 0 <= g1 <= 1/10 -> 0 <= g2 <= 1/10 ->
  cylinder_packing 2 1 (V3 0 0 0) 4 4 cyl_what cyl_walls cyl_cylinders [100; 101]%Z (cyl_spheres v1 v2 g1 g2) 10.
Proof.
  intros v1 v2 g1 g2 G1 G2. constructor.
  - repeat split; try lia; lra.
  - fold cyl_grid. constructor.
    + cbn [cyl_grid new_grid gnx gny gnz ghx ghy ghz vx vy vz]. repeat split; try lia; lra.
    + intros x y z Hx Hy Hz. cbn [cyl_grid new_grid gnx gny gnz] in *. assert (z = 0%Z) by lia. subst.
      assert (x = 0 \/ x = 1)%Z as [-> | ->] by lia; assert (y = 0 \/ y = 1)%Z as [-> | ->] by lia; reflexivity.
    + constructor; [intros [F|[]]; discriminate|]. constructor; [intros []|constructor].
    + intros i [<-|[<-|[]]]; reflexivity.
    + intros i [<-|[<-|[]]]; unfold cyl_spheres; cbn [Z.eqb Pos.eqb]; do 4 eexists; (split; [reflexivity|lra]).
    + intros i a [<-|[<-|[]]] Ha; unfold cyl_spheres; cbn [Z.eqb Pos.eqb]; unfold lo, hi, centre_at, radius_at, plane;
        destruct a as [|[|[|a]]]; try lia; cbn [vnth vadd smul vx vy vz new_sphere spos svel stime srad sgrow gn gh gnx gny gnz ghx ghy ghz gorg cyl_grid new_grid]; lra.
    + assert (O: ~ overlap_at (cyl_spheres v1 v2 g1 g2 100) (cyl_spheres v1 v2 g1 g2 101) 0).
      { unfold overlap_at, cyl_spheres, centre_at, radius_at, distance. cbn [Z.eqb Pos.eqb new_sphere spos svel stime srad sgrow].
        intros F. rewrite vnorm_lt in F by lra. revert F. unfold dot, vsub, vadd, smul. cbn [vx vy vz]. lra. }
      intros i j [<-|[<-|[]]] [<-|[<-|[]]] Hij; try contradiction; auto. intros F. apply overlap_sym in F. auto.
  - fold cyl_grid. cbv zeta. intros x y z Hx Hy Hz. rewrite cyl_cells by auto. assert (z = 0%Z) by lia. subst.
    assert (x = 0 \/ x = 1)%Z as [-> | ->] by lia; assert (y = 0 \/ y = 1)%Z as [-> | ->] by lia; reflexivity.
  - assert (S1: forall x, x * x = 1 -> sqrt (x * x) = 1) by (intros x ->; apply sqrt_1).
    intros i [<-|[<-|[]]]; unfold in_cylinder, cyl_spheres, lo, hi, centre_at, radius_at; cbn [Z.eqb Pos.eqb new_sphere spos svel stime srad sgrow vadd smul vx vy vz vnth];
      (split; [|lra]); match goal with |- sqrt ?e + _ <= _ => replace e with 1 by lra end; rewrite sqrt_1; lra.
  - intros i [<-|[<-|[]]]; unfold cyl_spheres, radius_at; cbn [Z.eqb Pos.eqb new_sphere stime srad sgrow]; lra.
Qed.
