(** * Model of nuto/geometryConcrete/GeometryConcrete.cpp and the particle functions of ParticleHandler.cpp

    Take phase, place phase, sub-boxes and simulation are those of TakeModel.v, SubBoxModel.v and SimModel.v.  Numbers are exact
    reals.  Random numbers, velocities, the wall clock and uninitialised memory are arguments.  The status output of Simulate
    (mSecondsPrint) is switched off.  An exception that the bounce of a sphere on the axis of a cylinder throws is passed on even
    with mContinueOnException. *)
From Coq Require Import List ZArith Arith Bool Reals.
From Verif Require Import Outcome AdaptiveModel Vec3 CollisionModel SubBoxModel TakeModel SimModel.
Import ListNotations.
Local Open Scope R_scope.

(** ** ParticleHandler *)
(** CreateParticlesFromMatrix, ParticleHandler.cpp:293-312: the k-th row gets the index 100000 + k; [vel k] is its random velocity *)
Definition FIRST_ID : Z := 100000.
Definition particle_ids (n : nat) : list Z := map (fun k => (FIRST_ID + Z.of_nat k)%Z) (seq 0 n).
Definition created (ps : list particle) (vel : nat -> v3) (rel ab : R) (i : Z) : sphere :=
  let k := Z.to_nat (i - FIRST_ID) in
  let p := nth k ps (V3 0 0 0, 0) in
  new_sphere i (fst p) (vel k) (snd p) (snd p * rel + ab).
(** GetParticles, ParticleHandler.cpp:70-78, ExportRow, CollidableParticleSphere.cpp:180-186 *)
Definition export_row (initial : bool) (s : sphere) : particle := (spos s, if initial then srad0 s else srad s).
(** GetParticles2D, ParticleHandler.cpp:362-395 *)
Definition circle : Type := R * R * R.    (* x, y, radius *)
Definition get_particles_2d (z rmin : R) (ps : list particle) : list circle :=
  flat_map (fun p => let delta := vz (fst p) - z in
    if rltb (Rabs delta) (snd p) then
      let radius := sqrt (snd p * snd p - delta * delta) in
      if rltb rmin radius then [(vx (fst p), vy (fst p), radius)] else []
    else []) ps.

(** ** the walls as objects.  An object is identified by its address; any numbering without collisions serves: the walls of
    BuildSubBoxes, SubBoxHandler.cpp:88-142, get the negative numbers, the cylinder walls of BuildCylinder, lines 228-235, those
    below, the particles their index *)
Definition wall_ids (b : Z) : list Z := map (fun k => (- (6 * b + Z.of_nat k + 1))%Z) (seq 0 6).
Definition cylinder_ids (g : grid) (r : R) (b : Z) : list Z :=
  if gets_cylinder g r (b / (gny g * gnz g)) ((b / gnz g) mod gny g) then [(- (6 * num_boxes g + b + 1))%Z] else [].
Definition object_of (g : grid) (cyl : cylinder) (i : Z) : object :=
  if Z.leb 0 i then OSphere
  else
    let j := (- i - 1)%Z in
    if Z.ltb j (6 * num_boxes g) then
      let b := (j / 6)%Z in
      OWall (build_wall g (b / (gny g * gnz g)) ((b / gnz g) mod gny g) (b mod gnz g) (Z.to_nat (j mod 6)))
    else OCylinder cyl (j - 6 * num_boxes g).

(** ** GeometryConcrete *)
(** the pointer mSpecimen *)
Inductive specimen_ptr := PNull | PLive (s : specimen) | PFreed.
(** the members, GeometryConcrete.h:107-123; [g_spheres]: the particles of mParticleHandler *)
Record geometry_concrete := mkGC {
  g_spec : specimen_ptr; g_spheres : option (list sphere); g_curve : list gclass;
  g_frac : R; g_events : Z; g_barrier : R; g_rel : R; g_abs : R; g_continue : bool }.
Definition gc_new : geometry_concrete := mkGC PNull None [] (/ 2) 2000000 10 0 0 false.
Definition with_spec (gc : geometry_concrete) (p : specimen_ptr) : geometry_concrete :=
  mkGC p (g_spheres gc) (g_curve gc) (g_frac gc) (g_events gc) (g_barrier gc) (g_rel gc) (g_abs gc) (g_continue gc).
Definition with_spheres (gc : geometry_concrete) (l : list sphere) : geometry_concrete :=
  mkGC (g_spec gc) (Some l) (g_curve gc) (g_frac gc) (g_events gc) (g_barrier gc) (g_rel gc) (g_abs gc) (g_continue gc).
Definition with_rates (gc : geometry_concrete) (rel ab : R) : geometry_concrete :=
  mkGC (g_spec gc) (g_spheres gc) (g_curve gc) (g_frac gc) (g_events gc) (g_barrier gc) rel ab (g_continue gc).
Definition with_curve (gc : geometry_concrete) (c : list gclass) : geometry_concrete :=
  mkGC (g_spec gc) (g_spheres gc) c (g_frac gc) (g_events gc) (g_barrier gc) (g_rel gc) (g_abs gc) (g_continue gc).
Definition bounds_of (a b : v3) : bounds := mkBounds 3 2 (fun i j => vnth (match j with O => a | _ => b end) i).
(** what a call does to the object: it returns, it throws and leaves the object behind, or its behaviour is undefined *)
Inductive effect := Returns (gc : geometry_concrete) | Throws (gc : geometry_concrete) | Undefined.
(** SetSpecimenBox, GeometryConcrete.cpp:134-142: the old specimen is deleted first, and the constructor of the new one may throw.
    Deleting a pointer twice is undefined. *)
Definition set_specimen_box (gc : geometry_concrete) (a b : v3) : effect :=
  match g_spec gc with
  | PFreed => Undefined
  | p =>
    match new_specimen (bounds_of a b) SBox with
    | Ok s => Returns (with_spec gc (PLive s))
    | Throw => Throws (with_spec gc (match p with PNull => PNull | _ => PFreed end))
    | UB => Undefined
    end
  end.
(** SetSpecimenCylinder, lines 144-154 *)
Definition set_specimen_cylinder (gc : geometry_concrete) (a b : v3) : effect :=
  match new_specimen (bounds_of a b) SCylinder with
  | Ok s => Returns (with_spec gc (PLive s))
  | Throw => Throws gc
  | UB => Undefined
  end.
(** SetGradingCurve, lines 156-180 *)
Inductive curve_name := A16 | B16 | C16.
Definition full_curve (c : curve_name) : list gclass :=
  match c with
  | A16 => [mkClass 8 16 (40/100); mkClass 4 8 (24/100); mkClass 2 4 (15/100); mkClass 1 2 (9/100); mkClass (1/2) 1 (4/100); mkClass (1/4) (1/2) (5/100)]
  | B16 => [mkClass 8 16 (24/100); mkClass 4 8 (20/100); mkClass 2 4 (14/100); mkClass 1 2 (10/100); mkClass (1/2) 1 (12/100); mkClass (1/4) (1/2) (12/100)]
  | C16 => [mkClass 8 16 (12/100); mkClass 4 8 (14/100); mkClass 2 4 (12/100); mkClass 1 2 (13/100); mkClass (1/2) 1 (15/100); mkClass (1/4) (1/2) (16/100)]
  end.
Definition set_grading_curve (gc : geometry_concrete) (c : curve_name) (num : Z) : effect :=
  if orb (Z.ltb num 1) (Z.ltb 6 num) then Throws gc else Returns (with_curve gc (firstn (Z.to_nat num) (full_curve c))).
(** SetAbsoluteGrowthRate, SetRelativeGrowthRate, lines 212-222 *)
Definition set_absolute_growth_rate (gc : geometry_concrete) (r : R) : geometry_concrete := with_rates gc 0 r.
Definition set_relative_growth_rate (gc : geometry_concrete) (r : R) : geometry_concrete := with_rates gc r 0.
(** the destructor, lines 24-28 *)
Definition destroy (gc : geometry_concrete) : bool := match g_spec gc with PFreed => false | _ => true end.

(** ** the two simulations.  [None]: a loop of the take phase or the place phase has not ended within [fuel] steps, or
    the loop of Simulate not within [n] passes *)
Section Runs.
  Variables (fuel : nat) (u u' : nat -> R) (junk vel : nat -> v3) (timeout late : nat -> bool) (n : nat).
  (** SubBoxHandler with [per] particles per box, SubBoxHandler.cpp:60-81 and 209-262, Simulate until [time_end]: status and
      final state of the particles *)
  Definition simulate_particles (gc : geometry_concrete) (ty : specimen_type) (lo len : v3) (volume : R) (per : nat) (ps : list particle)
    (time_end : R) : outcome (status * list sphere) :=
    let '(nx, ny, nz) := sub_box_divisions volume len (length ps) per in
    let g := new_grid nx ny nz lo len in
    let ids := particle_ids (length ps) in
    let sph0 := created ps vel (g_rel gc) (g_abs gc) in
    let what := object_of g (specimen_cylinder g (vx len / 2) (vz len)) in
    obind (add_spheres g (map sph0 ids) wall_ids) (fun b =>
    let b' := match ty with SCylinder => cylinder_boxes what (cylinder_ids g (vx len / 2)) b | _ => b end in
    omap (fun '(st, s) => (st, map (sph s) ids))
      (simulate what (num_boxes g) (g_events gc) time_end timeout late n (g_barrier gc) ids (initial_sim (num_boxes g) sph0 b'))).
  (** the common part of MaximizeParticleDistance and MaximizeParticleVolumeFraction, lines 33-60 and 75-101: CheckParameters, the
      growth rate, the particles, the simulation.  mNumMaxTries of ParticleCreator is 10000000. *)
  Definition run_both (gc : geometry_concrete) (rate shrinkage : R) (per : nat) (time_end : R) : outcome (option (status * list sphere)) :=
    match g_spec gc with
    | PFreed => UB
    | PNull => Throw
    | PLive sp =>
      if Nat.eqb (length (g_curve gc)) 0 then Throw
      else if rleb rate 0 then Throw
      else
        let lo := V3 (bat (sbox sp) 0 0) (bat (sbox sp) 1 0) (bat (sbox sp) 2 0) in
        obind (specimen_volume sp) (fun volume =>
        obind (create_spheres fuel u u' junk (stype sp) lo (slen sp) volume shrinkage (g_frac gc) 0 0 10000000 (g_curve gc) []) (fun r =>
        match r with
        | None => Ok None
        | Some ps => omap Some (simulate_particles gc (stype sp) lo (slen sp) volume per ps time_end)
        end))
    end.
  (** after the simulation: an exception is passed on unless mContinueOnException *)
  Definition after (gc : geometry_concrete) (keep : list sphere -> list sphere) (r : outcome (option (status * list sphere)))
    : outcome (option geometry_concrete) :=
    obind r (fun r => match r with
      | None | Some (Running, _) => Ok None
      | Some (Failed, l) => if g_continue gc then Ok (Some (with_spheres gc (keep l))) else Throw
      | Some (Stopped, l) => Ok (Some (with_spheres gc (keep l)))
      end).
  (** lines 30-70: the spheres are kept with the radii before the simulation; new velocities [vel2] *)
  Definition maximize_distance (vel2 : nat -> v3) (gc : geometry_concrete) (distance : R) : outcome (option geometry_concrete) :=
    after gc (fun l => let ps := map (export_row true) l in map (created ps vel2 (g_rel gc) (g_abs gc)) (particle_ids (length ps)))
      (run_both gc (g_abs gc) 0 1 (/ 2 * distance / g_abs gc)).
  (** lines 72-106: the spheres are kept as they are *)
  Definition maximize_fraction (gc : geometry_concrete) (shrinkage : R) : outcome (option geometry_concrete) :=
    after gc (fun l => l) (run_both gc (g_rel gc) shrinkage 10 ((1 / (1 - shrinkage) - 1) / g_rel gc)).
End Runs.
(** GetParticles, lines 197-203; ExportGmshGeo2D hands the slice to the writer, lines 109-121 *)
Definition gc_particles (gc : geometry_concrete) (before : bool) : outcome (list particle) :=
  match g_spheres gc with None => Throw | Some l => Ok (map (export_row before) l) end.
Definition gc_slice (gc : geometry_concrete) (z rmin : R) : outcome (list circle) :=
  match g_spheres gc with
  | None => Throw
  | Some l =>
    match g_spec gc with
    | PLive sp => if orb (rleb z (bat (sbox sp) 2 0)) (rleb (bat (sbox sp) 2 1) z) then Throw
                  else Ok (get_particles_2d z rmin (map (export_row false) l))
    | _ => UB
    end
  end.
