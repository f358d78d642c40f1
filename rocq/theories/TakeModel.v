(** Model of nuto/geometryConcrete/takeAndPlace/ParticleCreator.cpp and of
    ParticleHandler::GetAbsoluteMininimalDistance (nuto/geometryConcrete/collision/handler/ParticleHandler.cpp).
    Numbers are exact reals.  rand()/RAND_MAX is an arbitrary stream [u] of numbers, read in order. *)
From Coq Require Import Reals ZArith List Bool.
From Verif Require Import Outcome AdaptiveModel Vec3 CollisionModel SubBoxModel.
Import ListNotations.
Local Open Scope R_scope.

(** ** Take phase, ParticleCreator.cpp:44-141 *)
(** one row of the grading curve: dMin, dMax, volume fraction *)
Record gclass := mkClass { cmin : R; cmax : R; cfrac : R }.
(** CheckGradingCurve, lines 263-283 *)
Definition class_ok (c : gclass) : bool :=
  andb (negb (rltb (cmax c) (cmin c))) (negb (orb (rltb (cfrac c) 0) (rltb 1 (cfrac c)))).
Definition check_curve (cs : list gclass) : bool :=
  andb (match cs with [] => false | _ => true end) (forallb class_ok cs).
(** lines 91-93; pow(x, 1/3) of a positive number *)
Definition random_radius (c : gclass) (u : R) : R :=
  / 2 * cmin c * cmax c /
  Rpower ((1 - u) * (cmax c * cmax c * cmax c) + u * (cmin c * cmin c * cmin c)) (1 / 3).
(** line 96 and GetVolume, lines 439-442 *)
Definition ball_volume (r : R) : R := 4 / 3 * PI * r * r * r.

(** the while loop, lines 78-114: random number index, Vist; the new radii in the order of creation.
    [None]: not finished within [fuel] turns *)
Fixpoint take_class (fuel : nat) (u : nat -> R) (c : gclass) (vsoll : R) (k : nat) (vist : R)
  : option (list R * R * nat) :=
  match fuel with
  | O => None
  | S f =>
    let r := random_radius c (u k) in
    let vist' := vist + ball_volume r in
    if rltb vist' vsoll then
      match take_class f u c vsoll (S k) vist' with
      | Some (rs, v, k') => Some (r :: rs, v, k')
      | None => None
      end
    else Some ([], vist' - ball_volume r, S k)
  end.
(** lines 62-118: [prev] = (Vsoll, Vist) of the class before; [total] = mVolume * rRelParticleVolume.
    Returns the new radii and the volumes (Vsoll, Vist) per class. *)
Fixpoint take_classes (fuel : nat) (u : nat -> R) (total : R) (cs : list gclass) (prev : option (R * R)) (k : nat)
  : option (list R * list (R * R)) :=
  match cs with
  | [] => Some ([], [])
  | c :: cs' =>
    let vsoll := match prev with
                 | None => total * cfrac c
                 | Some (s, i) => total * cfrac c + (s - i)
                 end in
    match take_class fuel u c vsoll k 0 with
    | None => None
    | Some (rs, vist, k') =>
      match take_classes fuel u total cs' (Some (vsoll, vist)) k' with
      | None => None
      | Some (rs', vs) => Some (rs ++ rs', (vsoll, vist) :: vs)
      end
    end
  end.
(** std::sort with std::greater, lines 122-124 *)
Fixpoint insert_desc (x : R) (l : list R) : list R :=
  match l with
  | [] => [x]
  | y :: l' => if rltb y x then x :: l else y :: insert_desc x l'
  end.
Definition sort_desc (l : list R) : list R := fold_right insert_desc [] l.
(** A particle table: rows (position, radius).  The positions of new rows are uninitialised memory ([junk]). *)
Definition particle : Type := v3 * R.
Definition take_phase (fuel : nat) (u : nat -> R) (junk : nat -> v3) (volume shrinkage relVolume : R)
  (curve : list gclass) (boundary : list particle) : option (list particle) :=
  match take_classes fuel u (volume * relVolume) curve None 0 with
  | None => None
  | Some (rs, _) =>
    let positions := map fst boundary ++ map junk (seq 0 (length rs)) in
    let radii := sort_desc (map snd boundary ++ rs) in
    (* lines 129-134 *)
    Some (combine positions (map (fun r => r * (1 - shrinkage)) radii))
  end.

(** ** Size classes, lines 331-393 *)
(** the do-while loop, lines 339-344, newest first, which is also the reversed vector of lines 346-349 *)
Fixpoint doubling (fuel : nat) (d dend : R) (acc : list R) : option (list R) :=
  match fuel with
  | O => None
  | S f => let d' := d * 2 in
           if rltb d' dend then doubling f d' dend (d' :: acc) else Some (d' :: acc)
  end.
(** lines 331-357; an empty table reads rParticles(-1, 3) *)
Definition size_classes (fuel : nat) (radii : list R) : outcome (option (list R)) :=
  match radii, rev radii with
  | first :: _, lst :: _ =>
    Ok (match doubling fuel (2 * lst) (2 * first) [] with
        | Some (_ :: rest) => Some (2 * first :: rest)
        | Some [] => None
        | None => None
        end)
  | _, _ => UB
  end.
(** GetNumParticlesPerSizeClass, lines 359-393: the radii not yet visited, sizeClass, sizeCount *)
Definition set_nth (l : list nat) (i v : nat) : list nat := firstn i l ++ v :: skipn (S i) l.
Fixpoint num_loop (sizes : list R) (radii : list R) (cls cnt : nat) (num : list nat) : list nat :=
  match radii with
  | [] => num
  | r :: rs =>
    if rleb (nth (S cls) sizes 0) (2 * r) then num_loop sizes rs cls (S cnt) num
    else
      let num' := set_nth num cls cnt in
      if Nat.eqb (S cls) (length sizes - 1) then set_nth num' (S cls) (length radii)
      else num_loop sizes rs (S cls) 1 num'
  end.
Definition num_per_class (sizes radii : list R) : list nat :=
  if Nat.eqb (length sizes) 1 then [length radii]
  else num_loop sizes radii 0 0 (repeat 0%nat (length sizes)).

(** ** Place phase, lines 143-261 *)
(** the sub-boxes of one size class, lines 161-174; [lo]: first column of the bounding box *)
Record sboxes := mkSB { sb_n : Z * Z * Z; sb_l : v3 }.
Definition make_boxes (len : v3) (size shrinkage : R) : sboxes :=
  let sub := size / (1 - shrinkage) in
  let nx := floorZ (vx len / sub) in let ny := floorZ (vy len / sub) in let nz := floorZ (vz len / sub) in
  mkSB (nx, ny, nz) (V3 (vx len / IZR nx) (vy len / IZR ny) (vz len / IZR nz)).
Definition sb_index (b : sboxes) (x y z : Z) : Z :=
  let '(nx, ny, nz) := sb_n b in (x * ny * nz + y * nz + z)%Z.
Definition sb_count (b : sboxes) : Z := let '(nx, ny, nz) := sb_n b in (nx * ny * nz)%Z.
Definition table := Z -> list nat.    (* sub-box -> particles *)

(** InsertParticleIntoBox, lines 396-438: the index range of one direction *)
Definition index_range (p r lo l : R) (n : Z) : list Z :=
  let imin := (trunc ((p - r - lo) / l) - 1)%Z in
  let imax := (trunc ((p + r - lo) / l) + 1)%Z in
  zrange (Z.max imin 0) (Z.min imax (n - 1)).
Definition covered (b : sboxes) (lo p : v3) (r : R) : list Z :=
  let '(nx, ny, nz) := sb_n b in
  flat_map (fun x => flat_map (fun y => map (fun z => sb_index b x y z)
     (index_range (vz p) r (vz lo) (vz (sb_l b)) nz)) (index_range (vy p) r (vy lo) (vy (sb_l b)) ny))
     (index_range (vx p) r (vx lo) (vx (sb_l b)) nx).
Definition insert_particle (b : sboxes) (lo p : v3) (r : R) (i : nat) (t : table) : table :=
  fun k => t k ++ map (fun _ => i) (filter (Z.eqb k) (covered b lo p r)).

(** CollidesWithBoundary, lines 286-329; the parts of the specimen it reads: lower corner and Lx *)
Definition collides_boundary (ty : specimen_type) (lo len p : v3) (r rel ab : R) : outcome bool :=
  match ty with
  | SBox => Ok false
  | SDogbone =>
    let D := vx len in
    let dy := vy p - (vy lo + 3 / 4 * D) in
    let sumR := r + 29 / 40 * D in
    let dx1 := vx p - (vx lo + vx len + 21 / 40 * D) in
    let dx2 := vx p - (vx lo - 21 / 40 * D) in
    Ok (orb (rltb (dx1 * dx1 + dy * dy) (sumR * sumR)) (rltb (dx2 * dx2 + dy * dy) (sumR * sumR)))
  | SCylinder =>
    let D := vx len in
    let dx := vx p - (vx lo + / 2 * D) in
    let dy := vy p - (vy lo + / 2 * D) in
    let sumR := / 2 * D - r * (1 + rel) - ab in
    if rltb sumR 0 then Throw else Ok (rltb (sumR * sumR) (dx * dx + dy * dy))
  end.

(** lines 196-200 *)
Definition random_coordinate (r lo len u : R) : R := r + lo + (len - 2 * r) * u.
(** lines 214-228 *)
Definition too_close (pos : nat -> v3) (rad : nat -> R) (i : nat) (p : v3) (rel ab : R) (other : nat) : bool :=
  let dx := vx p - vx (pos other) in let dy := vy p - vy (pos other) in let dz := vz p - vz (pos other) in
  let sumR := rad i * (1 + rel) + ab + rad other in
  rltb (dx * dx + dy * dy + dz * dz) (sumR * sumR).

Section Place.
Variables (ty : specimen_type) (lo len : v3) (rel ab : R) (maxTries : Z) (u : nat -> R) (rad : nat -> R).

(** the while loop, lines 188-257; [Ok None]: not finished within [fuel] turns *)
Fixpoint place_one (fuel : nat) (b : sboxes) (pos : nat -> v3) (t : table) (i k : nat) (tries : Z)
  : outcome (option (v3 * nat)) :=
  match fuel with
  | O => Ok None
  | S f =>
    let p := V3 (random_coordinate (rad i) (vx lo) (vx len) (u k))
                (random_coordinate (rad i) (vy lo) (vy len) (u (S k)))
                (random_coordinate (rad i) (vz lo) (vz len) (u (S (S k)))) in
    let k' := S (S (S k)) in
    obind (collides_boundary ty lo len p (rad i) rel ab) (fun collides =>
    if collides then place_one f b pos t i k' tries
    else
      let bi := sb_index b (trunc ((vx p - vx lo) / vx (sb_l b))) (trunc ((vy p - vy lo) / vy (sb_l b)))
                           (trunc ((vz p - vz lo) / vz (sb_l b))) in
      if andb (Z.leb 0 bi) (Z.ltb bi (sb_count b)) then
        if existsb (too_close pos rad i p rel ab) (t bi) then
          if Z.ltb maxTries (tries + 1) then Throw else place_one f b pos t i k' (tries + 1)
        else Ok (Some (p, k'))
      else UB)
  end.
Definition set_pos (pos : nat -> v3) (i : nat) (p : v3) : nat -> v3 := fun j => if Nat.eqb j i then p else pos j.
(** lines 185-258: [count] particles from number [i] on.  A rejected attempt leaves its coordinates behind, which are
    overwritten by the next one. *)
Fixpoint place_class (fuel : nat) (b : sboxes) (count i k : nat) (pos : nat -> v3) (t : table)
  : outcome (option ((nat -> v3) * nat)) :=
  match count with
  | O => Ok (Some (pos, k))
  | S c =>
    obind (place_one fuel b pos t i k 0) (fun res =>
    match res with
    | None => Ok None
    | Some (p, k') =>
      place_class fuel b c (S i) k' (set_pos pos i p) (insert_particle b lo p (rad i) i t)
    end)
  end.
(** lines 156-260: [added] = numParticlesAdded *)
Fixpoint place_classes (fuel : nat) (shrinkage : R) (classes : list (R * nat)) (added k : nat) (pos : nat -> v3)
  : outcome (option (nat -> v3)) :=
  match classes with
  | [] => Ok (Some pos)
  | (size, count) :: cs =>
    let b := make_boxes len size shrinkage in
    let t := fold_left (fun t i => insert_particle b lo (pos i) (rad i) i t) (seq 0 added) (fun _ => []) in
    obind (place_class fuel b count added k pos t) (fun res =>
    match res with
    | None => Ok None
    | Some (pos', k') => place_classes fuel shrinkage cs (added + count) k' pos'
    end)
  end.
End Place.
(** PerformPlacePhase; result: the positions *)
Definition place_phase (fuel : nat) (ty : specimen_type) (lo len : v3) (shrinkage rel ab : R) (maxTries : Z)
  (u : nat -> R) (radii : list R) (pos : nat -> v3) : outcome (option (nat -> v3)) :=
  obind (size_classes fuel radii) (fun so =>
  match so with
  | None => Ok None
  | Some sizes =>
    place_classes ty lo len rel ab maxTries u (fun i => nth i radii 0) fuel shrinkage
      (combine sizes (num_per_class sizes radii)) 0 0 pos
  end).

(** ** GetAbsoluteMininimalDistance, ParticleHandler.cpp:186-291 *)
(** GetSubBoxDivisions, lines 346-360.  With fewer particles than [per] the integer quotient is 0, the volume and the
    length of a box are infinite and the ceiling is 0. *)
Definition ceilZ (x : R) : Z := (- floorZ (- x))%Z.
Definition sub_box_divisions (volume : R) (len : v3) (num per : nat) : Z * Z * Z :=
  match Nat.div num per with
  | O => (1, 1, 1)%Z
  | q => let l := Rpower (volume / INR q) (1 / 3) in
         (Z.max (ceilZ (vx len / l)) 1, Z.max (ceilZ (vy len / l)) 1, Z.max (ceilZ (vz len / l)) 1)
  end.
(** lines 222-253: the boxes of the eight corners of particle (c, r); the origin of the specimen is not subtracted *)
Definition stat_index (c sub : R) (n : Z) : Z := Z.max (Z.min (floorZ (c / sub)) (n - 1)) 0.
Definition stat_boxes (div : Z * Z * Z) (len : v3) (c : v3) (r : R) : list Z :=
  let '(nx, ny, nz) := div in
  let ix d := stat_index (vx c + d) (vx len / IZR nx) nx in
  let iy d := stat_index (vy c + d) (vy len / IZR ny) ny in
  let iz d := stat_index (vz c + d) (vz len / IZR nz) nz in
  flat_map (fun dx => flat_map (fun dy => map (fun dz => (ix dx * ny * nz + iy dy * nz + iz dz)%Z) [- r; r]) [- r; r]) [- r; r].
(** lines 255-263 *)
Definition stat_add (s : nat) (t : table) (b : Z) : table :=
  match rev (t b) with
  | lst :: _ => if Nat.eqb lst s then t else fun k => if Z.eqb k b then t b ++ [s] else t k
  | [] => fun k => if Z.eqb k b then t b ++ [s] else t k
  end.
Definition stat_table (div : Z * Z * Z) (len : v3) (ps : list particle) : table :=
  fold_left (fun t s => let p := nth s ps (V3 0 0 0, 0) in fold_left (stat_add s) (stat_boxes div len (fst p) (snd p)) t)
    (seq 0 (length ps)) (fun _ => []).
(** lines 282-286; INFINITY is [None] *)
Definition surface_distance (p q : particle) : R := vnorm (vsub (fst p) (fst q)) - (snd p + snd q).
Definition omin (a : option R) (d : R) : option R :=
  match a with None => Some d | Some m => Some (Rmin m d) end.
Fixpoint pair_min (ps : list particle) (l : list nat) (m : option R) : option R :=
  match l with
  | [] => m
  | i :: l' =>
    let p := nth i ps (V3 0 0 0, 0) in
    pair_min ps l' (fold_left (fun m j => omin m (surface_distance p (nth j ps (V3 0 0 0, 0)))) l' m)
  end.
Definition minimal_distance (volume : R) (len : v3) (ps : list particle) : option R :=
  let div := sub_box_divisions volume len (length ps) 10 in
  let '(nx, ny, nz) := div in
  let t := stat_table div len ps in
  fold_left (fun m b => pair_min ps (t b) m) (zrange 0 (nx * ny * nz - 1)) None.

(** CreateSpheresInSpecimen, ParticleCreator.cpp:24-42.  One stream of random numbers serves both phases: [u] is the
    part read by the take phase, [u'] the rest. *)
Definition create_spheres (fuel : nat) (u u' : nat -> R) (junk : nat -> v3) (ty : specimen_type) (lo len : v3)
  (volume shrinkage relVolume rel ab : R) (maxTries : Z) (curve : list gclass) (boundary : list particle)
  : outcome (option (list particle)) :=
  if check_curve curve then
    match take_phase fuel u junk volume shrinkage relVolume curve boundary with
    | None => Ok None
    | Some ps =>
      obind (place_phase fuel ty lo len shrinkage rel ab maxTries u' (map snd ps) (fun i => nth i (map fst ps) (V3 0 0 0)))
        (fun res => match res with
                    | None => Ok None
                    | Some pos =>
                      Ok (Some (skipn (length boundary)
                                  (combine (map pos (seq 0 (length ps))) (map snd ps))))
                    end)
    end
  else Throw.
