(** Model of nuto/geometryConcrete/Specimen.cpp and
    nuto/geometryConcrete/collision/handler/SubBoxHandler.cpp.
    Numbers are exact reals; the int products of divisions are exact integers (no overflow).  A division
    count is a Z; the constructors do not check them. *)
From Coq Require Import Reals ZArith List Bool.
From Verif Require Import Outcome AdaptiveModel Vec3 CollisionModel.
Import ListNotations.
Local Open Scope R_scope.

(** ** Specimen *)
Inductive specimen_type := SBox | SDogbone | SCylinder.
(** a matrix with [rows] x [cols] coefficients; reading outside is undefined behaviour *)
Record bounds := mkBounds { brows : nat; bcols : nat; bat : nat -> nat -> R }.
Definition bread (b : bounds) (i j : nat) : outcome R :=
  if andb (Nat.ltb i (brows b)) (Nat.ltb j (bcols b)) then Ok (bat b i j) else UB.
Record specimen := mkSpecimen { sbox : bounds; stype : specimen_type; slen : v3 }.

(** CheckBoundingBox, Specimen.cpp:113-116: throws if both dimensions are wrong *)
Definition check_bounding_box (b : bounds) : bool :=
  negb (andb (negb (Nat.eqb (brows b) 3)) (negb (Nat.eqb (bcols b) 2))).
(** CalculateLength, lines 74-86 *)
Definition length_of (b : bounds) (i : nat) : outcome R :=
  obind (bread b i 1) (fun hi => obind (bread b i 0) (fun lo => if rleb (hi - lo) 0 then Throw else Ok (hi - lo))).
Definition calculate_length (b : bounds) : outcome v3 :=
  obind (length_of b 0) (fun x => obind (length_of b 1) (fun y => omap (fun z => V3 x y z) (length_of b 2))).
(** the constructor, lines 11-17 *)
Definition new_specimen (b : bounds) (t : specimen_type) : outcome specimen :=
  if check_bounding_box b then omap (mkSpecimen b t) (calculate_length b) else Throw.
(** GetVolume, lines 26-72; the dog bone is refused at the top *)
Definition specimen_volume (s : specimen) : outcome R :=
  let l := slen s in
  let check v := if rltb v (tenm 14) then Throw else Ok v in
  match stype s with
  | SDogbone => Throw
  | SBox => check (vx l * vy l * vz l)
  | SCylinder =>
    if rltb (tenm 10) (Rabs (vx l - vy l)) then Throw
    else if rltb (vx l) (tenm 10) then Throw
    else check (PI * (/ 4) * vx l * vx l * vz l)
  end.

(** ** The grid: divisions, origin (first column of the bounding box) and lengths of a sub-box *)
Record grid := mkGrid { gnx : Z; gny : Z; gnz : Z; gorg : v3; ghx : R; ghy : R; ghz : R }.
(** GetSubBoxLength, SubBoxHandler.cpp:83-86 *)
Definition new_grid (nx ny nz : Z) (org len : v3) : grid :=
  mkGrid nx ny nz org (vx len / IZR nx) (vy len / IZR ny) (vz len / IZR nz).

(** GetBoxIndex, lines 44-58 *)
Definition clampZ (x n : Z) : Z := Z.max (Z.min x (n - 1)) 0.
Definition box_index (g : grid) (x y z : Z) : Z :=
  (gny g * gnz g * clampZ x (gnx g) + gnz g * clampZ y (gny g) + clampZ z (gnz g))%Z.

(** BuildSubBoxes, lines 88-142: the six walls of the box (iX, iY, iZ).  Row [k] of neighborBox and of position. *)
Definition neighbour (k : nat) : Z * Z * Z :=
  match k with
  | 0%nat => (-1, 0, 0) | 1%nat => (1, 0, 0) | 2%nat => (0, -1, 0)
  | 3%nat => (0, 1, 0) | 4%nat => (0, 0, -1) | _ => (0, 0, 1)
  end%Z.
Definition face_position (k : nat) : v3 :=
  match k with
  | 0%nat => V3 0 (/2) (/2) | 1%nat => V3 1 (/2) (/2) | 2%nat => V3 (/2) 0 (/2)
  | 3%nat => V3 (/2) 1 (/2) | 4%nat => V3 (/2) (/2) 0 | _ => V3 (/2) (/2) 1
  end.
Inductive wall_kind := Physical | Virtual.
Record box_wall := mkBW { bw_kind : wall_kind; bw_wall : wall; bw_inside : Z; bw_outside : Z }.
Definition build_wall (g : grid) (x y z : Z) (k : nat) : box_wall :=
  let '(dx, dy, dz) := neighbour k in
  let p := face_position k in
  let inside := box_index g x y z in
  let outside := box_index g (x + dx) (y + dy) (z + dz) in
  let pos := V3 ((vx p + IZR x) * ghx g + vx (gorg g)) ((vy p + IZR y) * ghy g + vy (gorg g))
                ((vz p + IZR z) * ghz g + vz (gorg g)) in
  let dir := V3 (IZR (- dx)) (IZR (- dy)) (IZR (- dz)) in
  mkBW (if Z.eqb inside outside then Physical else Virtual) (new_wall pos dir) inside outside.
Definition build_walls (g : grid) (x y z : Z) : list box_wall := map (build_wall g x y z) (seq 0 6).

(** ** AddSpheresToBoxes, lines 264-333
    A box is the list of the ids of its collidables. [wid]: the ids of the walls of a box. *)
Definition floorZ (x : R) : Z := Int_part x.
(** the eight corners all have coordinates c - r or c + r per axis: their smallest and largest cell index
    (lines 290-314) *)
Definition start_index (n : Z) (lo hi : Z) : Z := Z.min (Z.min n lo) hi.
Definition end_index (lo hi : Z) : Z := Z.max (Z.max 0 lo) hi.
Definition cell_index (c o h : R) : Z := floorZ ((c - o) / h).
Definition zrange (a b : Z) : list Z := map (fun k => (a + Z.of_nat k)%Z) (seq 0 (Z.to_nat (b - a + 1))).

Definition boxes := Z -> list Z.   (* box index -> collidables; the vector has [num_boxes] elements *)
Definition num_boxes (g : grid) : Z := (gnx g * gny g * gnz g)%Z.
(** lines 316-331 *)
Fixpoint add_to_cells (g : grid) (i : Z) (cells : list (Z * Z * Z)) (b : boxes) : outcome boxes :=
  match cells with
  | [] => Ok b
  | (x, y, z) :: cs =>
    let bi := (gny g * gnz g * x + gnz g * y + z)%Z in
    if Z.leb (num_boxes g) (Z.abs bi) then Throw
    else if Z.ltb bi 0 then UB     (* mSubBoxes[negative] *)
    else
      match rev (b bi) with
      | [] => UB                   (* back() of an empty vector; every box has walls *)
      | lastc :: _ =>
        let b' := if Z.eqb lastc i then b else fun k => if Z.eqb k bi then b bi ++ [i] else b k in
        add_to_cells g i cs b'
      end
  end.
Definition sphere_cells (g : grid) (s : sphere) : list (Z * Z * Z) :=
  let c := spos s in let r := srad s in let o := gorg g in
  let ix d := cell_index (vx c + d) (vx o) (ghx g) in
  let iy d := cell_index (vy c + d) (vy o) (ghy g) in
  let iz d := cell_index (vz c + d) (vz o) (ghz g) in
  let xs := start_index (gnx g) (ix (- r)) (ix r) in let xe := end_index (ix (- r)) (ix r) in
  let ys := start_index (gny g) (iy (- r)) (iy r) in let ye := end_index (iy (- r)) (iy r) in
  let zs := start_index (gnz g) (iz (- r)) (iz r) in let ze := end_index (iz (- r)) (iz r) in
  flat_map (fun x => flat_map (fun y => map (fun z => (x, y, z)) (zrange zs ze)) (zrange ys ye)) (zrange xs xe).
Fixpoint add_spheres (g : grid) (ss : list sphere) (b : boxes) : outcome boxes :=
  match ss with
  | [] => Ok b
  | s :: ss' => obind (add_to_cells g (sid s) (sphere_cells g s) b) (add_spheres g ss')
  end.

(** ** BuildCylinder, lines 191-262
    IsInside of a sphere of radius 0 at the corner (x, y) of a box, CollidableWallCylinder.cpp:174-180, for the
    direction (0,0,1) and the axis through [org + radius]. *)
Definition corner_inside (R0 ox oy x y : R) : bool :=
  rltb ((x - ox) * (x - ox) + (y - oy) * (y - oy)) (R0 * R0).
(** GetXYCorners: the extreme coordinates of the four side walls of the box (lines 155-179) *)
Definition box_corners (g : grid) (x y : Z) : list (R * R) :=
  let xmin := IZR x * ghx g + vx (gorg g) in let xmax := (1 + IZR x) * ghx g + vx (gorg g) in
  let ymin := IZR y * ghy g + vy (gorg g) in let ymax := (1 + IZR y) * ghy g + vy (gorg g) in
  [(xmin, ymin); (xmin, ymax); (xmax, ymin); (xmax, ymax)].
Definition n_inside (g : grid) (R0 : R) (x y : Z) : nat :=
  length (filter (fun p => corner_inside R0 (vx (gorg g) + R0) (vy (gorg g) + R0) (fst p) (snd p)) (box_corners g x y)).
(** lines 232-239: does the box (x, y, _) get a cylinder wall? *)
Definition gets_cylinder (g : grid) (R0 : R) (x y : Z) : bool :=
  let n := n_inside g R0 x y in andb (Nat.leb 1 n) (Nat.leb n 3).
(** lines 241-261: the walls that stay: physical side walls are removed *)
Definition stays (w : box_wall) : bool :=
  negb (andb (match bw_kind w with Physical => true | Virtual => false end) (reqb (vz (wdir (bw_wall w))) 0)).
Definition cylinder_walls (g : grid) (x y z : Z) : list box_wall := filter stays (build_walls g x y z).
