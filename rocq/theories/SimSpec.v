(** Specification vocabulary for the event-driven simulation (C61, C78). *)
From Coq Require Import Reals ZArith List.
From Verif Require Import Outcome Vec3 CollisionModel CollisionSpec SubBoxModel SubBoxSpec SimModel.
Import ListNotations.
Local Open Scope R_scope.

(** the extent of a sphere along the axis [a] (0, 1, 2) at the time [t] *)
Definition lo (s : sphere) (t : R) (a : nat) : R := vnth (centre_at s t) a - radius_at s t.
Definition hi (s : sphere) (t : R) (a : nat) : R := vnth (centre_at s t) a + radius_at s t.
(** the number and the length of the cells along the axis [a] *)
Definition gn (g : grid) (a : nat) : Z := match a with O => gnx g | S O => gny g | _ => gnz g end.
Definition gh (g : grid) (a : nat) : R := match a with O => ghx g | S O => ghy g | _ => ghz g end.
Definition plane (g : grid) (a : nat) (k : Z) : R := vnth (gorg g) a + IZR k * gh g a.
(** the whole sphere is in the specimen *)
Definition in_container (g : grid) (s : sphere) (t : R) : Prop :=
  forall a, (a < 3)%nat -> plane g a 0 <= lo s t a /\ hi s t a <= plane g a (gn g a).

(** A packing in a box specimen: a grid of sub-boxes whose walls are those of BuildSubBoxes, spheres with distinct
    addresses as their constructor leaves them, inside the specimen (not touching its upper faces, see
    C62_registration_partial), no two of them overlapping. *)
Record packing (g : grid) (what : Z -> object) (walls : boxes) (ids : list Z) (sph0 : Z -> sphere) : Prop := {
  pk_grid : (0 < gnx g)%Z /\ (0 < gny g)%Z /\ (0 < gnz g)%Z /\ 0 < ghx g /\ 0 < ghy g /\ 0 < ghz g;
  pk_walls : forall x y z, (0 <= x < gnx g)%Z -> (0 <= y < gny g)%Z -> (0 <= z < gnz g)%Z ->
    map what (walls (box_index g x y z)) = map OWall (build_walls g x y z);
  pk_ids : NoDup ids;
  pk_sphere : forall i, In i ids -> what i = OSphere;
  pk_new : forall i, In i ids -> exists p v r gr, sph0 i = new_sphere i p v r gr /\ 0 < r /\ 0 <= gr;
  pk_inside : forall i a, In i ids -> (a < 3)%nat ->
    plane g a 0 <= lo (sph0 i) 0 a /\ hi (sph0 i) 0 a < plane g a (gn g a);
  pk_apart : forall i j, In i ids -> In j ids -> i <> j -> ~ overlap_at (sph0 i) (sph0 j) 0
}.

(** The whole sphere is in the upright cylinder of diameter [D] and height [H] that stands in the box with the corner [org]. *)
Definition in_cylinder (org : v3) (D H : R) (s : sphere) (t : R) : Prop :=
  sqrt ((vx (centre_at s t) - (vx org + D / 2)) * (vx (centre_at s t) - (vx org + D / 2)) +
        (vy (centre_at s t) - (vy org + D / 2)) * (vy (centre_at s t) - (vy org + D / 2))) + radius_at s t <= D / 2 /\
  vz org <= lo s t 2 /\ hi s t 2 <= vz org + H.

(** A packing in a cylinder specimen: the grid has [n] >= 2 divisions in both directions across (C63), the walls are those
    of BuildSubBoxes, the cylinder walls are those that BuildCylinder hands to its boxes, the spheres start in the
    cylinder, and up to the time [tlim] none of them grows as wide as the cylinder. *)
Record cylinder_packing (n nz : Z) (org : v3) (D H : R) (what : Z -> object) (walls cylinders : boxes)
  (ids : list Z) (sph0 : Z -> sphere) (tlim : R) : Prop := {
  cp_divisions : (2 <= n)%Z /\ 0 < D /\ 0 <= tlim;
  cp_packing : packing (new_grid n n nz org (V3 D D H)) what walls ids sph0;
  cp_cylinders : let g := new_grid n n nz org (V3 D D H) in
    forall x y z, (0 <= x < n)%Z -> (0 <= y < n)%Z -> (0 <= z < nz)%Z ->
    map what (cylinders (box_index g x y z)) =
      if gets_cylinder g (D / 2) x y then [OCylinder (specimen_cylinder g (D / 2) H) (box_index g x y z)] else [];
  cp_inside : forall i, In i ids -> in_cylinder org D H (sph0 i) 0;
  cp_small : forall i, In i ids -> radius_at (sph0 i) tlim < D / 2
}.
