(** Specification vocabulary for C56-C58: spheres that move and grow uniformly. *)
From Coq Require Import Reals.
From Verif Require Import Vec3 CollisionModel.
Local Open Scope R_scope.

Definition distance (p q : v3) : R := vnorm (vsub p q).
(** centre and radius at the time [t], if nothing happens between the sphere's own clock and [t] *)
Definition centre_at (s : sphere) (t : R) : v3 := vadd (spos s) (smul (t - stime s) (svel s)).
Definition radius_at (s : sphere) (t : R) : R := srad s + sgrow s * (t - stime s).

Definition overlap_at (s s' : sphere) (t : R) : Prop :=
  distance (centre_at s t) (centre_at s' t) < radius_at s t + radius_at s' t.
Definition touch_at (s s' : sphere) (t : R) : Prop :=
  distance (centre_at s t) (centre_at s' t) = radius_at s t + radius_at s' t.
(** the later of the two clocks: "now" for the pair *)
Definition pair_now (s s' : sphere) : R := Rmax (stime s) (stime s').

(** positive size, no shrinking *)
Definition proper (s : sphere) : Prop := 0 < srad s /\ 0 <= sgrow s.

(** The half space behind a plane through [p] with the unit normal [n] (pointing inside):
    signed distance of the sphere's surface from the plane. *)
Definition plane_gap (p n : v3) (s : sphere) (t : R) : R :=
  dot n (vsub (centre_at s t) p) - radius_at s t.
(** distance of a point from the axis through [p] with the unit direction [d] *)
Definition axis_distance (p d x : v3) : R :=
  vnorm (vsub (vsub x p) (smul (dot (vsub x p) d) d)).
(** distance of the sphere's surface from the wall of a cylinder of radius [r] (positive inside) *)
Definition cylinder_gap (p d : v3) (r : R) (s : sphere) (t : R) : R :=
  r - radius_at s t - axis_distance p d (centre_at s t).

(** mass (up to the common factor density * 4/3 pi), momentum and kinetic energy *)
Definition smass (s : sphere) : R := srad s * srad s * srad s.
Definition momentum2 (s s' : sphere) : v3 := vadd (smul (smass s) (svel s)) (smul (smass s') (svel s')).
Definition energy2 (s s' : sphere) : R :=
  / 2 * smass s * dot (svel s) (svel s) + / 2 * smass s' * dot (svel s') (svel s').

(** the six directions of walls parallel to a coordinate plane *)
Definition axis_vector (d : v3) : Prop :=
  d = V3 1 0 0 \/ d = V3 (-1) 0 0 \/ d = V3 0 1 0 \/ d = V3 0 (-1) 0 \/ d = V3 0 0 1 \/ d = V3 0 0 (-1).
