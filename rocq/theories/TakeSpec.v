(** Specification vocabulary for the take and place phases (C64-C67). *)
From Coq Require Import Reals List.
From Verif Require Import Vec3.
Import ListNotations.
Local Open Scope R_scope.

Fixpoint sumR (l : list R) : R := match l with [] => 0 | x :: l' => x + sumR l' end.
Definition volume_of_ball (r : R) : R := 4 / 3 * PI * r ^ 3.
Definition total_volume (rs : list R) : R := sumR (map volume_of_ball rs).
(** a list in decreasing order *)
Fixpoint decreasing (l : list R) : Prop :=
  match l with [] => True | x :: l' => (forall y, In y l' -> y <= x) /\ decreasing l' end.
(** distance of two points *)
Definition distance (p q : v3) : R := sqrt ((vx p - vx q)² + (vy p - vy q)² + (vz p - vz q)²).
(** a ball inside the box with lower corner [lo] and lengths [len] *)
Definition ball_in_box (lo len p : v3) (r : R) : Prop :=
  vx lo + r <= vx p <= vx lo + vx len - r /\ vy lo + r <= vy p <= vy lo + vy len - r /\
  vz lo + r <= vz p <= vz lo + vz len - r.
