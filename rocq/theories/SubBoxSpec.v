(** Specification vocabulary for sub-boxes (C62, C63): cells of a uniform grid over a box. *)
From Coq Require Import Reals ZArith List.
From Verif Require Import Vec3.
Import ListNotations.
Local Open Scope R_scope.

(** a uniform grid: origin, cell lengths, numbers of cells *)
Definition in_cell (o h p : R) (k : Z) : Prop := o + IZR k * h <= p <= o + (IZR k + 1) * h.
(** cells closed below and open above: every point belongs to one only *)
Definition in_cell_ho (o h p : R) (k : Z) : Prop := o + IZR k * h <= p < o + (IZR k + 1) * h.
Definition inside_cell (o h p : R) (k : Z) : Prop := o + IZR k * h < p < o + (IZR k + 1) * h.
Definition cell3 (P : R -> R -> R -> Z -> Prop) (o h p : v3) (x y z : Z) : Prop :=
  P (vx o) (vx h) (vx p) x /\ P (vy o) (vy h) (vy p) y /\ P (vz o) (vz h) (vz p) z.

(** the axis-aligned cube around a ball *)
Definition in_cube (c : v3) (r : R) (p : v3) : Prop :=
  Rabs (vx p - vx c) <= r /\ Rabs (vy p - vy c) <= r /\ Rabs (vz p - vz c) <= r.
