(** Specification vocabulary for C69 and C70. *)
From Coq Require Import Reals List.
Import ListNotations.
Local Open Scope R_scope.

(** twice the signed area of the triangle A B C: positive if it turns left *)
Definition orient (A B C : R * R) : R :=
  (fst B - fst A) * (snd C - snd A) - (snd B - snd A) * (fst C - fst A).
Definition distance2 (a b : R * R) : R := sqrt ((fst a - fst b)² + (snd a - snd b)²).
(** the sides of the polygon with corners [ps]: each corner with its successor, the last one with the first *)
Definition side_of (ps : list (R * R)) (A B : R * R) : Prop :=
  exists i, nth_error ps i = Some A /\
    ((nth_error ps (S i) = Some B) \/ (S i = length ps /\ nth_error ps 0 = Some B)).
(** convex with corners in counterclockwise order ([s] = 1) or clockwise order ([s] = -1) *)
Definition strictly_convex (s : R) (ps : list (R * R)) : Prop :=
  (3 <= length ps)%nat /\ NoDup ps /\
  forall A B C, side_of ps A B -> In C ps -> C <> A -> C <> B -> 0 < s * orient A B C.
Definition strictly_inside (s : R) (ps : list (R * R)) (P : R * R) : Prop :=
  forall A B, side_of ps A B -> 0 < s * orient A B P.
Definition strictly_outside (s : R) (ps : list (R * R)) (P : R * R) : Prop :=
  exists A B, side_of ps A B /\ s * orient A B P < 0.
(** the open triangle A B C, counterclockwise ([s] = 1) or clockwise ([s] = -1) *)
Definition in_open_triangle (s : R) (A B C P : R * R) : Prop := 0 < s * orient A B P /\ 0 < s * orient B C P /\ 0 < s * orient C A P.
(** star-shaped around c: every side goes round c in the same direction, and the triangles that the sides form with c do not overlap *)
Definition star_shaped (s : R) (c : R * R) (ps : list (R * R)) : Prop :=
  ps <> [] /\ NoDup ps /\ (forall A B, side_of ps A B -> 0 < s * orient c A B) /\
  (forall A B A' B' Q, side_of ps A B -> side_of ps A' B' -> in_open_triangle s c A B Q -> in_open_triangle s c A' B' Q -> A = A').
(** in the triangle of c and one of the sides, not on the side *)
Definition star_inside (s : R) (c : R * R) (ps : list (R * R)) (P : R * R) : Prop :=
  exists A B, side_of ps A B /\ 0 <= s * orient c A P /\ 0 <= s * orient B c P /\ 0 < s * orient A B P.
(** in none of these triangles, boundaries included *)
Definition star_outside (s : R) (c : R * R) (ps : list (R * R)) (P : R * R) : Prop :=
  forall A B, side_of ps A B -> s * orient c A P < 0 \/ s * orient B c P < 0 \/ s * orient A B P < 0.
(** the mean of points *)
Definition is_mean (pts : list (R * R)) (c : R * R) : Prop :=
  fold_right Rplus 0 (map (fun p => fst p - fst c) pts) = 0 /\ fold_right Rplus 0 (map (fun p => snd p - snd c) pts) = 0.
(** p is seen from c at the angle a, measured clockwise from the second axis *)
Definition seen_at (c p : R * R) (a : R) : Prop :=
  - PI < a <= PI /\ exists r, 0 < r /\ fst p - fst c = r * sin a /\ snd p - snd c = r * cos a.
