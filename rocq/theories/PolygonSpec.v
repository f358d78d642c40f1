(** Specification vocabulary for C104. *)
From Coq Require Import Reals List.
From Verif Require Import DelaunaySpec.
Import ListNotations.
Local Open Scope R_scope.

(** the point at parameter t of the line from P in direction d *)
Definition along (P d : R * R) (t : R) : R * R := (fst P + t * fst d, snd P + t * snd d).
(** Q lies on the side from A to B, ends included *)
Definition on_segment (A B Q : R * R) : Prop :=
  exists l, 0 <= l <= 1 /\ fst Q = fst A + l * (fst B - fst A) /\ snd Q = snd A + l * (snd B - snd A).
Definition parallel (A B d : R * R) : Prop := (fst B - fst A) * snd d - (snd B - snd A) * fst d = 0.
(** the line from P meets the polygon at t *)
Definition meets (ps : list (R * R)) (P d : R * R) (t : R) : Prop := exists A B, side_of ps A B /\ on_segment A B (along P d t).
(** distance of P to the line through A and B *)
Definition line_distance (A B P : R * R) : R := Rabs (orient A B P) / distance2 A B.
