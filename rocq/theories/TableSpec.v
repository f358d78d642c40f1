(** * Specification for C32 and C72 *)
From Coq Require Import List Reals Sorting.Permutation Sorting.Sorted.
Import ListNotations.
Local Open Scope R_scope.

(** what std::sort guarantees for the comparison of abscissae *)
Definition is_sort (sort : list (R * R) -> list (R * R)) : Prop :=
  forall l, Permutation l (sort l) /\ StronglySorted (fun p q => fst p <= fst q) (sort l).

Definition distinct_abscissae (data : list (R * R)) : Prop := NoDup (map fst data).

(** p and q are neighbours in the table *)
Definition neighbours (data : list (R * R)) (p q : R * R) : Prop :=
  In p data /\ In q data /\ fst p < fst q /\ forall r, In r data -> fst r <= fst p \/ fst q <= fst r.

(** x lies between the smallest and the largest abscissa *)
Definition covered (data : list (R * R)) (x : R) : Prop := (exists p, In p data /\ fst p <= x) /\ (exists q, In q data /\ x <= fst q).

(** the value on the segment p q *)
Definition on_segment (p q : R * R) (x : R) : R := snd p + (snd q - snd p) * ((x - fst p) / (fst q - fst p)).
