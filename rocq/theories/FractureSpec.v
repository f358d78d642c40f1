(** * Specification for C30 *)
From Coq Require Import Reals List.
From Coquelicot Require Import Coquelicot.
From Verif Require Import RSum.
Local Open Scope R_scope.

(** [a] is the work of segment i of the curve (F k, D k) up to the fraction s of the segment: the
    integral of the linearly interpolated force along the linearly interpolated displacement *)
Definition segment_work (F D : nat -> R) (i : nat) (s a : R) : Prop :=
  is_RInt (fun x => (F i + x * (F (S i) - F i)) * (D (S i) - D i)) 0 s a.

(** work along the first n whole segments and the fraction s of segment n *)
Definition curve_work (F D : nat -> R) (n : nat) (s w : R) : Prop :=
  exists a, (forall i, (i < n)%nat -> segment_work F D i 1 (a i)) /\ segment_work F D n s (a n) /\ w = rsum n a + a n.

(** g is the piecewise linear function through the points *)
Definition interpolates (F D : nat -> R) (n : nat) (g : R -> R) : Prop :=
  forall i x, (S i < n)%nat -> D i <= x <= D (S i) -> g x = F i + (F (S i) - F i) * ((x - D i) / (D (S i) - D i)).
