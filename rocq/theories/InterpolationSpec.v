(** * Specification for C36 - C38: what a nodal basis is *)
From Coq Require Import List Arith Reals.
From Coquelicot Require Import Coquelicot.
From Verif Require Import RSum.
Import ListNotations.
Local Open Scope R_scope.

(** the point with the coordinates given as list, and a point moved along coordinate d *)
Definition at_node (l : list R) : nat -> R := fun k => nth k l 0.
Definition move (x : nat -> R) (d : nat) (t : R) : nat -> R := fun k => if Nat.eqb k d then t else x k.

Definition partition_of_unity (shape : (nat -> R) -> list R) : Prop := forall x, rlsum (shape x) = 1.
(** the interpolated value of a nodal field *)
Definition interpolate (shape : (nat -> R) -> list R) (values : list R) (x : nat -> R) : R :=
  rlsum (map (fun p => fst p * snd p) (combine (shape x) values)).
(** linear fields are reproduced *)
Definition reproduces_linear (dim : nat) (nodes : list (list R)) (shape : (nat -> R) -> list R) (x : nat -> R) : Prop :=
  forall d, (d < dim)%nat -> interpolate shape (map (fun l => nth d l 0) nodes) x = x d.
Definition kronecker (i j : nat) : R := if Nat.eqb i j then 1 else 0.
Definition nodal_basis (nodes : list (list R)) (shape : (nat -> R) -> list R) : Prop :=
  forall i j, (i < length nodes)%nat -> (j < length nodes)%nat -> nth j (shape (at_node (nth i nodes []))) 0 = kronecker i j.
(** d N_i / d x_d at x is entry (i, d) of the matrix *)
Definition gradient_at (dim : nat) (shape : (nat -> R) -> list R) (deriv : (nat -> R) -> list (list R)) (x : nat -> R) : Prop :=
  length (deriv x) = length (shape x) /\
  forall i d, (i < length (shape x))%nat -> (d < dim)%nat ->
    is_derive (fun t => nth i (shape (move x d t)) 0) (x d) (nth d (nth i (deriv x) []) 0).
(** the same up to a tolerance *)
Definition gradient_near (eps : R) (dim : nat) (shape : (nat -> R) -> list R) (deriv : (nat -> R) -> list (list R)) (x : nat -> R) : Prop :=
  length (deriv x) = length (shape x) /\
  forall i d, (i < length (shape x))%nat -> (d < dim)%nat ->
    exists v, is_derive (fun t => nth i (shape (move x d t)) 0) (x d) v /\ Rabs (v - nth d (nth i (deriv x) []) 0) <= eps.
