(** * Specification for C99: rigid motions, forces and moments of a cell *)
From Coq Require Import List Arith Reals.
From Verif Require Import RSum CellModel CellSpec InterpolationModel InterpolationSpec PropInterpolation.
Import ListNotations.
Local Open Scope R_scope.

(** the affine field x |-> A x + b at the nodes with the coordinates [X k] *)
Definition affine (d : nat) (A : nat -> nat -> R) (b : nat -> R) (X : nat -> nat -> R) : nat -> nat -> R :=
  fun k i => rsum d (fun j => A i j * X k j) + b i.
(** an infinitesimal rotation *)
Definition skew (d : nat) (A : nat -> nat -> R) : Prop := forall i j, (i < d)%nat -> (j < d)%nat -> A i j = - A j i.
(** the node coordinates in one vector: x, y, z of node 0, of node 1, ... *)
Definition flat (d n : nat) (X : nat -> nat -> R) : list R := flat_map (fun k => map (X k) (seq 0 d)) (seq 0 n).
(** an interpolation of the library and points where it has derivatives (the pyramid is singular in the plane of its apex) *)
Definition usable (e : element) (numIps : nat) (ipCoord : nat -> list R) : Prop :=
  List.In e exact_elements \/
  (e = pyramid_linear /\ forall q, (q < numIps)%nat -> nth 2 (ipCoord q) 0 <> 1).
(** determinant of the derivative of the geometry sum_k N_k(xi) X_k at the natural coordinates [x] *)
Definition geometry_det (e : element) (d : nat) (X : nat -> nat -> R) (x : list R) : R :=
  leibniz d (fun i j => rsum (length (e_nodes e)) (fun k => nth j (nth k (e_deriv e (fun c => nth c x 0)) []) 0 * X k i)).
(** resultant force and moment of the nodal forces [f] (component i of node k at k * d + i) *)
Definition resultant (d n : nat) (f : nat -> R) (i : nat) : R := rsum n (fun k => f (k * d + i)%nat).
Definition moment (d n : nat) (X : nat -> nat -> R) (f : nat -> R) (i j : nat) : R :=
  rsum n (fun k => X k i * f (k * d + j)%nat - X k j * f (k * d + i)%nat).
(** work of the nodal forces [f] on the nodal displacements [w] *)
Definition nodal_work (d n : nat) (f : nat -> R) (w : nat -> nat -> R) : R :=
  rsum n (fun k => rsum d (fun i => f (k * d + i)%nat * w k i)).
(** the forces K w *)
Definition apply_stiffness (d n : nat) (K : nat -> nat -> R) (w : nat -> nat -> R) : nat -> R :=
  fun a => rsum n (fun k => rsum d (fun i => K a (k * d + i)%nat * w k i)).
