(** * Specification vocabulary for isogeometric elements *)
From Coq Require Import List Arith Bool Reals.
From Verif Require Import RSum NurbsSpec IgaModel.
Import ListNotations.
Local Open Scope R_scope.

(** [-1, 1] mapped onto the knot interval number [id] *)
Definition parameter (knots : list R) (id : nat) (s : R) : R :=
  (1 - s) / 2 * knot knots id + (1 + s) / 2 * knot knots (id + 1).
(** coordinate [i] of the NURBS curve *)
Definition place (c : curve) (i : nat) (t : R) : R :=
  nurbs_curve (c_degree c) (c_knots c) (c_weights c) (map (fun p => nth i p 0) (c_points c)) t.
(** a clamped curve with positive weights in a space of dimension [dim] *)
Definition regular (c : curve) (dim : nat) : Prop :=
  nondecreasing (c_knots c) /\ clamped (c_degree c) (c_knots c) /\
  length (c_weights c) = basis_count (c_degree c) (c_knots c) /\ (forall m, (m < length (c_weights c))%nat -> 0 < nth m (c_weights c) 0) /\
  length (c_points c) = basis_count (c_degree c) (c_knots c) /\ Forall (fun p => length p = dim) (c_points c).
(** a knot interval that is an element *)
Definition element_of (degree : nat) (knots : list R) (id : nat) : Prop :=
  (degree <= id < basis_count degree knots)%nat /\ knot knots id < knot knots (id + 1).
(** the element without its right end, unless that is the end of the curve *)
Definition half_open (knots : list R) (id : nat) (s : R) : Prop :=
  -1 <= s < 1 \/ (s = 1 /\ knot knots (id + 1) = knot knots (length knots - 1)).

(** line element of a curve in dimension one or two with the derivatives [D] of its coordinates *)
Definition line_element (dim : nat) (D : nat -> R) : R :=
  match dim with 1%nat => D 0%nat | _ => sqrt (D 0%nat * D 0%nat + D 1%nat * D 1%nat) end.

(** a surface: knots as for curves, positive weights and control points in rows (direction 1) *)
Definition regular_surface (f : surface) (dim : nat) : Prop :=
  nondecreasing (f_knots0 f) /\ clamped (f_degree0 f) (f_knots0 f) /\ nondecreasing (f_knots1 f) /\ clamped (f_degree1 f) (f_knots1 f) /\
  length (f_weights f) = basis_count (f_degree1 f) (f_knots1 f) /\
  Forall (fun r => length r = basis_count (f_degree0 f) (f_knots0 f) /\ Forall (fun w => 0 < w) r) (f_weights f) /\
  length (f_points f) = basis_count (f_degree1 f) (f_knots1 f) /\
  Forall (fun r => length r = basis_count (f_degree0 f) (f_knots0 f) /\ Forall (fun p => length p = dim) r) (f_points f).
(** coordinate [k] of the tensor product NURBS surface *)
Definition surface_place (f : surface) (k : nat) (x y : R) : R :=
  let B0 := fun b => bspline (f_degree0 f) (f_knots0 f) (f_degree0 f) b x in
  let B1 := fun a => bspline (f_degree1 f) (f_knots1 f) (f_degree1 f) a y in
  let w := fun a b => nth b (nth a (f_weights f) []) 0 in
  let p := fun a b => nth k (nth b (nth a (f_points f) []) []) 0 in
  let total g := rsum (basis_count (f_degree1 f) (f_knots1 f)) (fun a => rsum (basis_count (f_degree0 f) (f_knots0 f)) (fun b =>
    B0 b * B1 a * w a b * g a b)) in
  total p / total (fun _ _ => 1).
(** NURBS function number a in direction 1 and b in direction 0 of a surface *)
Definition surface_function (f : surface) (a b : nat) (x y : R) : R :=
  let B0 := fun b => bspline (f_degree0 f) (f_knots0 f) (f_degree0 f) b x in
  let B1 := fun a => bspline (f_degree1 f) (f_knots1 f) (f_degree1 f) a y in
  let w := fun a b => nth b (nth a (f_weights f) []) 0 in
  B0 b * B1 a * w a b /
    rsum (basis_count (f_degree1 f) (f_knots1 f)) (fun a => rsum (basis_count (f_degree0 f) (f_knots0 f)) (fun b => B0 b * B1 a * w a b)).
