(** * Model of nuto/mechanics/interpolation/InterpolationCompanion.cpp *)
From Coq Require Import List Arith ZArith Bool Reals.
From Verif Require Import Outcome AdaptiveModel ShapeModel InterpolationModel LobattoModel.
Import ListNotations.
Local Open Scope R_scope.

(** LagrangeLine, InterpolationCompanion.cpp:23-33 *)
Definition LagrangeLine (order : Z) : outcome element := match order with 1%Z => Ok truss_linear | _ => Throw end.
(** LagrangeTriangle, lines 36-48 *)
Definition LagrangeTriangle (order : Z) : outcome element :=
  match order with 1%Z => Ok triangle_linear | 2%Z => Ok triangle_quadratic | _ => Throw end.
(** LagrangeQuadrilateral, lines 51-63 *)
Definition LagrangeQuadrilateral (order : Z) : outcome element :=
  match order with 1%Z => Ok quad_linear | 2%Z => Ok quad_serendipity | _ => Throw end.
(** LagrangeTetrahedron, lines 66-78 *)
Definition LagrangeTetrahedron (order : Z) : outcome element :=
  match order with 1%Z => Ok tetrahedron_linear | 2%Z => Ok tetrahedron_quadratic | _ => Throw end.
(** LagrangeHex, lines 81-91 *)
Definition LagrangeHex (order : Z) : outcome element := match order with 1%Z => Ok brick_linear | _ => Throw end.
(** LagrangePrism, lines 94-106 *)
Definition LagrangePrism (order : Z) : outcome element :=
  match order with 1%Z => Ok prism_linear | 2%Z => Ok prism_quadratic | _ => Throw end.
(** LagrangePyramid, lines 109-119 *)
Definition LagrangePyramid (order : Z) : outcome element := match order with 1%Z => Ok pyramid_linear | _ => Throw end.

(** CreateLagrangeInterpolation, lines 122-143 *)
Definition CreateLagrangeInterpolation (s : eshape) (order : Z) : outcome element :=
  match s with
  | SLine => LagrangeLine order
  | STriangle => LagrangeTriangle order
  | SQuadrilateral => LagrangeQuadrilateral order
  | STetrahedron => LagrangeTetrahedron order
  | SHexahedron => LagrangeHex order
  | SPrism => LagrangePrism order
  | SPyramid => LagrangePyramid order
  end.

(** the Lobatto interpolations as elements: InterpolationTrussLobatto.h, InterpolationQuadLobatto.h and InterpolationBrickLobatto.h;
    [roots order] are the inner nodes computed by the constructor (InterpolationTrussLobatto.cpp:10-26), which throws for an order
    below one *)
Definition lobatto_line (nodes : list R) : element :=
  {| e_dim := 1; e_nodes := map (fun x => [x]) nodes; e_shape := fun c => lobatto_shape (c 0%nat) nodes;
     e_deriv := fun c => map (fun x => [x]) (lobatto_deriv (c 0%nat) nodes) |}.
Definition lobatto_quad (nodes : list R) : element :=
  {| e_dim := 2; e_nodes := map (fun id => quad_coords id nodes) (seq 0 (length nodes * length nodes));
     e_shape := fun c => quad_shape (c 0%nat) (c 1%nat) nodes; e_deriv := fun c => quad_deriv (c 0%nat) (c 1%nat) nodes |}.
Definition lobatto_brick (nodes : list R) : element :=
  {| e_dim := 3; e_nodes := map (fun id => brick_coords id nodes) (seq 0 (length nodes * length nodes * length nodes));
     e_shape := fun c => brick_shape (c 0%nat) (c 1%nat) (c 2%nat) nodes; e_deriv := fun c => brick_deriv (c 0%nat) (c 1%nat) (c 2%nat) nodes |}.

(** CreateLobattoInterpolation, lines 146-177 *)
Definition CreateLobattoInterpolation (roots : nat -> list R) (s : eshape) (order : Z) : outcome element :=
  match s with
  | SLine => omap lobatto_line (lobatto_nodes roots (Z.to_nat order))
  | SQuadrilateral => omap lobatto_quad (lobatto_nodes roots (Z.to_nat order))
  | SHexahedron => omap lobatto_brick (lobatto_nodes roots (Z.to_nat order))
  | _ => Throw
  end.
