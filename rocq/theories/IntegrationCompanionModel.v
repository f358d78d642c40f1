(** * Model of nuto/mechanics/integrationtypes/IntegrationCompanion.cpp: the objects that are created *)
From Coq Require Import List Arith ZArith Bool Reals.
From Verif Require Import Outcome LegendreModel TensorModel ShapeModel IpModel.
Import ListNotations.

(** GaussLine, GaussQuadrilateral, GaussHex, lines 18-21, 34-37, 49-52; LobattoLine, LobattoQuadrilateral, LobattoHex, lines 80-93.
    The int order becomes the size_t number of points (IntegrationTypeTensorProduct.cpp:15) and is converted back to int by
    ComputeWeightsAndPoints1DGauss and ComputeWeightsAndPoints1DLobatto (Quadrature.cpp:6, 26): numbers below one are refused there,
    as zero is in [gauss_rule] and [lobatto_rule]. *)
Definition tensor_of_order (gr lr : nat -> list R) (dim : nat) (order : Z) (m : method) : outcome itype :=
  make_tensor_product gr lr dim (Z.to_nat order) m.
(** GaussTriangle, lines 24-31 *)
Definition GaussTriangle (order : Z) : outcome itype := if Z.ltb 0 order && Z.ltb order 21 then make_triangle order else Throw.
(** GaussTetrahedron, lines 40-46 *)
Definition GaussTetrahedron (order : Z) : outcome itype := if Z.ltb 0 order && Z.ltb order 21 then make_tetrahedron order else Throw.
(** GaussPrism, lines 55-67 *)
Definition GaussPrism (order : Z) : outcome itype := match order with 1%Z => Ok Prism1Ip | 2%Z => Ok Prism2x3Ip | _ => Throw end.
(** GaussPyramid, lines 70-78 *)
Definition GaussPyramid (order : Z) : outcome itype := Throw.

(** CreateGaussIntegrationType, lines 96-117 *)
Definition CreateGaussIntegrationType (gr lr : nat -> list R) (s : eshape) (order : Z) : outcome itype :=
  match s with
  | SLine => tensor_of_order gr lr 1 order GAUSS
  | STriangle => GaussTriangle order
  | SQuadrilateral => tensor_of_order gr lr 2 order GAUSS
  | STetrahedron => GaussTetrahedron order
  | SHexahedron => tensor_of_order gr lr 3 order GAUSS
  | SPrism => GaussPrism order
  | SPyramid => GaussPyramid order
  end.
(** CreateLobattoIntegrationType, lines 119-137 *)
Definition CreateLobattoIntegrationType (gr lr : nat -> list R) (s : eshape) (order : Z) : outcome itype :=
  match s with
  | SLine => tensor_of_order gr lr 1 order LOBATTO
  | SQuadrilateral => tensor_of_order gr lr 2 order LOBATTO
  | SHexahedron => tensor_of_order gr lr 3 order LOBATTO
  | STriangle | STetrahedron | SPrism | SPyramid => Throw
  end.
