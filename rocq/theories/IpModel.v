(** * Model of the members of the integration types (nuto/mechanics/integrationtypes/IntegrationTypeBase.h)
    IntegrationType0DBoundary does not override GetShape, so no object of that class can be made; it is not modelled.
    The assertion in IntegrationType3D6NGauss2x3Ip.cpp:16 is switched off (NDEBUG): the switch below it decides. *)
From Coq Require Import List Arith Bool Reals ZArith.
From Verif Require Import Outcome LegendreModel TensorModel SimplexTables SimplexModel ShapeModel.
Import ListNotations.
Local Open Scope R_scope.

(** the objects: what their data members hold *)
Inductive itype :=
  | TensorProduct (dim : nat) (points : list (R * list R))   (* IntegrationTypeTensorProduct.h:52-62 *)
  | Triangle (order : Z)                                      (* IntegrationTypeTriangle.h:44, mOrder *)
  | Tetrahedron (index : nat)                                 (* IntegrationTypeTetrahedron.h:46, mDataIndex *)
  | Prism1Ip                                                  (* IntegrationType3D6NGauss1Ip *)
  | Prism2x3Ip.                                               (* IntegrationType3D6NGauss2x3Ip *)

(** the constructors: IntegrationTypeTensorProduct.cpp:15-39 for the instantiations TDim = 1, 2, 3 (lines 63-65),
    IntegrationTypeTriangle.cpp:653-656, IntegrationTypeTetrahedron.cpp:3086-3089 *)
Definition make_tensor_product (gauss_roots lobatto_roots : nat -> list R) (dim n : nat) (m : method) : outcome itype :=
  omap (TensorProduct dim) (integration_type gauss_roots lobatto_roots dim n m).
Definition make_triangle (order : Z) : outcome itype := Ok (Triangle order).
Definition make_tetrahedron (order : Z) : outcome itype :=
  if Z.ltb order 0 then UB else match nth_error order_to_index (Z.to_nat order) with Some index => Ok (Tetrahedron index) | None => UB end.

(** [v[i]] of a std::vector: out of range is undefined *)
Definition at_ {A} (l : list A) (i : Z) : outcome A :=
  if Z.ltb i 0 then UB else match nth_error l (Z.to_nat i) with Some x => Ok x | None => UB end.

(** GetNumIntegrationPoints: IntegrationTypeTensorProduct.cpp:49-53, IntegrationTypeTriangle.cpp:665-668,
    IntegrationTypeTetrahedron.cpp:3098-3101, IntegrationType3D6NGauss1Ip.cpp:10-13, IntegrationType3D6NGauss2x3Ip.cpp:40-43 *)
Definition GetNumIntegrationPoints (t : itype) : outcome Z :=
  match t with
  | TensorProduct _ points => Ok (Z.of_nat (length points))
  | Triangle order => omap (fun l => Z.of_nat (length l)) (at_ triangle_data (order - 1))
  | Tetrahedron index => omap (fun l => Z.of_nat (length l)) (at_ tetrahedron_data (Z.of_nat index))
  | Prism1Ip => Ok 1%Z
  | Prism2x3Ip => Ok 6%Z
  end.

(** GetLocalIntegrationPointCoordinates: IntegrationTypeTensorProduct.cpp:41-47, IntegrationTypeTriangle.cpp:658-662,
    IntegrationTypeTetrahedron.cpp:3091-3095, IntegrationType3D6NGauss1Ip.cpp:4-7, IntegrationType3D6NGauss2x3Ip.cpp:9-34 *)
Definition GetLocalIntegrationPointCoordinates (t : itype) (i : Z) : outcome (list R) :=
  match t with
  | TensorProduct _ points => ip_coords points i
  | Triangle order => obind (at_ triangle_data (order - 1)) (fun l => omap (fun '(x, y, w) => [coord x; coord y]) (at_ l i))
  | Tetrahedron index => obind (at_ tetrahedron_data (Z.of_nat index)) (fun l => omap (fun '(x, y, z, w) => [coord x; coord y; coord z]) (at_ l i))
  | Prism1Ip => Ok [1 / 3; 1 / 3; 0]
  | Prism2x3Ip =>
    match i with
    | 0%Z => Ok [1 / 6; 1 / 6; - g6]
    | 1%Z => Ok [4 / 6; 1 / 6; - g6]
    | 2%Z => Ok [1 / 6; 4 / 6; - g6]
    | 3%Z => Ok [1 / 6; 1 / 6; g6]
    | 4%Z => Ok [4 / 6; 1 / 6; g6]
    | 5%Z => Ok [1 / 6; 4 / 6; g6]
    | _ => Throw
    end
  end.

(** GetIntegrationPointWeight: IntegrationTypeTensorProduct.cpp:55-61, IntegrationTypeTriangle.cpp:671-675,
    IntegrationTypeTetrahedron.cpp:3104-3108, IntegrationType3D6NGauss1Ip.cpp:16-19, IntegrationType3D6NGauss2x3Ip.cpp:48-51 *)
Definition GetIntegrationPointWeight (t : itype) (i : Z) : outcome R :=
  match t with
  | TensorProduct _ points => ip_weight points i
  | Triangle order => obind (at_ triangle_data (order - 1)) (fun l => omap (fun '(x, y, w) => weight2 w) (at_ l i))
  | Tetrahedron index => obind (at_ tetrahedron_data (Z.of_nat index)) (fun l => omap (fun '(x, y, z, w) => weight3 w) (at_ l i))
  | Prism1Ip => Ok 1
  | Prism2x3Ip => Ok (1 / 6)
  end.

(** GetShape: IntegrationTypeTensorProduct.h:45-48, 58-62, IntegrationTypeTriangle.h:38-45, IntegrationTypeTetrahedron.h:40-47,
    IntegrationType3D6NGauss1Ip.h:29-35, IntegrationType3D6NGauss2x3Ip.h:32-38 *)
Definition GetShape (t : itype) : eshape :=
  match t with
  | TensorProduct dim _ => match dim with 1%nat => SLine | 2%nat => SQuadrilateral | _ => SHexahedron end
  | Triangle _ => STriangle
  | Tetrahedron _ => STetrahedron
  | Prism1Ip | Prism2x3Ip => SPrism
  end.
