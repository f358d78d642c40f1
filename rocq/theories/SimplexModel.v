(** * Model of the simplex and prism integration types *)
From Coq Require Import List Arith Bool Reals ZArith.
From Verif Require Import Outcome SimplexTables.
Import ListNotations.
Local Open Scope R_scope.

Definition coord (z : Z) : R := IZR z / 10 ^ 19.
Definition weight2 (z : Z) : R := IZR z / 10 ^ 20.
Definition weight3 (z : Z) : R := IZR z / 10 ^ 26.

(** a rule: list of (weight, coordinates) *)
Notation rule := (list (R * list R)) (only parsing).

(** IntegrationTypeTriangle.cpp:653-675; reading outside of the vector is undefined behaviour *)
Definition triangle_type (order : Z) : outcome rule :=
  if Z.ltb (order - 1) 0 then UB
  else match nth_error triangle_data (Z.to_nat (order - 1)) with
  | Some pts => Ok (map (fun '(x, y, w) => (weight2 w, [coord x; coord y])) pts)
  | None => UB
  end.
(** GaussTriangle, IntegrationCompanion.cpp:24-31 *)
Definition gauss_triangle (order : Z) : outcome rule :=
  if Z.ltb 0 order && Z.ltb order 21 then triangle_type order else Throw.

(** IntegrationTypeTetrahedron.cpp:3086-3108 *)
Definition tetrahedron_type (order : Z) : outcome rule :=
  if Z.ltb order 0 then UB
  else match nth_error order_to_index (Z.to_nat order) with
  | None => UB
  | Some index =>
    match nth_error tetrahedron_data index with
    | Some pts => Ok (map (fun '(x, y, z, w) => (weight3 w, [coord x; coord y; coord z])) pts)
    | None => UB
    end
  end.
(** GaussTetrahedron, IntegrationCompanion.cpp:40-46 *)
Definition gauss_tetrahedron (order : Z) : outcome rule :=
  if Z.ltb 0 order && Z.ltb order 21 then tetrahedron_type order else Throw.

(** IntegrationType3D6NGauss1Ip.cpp:4-19 *)
Definition prism1 : rule := [(1, [1 / 3; 1 / 3; 0])].
(** IntegrationType3D6NGauss2x3Ip.cpp:9-50 *)
Definition g6 : R := 577350269189626 / 10 ^ 15.
Definition prism2 : rule :=
  [ (1 / 6, [1 / 6; 1 / 6; - g6]); (1 / 6, [4 / 6; 1 / 6; - g6]); (1 / 6, [1 / 6; 4 / 6; - g6]);
    (1 / 6, [1 / 6; 1 / 6; g6]); (1 / 6, [4 / 6; 1 / 6; g6]); (1 / 6, [1 / 6; 4 / 6; g6]) ].
(** GaussPrism, IntegrationCompanion.cpp:55-67 *)
Definition gauss_prism (order : Z) : outcome rule :=
  match order with 1%Z => Ok prism1 | 2%Z => Ok prism2 | _ => Throw end.
(** GaussPyramid, IntegrationCompanion.cpp:70-78 *)
Definition gauss_pyramid (order : Z) : outcome rule := Throw.
