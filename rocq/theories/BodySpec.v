(** * Specification for C105: forces, moments, mass of an assembled system *)
From Coq Require Import List Arith ZArith Reals.
From Verif Require Import Outcome RSum Algebra GroupModel DofModel DofSpec ConstraintModel CellModel CellSpec InterpolationModel EquilibriumSpec BodyModel.
Import ListNotations.
Local Open Scope R_scope.

(** component [i] of node [a] of a global vector with the dof numbers [h]; entry of a global matrix *)
Definition at_node (h : nodes) (t : Z) (F : dofvec R_cring) (a : Z) (i : nat) : R :=
  match dof_number h (a, Z.of_nat i) with Ok n => val F t (Z.to_nat n) | _ => 0 end.
Definition at_nodes (h : nodes) (t : Z) (K : dofmat R_cring) (a : Z) (i : nat) (b : Z) (j : nat) : R :=
  match dof_number h (a, Z.of_nat i), dof_number h (b, Z.of_nat j), mat_at K t t with
  | Ok n, Ok m, Some k => entry k (Z.to_nat n) (Z.to_nat m) | _, _, _ => 0 end.

(** sums over the nodes [l] *)
Definition over_nodes (l : list Z) (f : Z -> R) : R := rlsum (map f l).
(** resultant and moment of nodal forces; [place] are the coordinates of the nodes *)
Definition total_force (l : list Z) (F : Z -> nat -> R) (i : nat) : R := over_nodes l (fun a => F a i).
Definition total_moment (l : list Z) (place : Z -> nat -> R) (F : Z -> nat -> R) (i j : nat) : R :=
  over_nodes l (fun a => place a i * F a j - place a j * F a i).
(** forces of a stiffness matrix for the displacements [u], and their work on [w] *)
Definition stiffness_force (d : nat) (l : list Z) (K : Z -> nat -> Z -> nat -> R) (u : Z -> nat -> R) (a : Z) (i : nat) : R :=
  over_nodes l (fun b => rsum d (fun j => K a i b j * u b j)).
Definition total_work (d : nat) (l : list Z) (F : Z -> nat -> R) (w : Z -> nat -> R) : R :=
  over_nodes l (fun a => rsum d (fun i => F a i * w a i)).
(** displacements x |-> A x + b at the nodes *)
Definition affine_at (d : nat) (A : nat -> nat -> R) (b : nat -> R) (place : Z -> nat -> R) (a : Z) (i : nat) : R :=
  rsum d (fun j => A i j * place a j) + b i.

(** the dof nodes of a cell are nodes of the mesh *)
Definition nodes_of_mesh (l : list Z) (c : body_cell) : Prop := forall a, In a (bc_nodes c) -> In a l.
(** elements of the library, of full dimension *)
Definition solid (d : nat) (c : body_cell) : Prop :=
  usable (bc_geometry c) (bc_numIps c) (bc_ipCoord c) /\ usable (bc_element c) (bc_numIps c) (bc_ipCoord c) /\
  e_dim (bc_geometry c) = d /\ e_dim (bc_element c) = d.
(** geometry and displacement have the same interpolation and the same nodes in space *)
Definition isoparametric (coordinate place : Z -> nat -> R) (c : body_cell) : Prop :=
  bc_element c = bc_geometry c /\ forall k, (k < length (e_nodes (bc_geometry c)))%nat ->
    place (nth k (bc_nodes c) 0%Z) = coordinate (nth k (bc_coordinateNodes c) 0%Z).
(** the determinant at integration point [q] of a cell of full dimension *)
Definition det_at (d : nat) (coordinate : Z -> nat -> R) (c : body_cell) (q : nat) : R :=
  geometry_det (bc_geometry c) d (fun k => coordinate (nth k (bc_coordinateNodes c) 0%Z)) (bc_ipCoord c q).
Definition regular (d : nat) (coordinate : Z -> nat -> R) (c : body_cell) : Prop :=
  forall q, (q < bc_numIps c)%nat -> det_at d coordinate c q <> 0.
(** the integral of 1 over a cell, of any dimension: weights times determinants of the Jacobians [jac] *)
Definition measure_is (d : nat) (coordinate : Z -> nat -> R) (c : body_cell) (m : R) : Prop :=
  exists jac : nat -> jacobian,
    (forall q, (q < bc_numIps c)%nat -> make_jacobian (cell_coordinates d coordinate c) (length (e_nodes (bc_geometry c))) (e_dim (bc_geometry c))
       (fun k j => nth j (nth k (e_deriv (bc_geometry c) (fun i => nth i (bc_ipCoord c q) 0)) []) 0) = Ok (jac q)) /\
    m = rsum (bc_numIps c) (fun q => jDet (jac q) * bc_ipWeight c q).

(** ** Inner nodes of meshes of triangles and tetrahedra *)
(** the edges of the side opposite to the corner [a], with their direction *)
Definition edges_around (nodes : list Z) (a : Z) : list (Z * Z) :=
  match nodes with
  | [p; q; r] => if Z.eqb a p then [(q, r)] else if Z.eqb a q then [(r, p)] else if Z.eqb a r then [(p, q)] else []
  | [p; q; r; s] =>
    if Z.eqb a p then [(q, r); (r, s); (s, q)] else if Z.eqb a q then [(p, s); (s, r); (r, p)]
    else if Z.eqb a r then [(p, q); (q, s); (s, p)] else if Z.eqb a s then [(p, r); (r, q); (q, p)] else []
  | _ => []
  end.
(** the sides around [a] close up: in the plane every node of the curve is as often the end of an edge as its begin; in space every
    edge of the surface is passed as often in one direction as in the other *)
Definition inner_node (d : nat) (cells : list body_cell) (a : Z) : Prop :=
  let edges := flat_map (fun c => edges_around (bc_nodes c) a) cells in
  match d with
  | 2%nat => forall p, length (filter (fun e => Z.eqb (fst e) p) edges) = length (filter (fun e => Z.eqb (snd e) p) edges)
  | 3%nat => forall p q, length (filter (fun e => andb (Z.eqb (fst e) p) (Z.eqb (snd e) q)) edges) =
                         length (filter (fun e => andb (Z.eqb (fst e) q) (Z.eqb (snd e) p)) edges)
  | _ => False
  end.
(** linear triangles resp. tetrahedra with distinct corners *)
Definition simplex (d : nat) (c : body_cell) : Prop :=
  NoDup (bc_nodes c) /\ ((d = 2%nat /\ bc_geometry c = triangle_linear) \/ (d = 3%nat /\ bc_geometry c = tetrahedron_linear)).
