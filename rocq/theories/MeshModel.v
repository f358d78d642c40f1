(** * Model of nuto/mechanics/mesh/MeshFem.cpp and UnitMeshFem.cpp

    A node (NodeSimple) is identified by its address, a [Z]; [values n] are the values of its instance 0
    ([NodeSimple::GetValues()]).  [ValueVector] keeps the addresses of the nodes of a mesh valid (C04).
    Simplifications: [double] is modelled by the reals; the exception texts are left out. *)
From Coq Require Import List ZArith Arith Reals.
From Verif Require Import Outcome RSum GroupModel CellModel AdaptiveModel InterpolationModel.
Import ListNotations.
Local Open Scope R_scope.

(** InterpolationSimple: GetNumNodes, GetLocalCoords, GetShapeFunctions and GetShape (a tag); InterpolationSimple.h:14-49 *)
Record interp := mkInterp { inum : nat; ilocal : nat -> nat -> R; ishape : (nat -> R) -> nat -> R; itype : nat }.

(** an interpolation given by the tables of InterpolationModel.v *)
Definition of_table (t : InterpolationModel.element) (shapeTag : nat) : interp :=
  mkInterp (length (e_nodes t)) (fun k i => nth i (nth k (e_nodes t) []) 0) (fun x k => nth k (e_shape t x) 0) shapeTag.

(** ElementFem: node references and interpolation, ElementFem.h:105-108 *)
Record element := mkElement { enodes : list Z; einterp : interp }.

(** ElementCollectionFem: coordinate element and the dof elements per dof type, ElementCollection.h:101-104.
    Simplification: the DofContainer is a partial function (C07). *)
Record collection := mkCollection { ecoord : element; edof : Z -> option element }.

(** ElementFem::GetNode, ElementFem.h:87-98 *)
Definition get_node (e : element) (i : nat) : outcome Z :=
  match nth_error (enodes e) i with Some n => Ok n | None => UB end.

(** a loop with early return: the first hit of [f] along [l] *)
Fixpoint find_first {A B} (l : list A) (f : A -> outcome (option B)) : outcome (option B) :=
  match l with
  | [] => Ok None
  | a :: l' => obind (f a) (fun r => match r with Some b => Ok (Some b) | None => find_first l' f end)
  end.

(** a loop with a state *)
Fixpoint for_each {A S} (l : list A) (f : S -> A -> outcome S) (s : S) : outcome S :=
  match l with [] => Ok s | a :: l' => obind (f s a) (for_each l' f) end.

Section Mesh.
  (** uninitialised memory seen by Matrix::N and the values of the nodes *)
  Variables (garbage : mfun) (values : Z -> list R).

  (** Interpolate, ElementInterface.h:31-34, with ElementFem::GetNMatrix and ExtractNodeValues, ElementFem.h:33-60.
      Blocks of different size or a different number of shape functions are out of range accesses. *)
  Definition interpolate (e : element) (x : nat -> R) : outcome (list R) :=
    obind (get_node e 0) (fun n0 =>
      let dim := length (values n0) in
      let num := length (enodes e) in
      if andb (forallb (fun n => Nat.eqb (length (values n)) dim) (enodes e)) (Nat.eqb num (inum (einterp e)))
      then let nodeValues := extract_node_values dim num (fun k i => nth i (values (nth k (enodes e) 0%Z)) 0) in
           Ok (map (mvmul (num * dim) (matrix_N garbage (ishape (einterp e) x) (inum (einterp e)) dim)
                          (fun c => nth c nodeValues 0)) (seq 0 dim))
      else UB).

  (** [(a - b).isMuchSmallerThan(tol, 1)]: Eigen compares the sum of the squares with (1 * tol)^2; vectors of different
      length must not be subtracted *)
  Definition much_smaller (a b : list R) (tol : R) : outcome bool :=
    if Nat.eqb (length a) (length b)
    then Ok (rleb (rsum (length a) (fun i => (nth i a 0 - nth i b 0) * (nth i a 0 - nth i b 0))) ((1 * tol) * (1 * tol)))
    else UB.

  (** MeshFem::NodeAtCoordinate(coords, tol), MeshFem.cpp:37-52 *)
  Definition node_at_coordinate (elements : list collection) (coords : list R) (tol : R) : outcome Z :=
    obind (find_first elements (fun c =>
      find_first (seq 0 (inum (einterp (ecoord c)))) (fun i =>
        obind (get_node (ecoord c) i) (fun n =>
          obind (much_smaller (values n) coords tol) (fun b =>
            Ok (if b then Some n else None))))))
    (fun r => match r with Some n => Ok n | None => Throw end).

  (** MeshFem::NodeAtCoordinate(coords, dofType, tol), MeshFem.cpp:14-35 *)
  Definition dof_node_at_coordinate (elements : list collection) (coords : list R) (dof : Z) (tol : R) : outcome Z :=
    obind (find_first elements (fun c =>
      match edof c dof with
      | None => Ok None
      | Some de =>
        find_first (seq 0 (inum (einterp de))) (fun i =>
          obind (interpolate (ecoord c) (ilocal (einterp de) i)) (fun x =>
            obind (much_smaller x coords tol) (fun b =>
              if b then obind (get_node de i) (fun n => Ok (Some n)) else Ok None)))
      end))
    (fun r => match r with Some n => Ok n | None => Throw end).

  (** component access of a dynamic vector *)
  Definition component (x : list R) (d : nat) : outcome R :=
    match nth_error x d with Some v => Ok v | None => UB end.

  (** Group::Add *)
  Definition add_to (g : group) (n : Z) : outcome group :=
    match group_add g n with Some g' => Ok g' | None => UB end.

  (** MeshFem::NodesAtAxis(direction, axisOffset, tol), MeshFem.cpp:54-69 *)
  Definition nodes_at_axis (elements : list collection) (d : nat) (offset tol : R) : outcome group :=
    for_each elements (fun g c =>
      for_each (seq 0 (length (enodes (ecoord c)))) (fun g i =>
        obind (get_node (ecoord c) i) (fun n =>
          obind (component (values n) d) (fun v =>
            if rltb (Rabs (v - offset)) tol then add_to g n else Ok g))) g) group_empty.

  (** MeshFem::NodesAtAxis(direction, dofType, axisOffset, tol), MeshFem.cpp:71-93 *)
  Definition dof_nodes_at_axis (elements : list collection) (d : nat) (dof : Z) (offset tol : R) : outcome group :=
    for_each elements (fun g c =>
      match edof c dof with
      | None => Ok g
      | Some de =>
        for_each (seq 0 (inum (einterp de))) (fun g i =>
          obind (interpolate (ecoord c) (ilocal (einterp de) i)) (fun x =>
            obind (component x d) (fun v =>
              if rltb (Rabs (v - offset)) tol then obind (get_node de i) (add_to g) else Ok g))) g
      end) group_empty.

  (** MeshFem::NodesTotal(), MeshFem.cpp:95-102 *)
  Definition nodes_total (elements : list collection) : outcome group :=
    for_each elements (fun g c =>
      for_each (seq 0 (inum (einterp (ecoord c)))) (fun g i => obind (get_node (ecoord c) i) (add_to g)) g) group_empty.

  (** MeshFem::NodesTotal(dofType), MeshFem.cpp:104-115 *)
  Definition dof_nodes_total (elements : list collection) (dof : Z) : outcome group :=
    for_each elements (fun g c =>
      match edof c dof with
      | None => Ok g
      | Some de => for_each (seq 0 (inum (einterp de))) (fun g i => obind (get_node de i) (add_to g)) g
      end) group_empty.
End Mesh.

(** UnitMeshFem::Transform, UnitMeshFem.cpp:117-125: the loop over the group changes the node values one by one *)
Definition set_values (values : Z -> list R) (n : Z) (v : list R) : Z -> list R :=
  fun m => if Z.eqb m n then v else values m.
Definition transform (values : Z -> list R) (elements : list collection) (f : list R -> list R) : outcome (Z -> list R) :=
  obind (nodes_total elements) (fun g =>
    Ok (fold_left (fun vs n => set_values vs n (f (vs n))) (mData g) values)).

(** ** UnitMeshFem

    The meshes have the nodes [mesh.Nodes[0], mesh.Nodes[1], ...]; the address of node [i] is [Z.of_nat i].
    Simplification: the numbers of subdivisions are natural numbers. *)
Record unit_mesh := mkUnitMesh { unodes : list (list R); uelements : list collection }.
Definition unit_values (m : unit_mesh) : Z -> list R := fun n => nth (Z.to_nat n) (unodes m) [].

(** CreateNodes1D, UnitMeshFem.cpp:10-19 *)
Definition create_nodes_1d (numX : nat) : list (list R) :=
  map (fun iX => [INR iX / INR numX]) (seq 0 (numX + 1)).

(** CreateNodes2D, UnitMeshFem.cpp:22-33 *)
Definition create_nodes_2d (numX numY : nat) : list (list R) :=
  flat_map (fun iY => map (fun iX => [INR iX / INR numX; INR iY / INR numY]) (seq 0 (numX + 1))) (seq 0 (numY + 1)).

(** the node loop of CreateBricks, UnitMeshFem.cpp:86-97 *)
Definition create_nodes_3d (numX numY numZ : nat) : list (list R) :=
  flat_map (fun iZ => flat_map (fun iY =>
    map (fun iX => [INR iX / INR numX; INR iY / INR numY; INR iZ / INR numZ]) (seq 0 (numX + 1)))
    (seq 0 (numY + 1))) (seq 0 (numZ + 1)).

(** [mesh.Nodes[i]] for the indices [l], then [mesh.Elements.Add({{nodes, interpolation}})]; an index out of range is
    undefined behaviour *)
Definition add_element (nodes : list (list R)) (ip : interp) (es : list collection) (l : list nat) : outcome (list collection) :=
  if forallb (fun i => Nat.ltb i (length nodes)) l
  then Ok (es ++ [mkCollection (mkElement (map Z.of_nat l) ip) (fun _ => None)]) else UB.

(** UnitMeshFem::CreateLines, UnitMeshFem.cpp:36-47 *)
Definition create_lines (numX : nat) : outcome unit_mesh :=
  let nodes := create_nodes_1d numX in
  omap (mkUnitMesh nodes)
    (for_each (seq 0 numX) (fun es i => add_element nodes (of_table truss_linear 0) es [i; i + 1]%nat) []).

(** UnitMeshFem::CreateTriangles, UnitMeshFem.cpp:50-65 *)
Definition create_triangles (numX numY : nat) : outcome unit_mesh :=
  let nodes := create_nodes_2d numX numY in
  omap (mkUnitMesh nodes)
    (for_each (seq 0 numY) (fun es iY => for_each (seq 0 numX) (fun es iX =>
      let node0 := (iX + iY * (numX + 1))%nat in
      let node1 := (iX + 1 + iY * (numX + 1))%nat in
      let node2 := (iX + 1 + (iY + 1) * (numX + 1))%nat in
      let node3 := (iX + (iY + 1) * (numX + 1))%nat in
      obind (add_element nodes (of_table triangle_linear 1) es [node0; node1; node2])
        (fun es => add_element nodes (of_table triangle_linear 1) es [node0; node2; node3])) es) []).

(** UnitMeshFem::CreateQuads, UnitMeshFem.cpp:67-81 *)
Definition create_quads (numX numY : nat) : outcome unit_mesh :=
  let nodes := create_nodes_2d numX numY in
  omap (mkUnitMesh nodes)
    (for_each (seq 0 numY) (fun es iY => for_each (seq 0 numX) (fun es iX =>
      let node0 := (iX + iY * (numX + 1))%nat in
      let node1 := (iX + 1 + iY * (numX + 1))%nat in
      let node2 := (iX + 1 + (iY + 1) * (numX + 1))%nat in
      let node3 := (iX + (iY + 1) * (numX + 1))%nat in
      add_element nodes (of_table quad_linear 2) es [node0; node1; node2; node3]) es) []).

(** UnitMeshFem::CreateBricks, UnitMeshFem.cpp:83-114 *)
Definition create_bricks (numX numY numZ : nat) : outcome unit_mesh :=
  let nodes := create_nodes_3d numX numY numZ in
  let numXe := (numX + 1)%nat in
  let numYe := (numY + 1)%nat in
  omap (mkUnitMesh nodes)
    (for_each (seq 0 numZ) (fun es iZ => for_each (seq 0 numY) (fun es iY => for_each (seq 0 numX) (fun es iX =>
      let node0 := (iX + iY * numXe + iZ * numXe * numYe)%nat in
      let node1 := (iX + 1 + iY * numXe + iZ * numXe * numYe)%nat in
      let node2 := (iX + 1 + (iY + 1) * numXe + iZ * numXe * numYe)%nat in
      let node3 := (iX + (iY + 1) * numXe + iZ * numXe * numYe)%nat in
      let node4 := (iX + iY * numXe + (iZ + 1) * numXe * numYe)%nat in
      let node5 := (iX + 1 + iY * numXe + (iZ + 1) * numXe * numYe)%nat in
      let node6 := (iX + 1 + (iY + 1) * numXe + (iZ + 1) * numXe * numYe)%nat in
      let node7 := (iX + (iY + 1) * numXe + (iZ + 1) * numXe * numYe)%nat in
      add_element nodes (of_table brick_linear 3) es [node0; node1; node2; node3; node4; node5; node6; node7]) es) es) []).
