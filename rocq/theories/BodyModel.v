(** * A mesh of cells with mechanical integrands, assembled: the composition of Cell.h and ElementFem.h (CellModel, EquilibriumModel) with
      SimpleAssembler.cpp (AssemblerModel) for one dof type *)
From Coq Require Import List Arith ZArith Bool Reals.
From Verif Require Import Outcome RSum Algebra DofModel ConstraintModel AssemblerModel CellModel ElasticModel IntegrandModel InterpolationModel EquilibriumModel.
Import ListNotations.
Local Open Scope R_scope.

(** a Cell (Cell.h:17-30) with its ElementCollection: the element of the coordinates and the one of the dof type, both with
    the addresses of their nodes (ElementFem.h:15-30) *)
Record body_cell := mkBody {
  bc_geometry : element; bc_coordinateNodes : list Z;
  bc_element : element; bc_nodes : list Z;
  bc_id : Z; bc_numIps : nat; bc_ipCoord : nat -> list R; bc_ipWeight : nat -> R }.

Fixpoint all_of {A} (l : list (outcome A)) : outcome (list A) :=
  match l with [] => Ok [] | o :: l' => obind o (fun a => omap (cons a) (all_of l')) end.

Section Body.
  (** global dimension, the dof type, what the coordinate nodes hold, the dof numbers and values of the dof nodes; every node holds
      [d] values *)
  Variables (d : nat) (dofType : Z) (coordinate : Z -> nat -> R) (h : nodes) (value : Z -> nat -> R).

  (** the assert of the constructor, ElementFem.h:21, 30 *)
  Definition nodes_fit (c : body_cell) : bool :=
    andb (Nat.eqb (length (bc_coordinateNodes c)) (length (e_nodes (bc_geometry c))))
         (Nat.eqb (length (bc_nodes c)) (length (e_nodes (bc_element c)))).
  (** ExtractNodeValues of the two elements, ElementFem.h:33-40 *)
  Definition cell_coordinates (c : body_cell) : list R :=
    extract_node_values d (length (e_nodes (bc_geometry c))) (fun k => coordinate (nth k (bc_coordinateNodes c) 0%Z)).
  Definition cell_values (c : body_cell) (k : nat) : nat -> R := value (nth k (bc_nodes c) 0%Z).
  (** GetDofNumbering, ElementFem.h:63-76 *)
  Definition cell_numbers (c : body_cell) : outcome (list Z) :=
    all_of (map (dof_number h) (flat_map (fun a => map (fun i => (a, Z.of_nat i)) (seq 0 d)) (bc_nodes c))).

  (** Matrix::N at an integration point, CellIpData.h:79-87 and ElementFem.h:42-45 *)
  Definition ip_N (garbage : mfun) (c : body_cell) (ip : ipdata) : mfun :=
    matrix_N garbage (fun k => nth k (e_shape (bc_element c) (as_point (ipCoords ip))) 0) (length (e_nodes (bc_element c))) d.

  (** Cell::Integrate of NeumannBc::ExternalLoad and of DynamicMomentumBalance::Hessian2 *)
  Definition cell_Load (garbage : mfun) (factor : vec) (c : body_cell) : outcome vec :=
    obind (integrate (bc_id c) (bc_numIps c) (bc_ipCoord c) (bc_ipWeight c) (cell_coordinates c) (length (e_nodes (bc_geometry c)))
             (e_dim (bc_geometry c)) (fun x => as_matrix (e_deriv (bc_geometry c) (as_point x))) vec_add vec_scale
             (fun (_ : unit) ip => (tt, Ok (nb_ExternalLoad d factor (ip_N garbage c ip)))) (Ok (fun _ => 0)) tt) snd.
  Definition cell_Mass (garbage : mfun) (rho : R) (c : body_cell) : outcome mat :=
    obind (integrate (bc_id c) (bc_numIps c) (bc_ipCoord c) (bc_ipWeight c) (cell_coordinates c) (length (e_nodes (bc_geometry c)))
             (e_dim (bc_geometry c)) (fun x => as_matrix (e_deriv (bc_geometry c) (as_point x))) mat_add mat_scale
             (fun (_ : unit) ip => (tt, Ok (dm_Hessian2 d rho (ip_N garbage c ip)))) (Ok (fun _ _ => 0)) tt) snd.
  (** Cell::Integrate of MomentumBalance::Gradient and Hessian0 *)
  Definition cell_Forces (stress : ipdata -> vec -> outcome vec) (c : body_cell) : outcome vec :=
    cell_Gradient d stress (bc_geometry c) (cell_coordinates c) (bc_element c) d (cell_values c) (bc_id c) (bc_numIps c) (bc_ipCoord c) (bc_ipWeight c).
  Definition cell_Stiffness (tangent : ipdata -> vec -> outcome mat) (c : body_cell) : outcome mat :=
    cell_Hessian0 d tangent (bc_geometry c) (cell_coordinates c) (bc_element c) d (cell_values c) (bc_id c) (bc_numIps c) (bc_ipCoord c) (bc_ipWeight c).

  (** what SimpleAssembler gets from a cell, SimpleAssembler.cpp:40-62 and 118-138: the local vector resp. matrix of the dof type and
      its numbers *)
  Definition local_vector (integral : body_cell -> outcome vec) (c : body_cell) : outcome (vcell R_cring) :=
    if nodes_fit c then
      obind (integral c) (fun f => omap (fun nums =>
        mkVCell (F := R_cring) [(dofType, map f (seq 0 (length (e_nodes (bc_element c)) * d)))] (fun _ => nums)) (cell_numbers c))
    else UB.
  Definition local_matrix (integral : body_cell -> outcome mat) (c : body_cell) : outcome (mcell R_cring) :=
    if nodes_fit c then
      obind (integral c) (fun K => omap (fun nums =>
        let n := (length (e_nodes (bc_element c)) * d)%nat in
        mkMCell (F := R_cring) [((dofType, dofType), mkD (F := R_cring) n n K)] (fun _ => nums)) (cell_numbers c))
    else UB.
  Definition local_vectors (integral : body_cell -> outcome vec) (cells : list body_cell) : outcome (list (vcell R_cring)) :=
    all_of (map (local_vector integral) cells).
  Definition local_matrices (integral : body_cell -> outcome mat) (cells : list body_cell) : outcome (list (mcell R_cring)) :=
    all_of (map (local_matrix integral) cells).
End Body.
