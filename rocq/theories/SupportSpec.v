(** * Specification for C106: elastic bodies on supports *)
From Coq Require Import List Arith ZArith Reals.
From Verif Require Import Outcome RSum Algebra DofModel ConstraintModel ConstraintSpec InterpolationModel EquilibriumSpec BodyModel BodySpec SolveModel SolveSpec.
Import ListNotations.
Local Open Scope R_scope.

(** ** Meshes *)
(** linear lines, triangles and tetrahedra *)
Definition linear_simplex (c : body_cell) : Prop :=
  NoDup (bc_nodes c) /\ In (bc_geometry c) [truss_linear; triangle_linear; tetrahedron_linear].
(** two cells have a side in common: a node of lines, two nodes of triangles, three nodes of tetrahedra *)
Definition common_side (d : nat) (c c' : body_cell) : Prop :=
  exists side, NoDup side /\ length side = d /\ forall a, In a side -> In a (bc_nodes c) /\ In a (bc_nodes c').
(** one gets from each cell to each other one through common sides *)
Inductive side_path (d : nat) (cells : list body_cell) (c : body_cell) : body_cell -> Prop :=
| path_here : In c cells -> side_path d cells c c
| path_step c' c'' : side_path d cells c c' -> In c'' cells -> common_side d c' c'' -> side_path d cells c c''.
Definition one_piece (d : nat) (cells : list body_cell) : Prop :=
  forall c c', In c cells -> In c' cells -> side_path d cells c c'.
(** cells of the library's linear simplices with positive integration weights, nodes in [l] at [place] *)
Definition elastic_cell (d : nat) (l : list Z) (coordinate place : Z -> nat -> R) (c : body_cell) : Prop :=
  solid d c /\ nodes_of_mesh l c /\ isoparametric coordinate place c /\ linear_simplex c /\ (0 < bc_numIps c)%nat /\
  forall q, (q < bc_numIps c)%nat -> 0 < det_at d coordinate c q * bc_ipWeight c q.
Definition node_of_cells (cells : list body_cell) (a : Z) : Prop := exists c, In c cells /\ In a (bc_nodes c).

(** ** Supports *)
(** nodal displacements that satisfy the constraint equations with right hand side zero *)
Definition fulfils (c : constraints) (t : Z) (w : Z -> nat -> R) : Prop :=
  forall e, In e (equations c t) ->
    let at_key k := w (fst k) (Z.to_nat (snd k)) in
    at_key (edep e) + fold_right (fun tm s => coef tm * at_key (tkey tm) + s) 0 (eind e) = 0.
(** the supports allow no rigid motion *)
Definition supported (d : nat) (c : constraints) (t : Z) (l : list Z) (place : Z -> nat -> R) : Prop :=
  forall A b, skew d A -> fulfils c t (affine_at d A b place) -> forall a i, In a l -> (i < d)%nat -> affine_at d A b place a i = 0.

(** a linear solver that solves every regular system *)
Definition solver_complete (linsolve : nat -> (nat -> nat -> R) -> list R -> outcome (list R)) : Prop :=
  forall n A b, length b = n ->
    (forall x : nat -> R, (forall i, (i < n)%nat -> rsum n (fun j => A i j * x j) = 0) -> forall i, (i < n)%nat -> x i = 0) ->
    exists x, linsolve n A b = Ok x.

(** no displacements that the supports allow, other than zero, are free of energy; for block systems *)
Definition definite (K : dofmat R_cring) (c : constraints) (dofs : list Z) (size : Z -> nat) (num : Z -> dofkey -> nat) : Prop :=
  forall w, admissible c dofs num w -> virtual_work size dofs w (residual K size dofs w (fun _ _ => 0)) = 0 ->
    forall d i, In d dofs -> (i < size d)%nat -> w d i = 0.

(** potential energy of the displacements [w] under the loads [p] *)
Definition potential (d : nat) (l : list Z) (K : Z -> nat -> Z -> nat -> R) (p w : Z -> nat -> R) : R :=
  total_work d l (stiffness_force d l K w) w / 2 - total_work d l p w.
