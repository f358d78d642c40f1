(** * Vocabulary for the mesh properties C48-C50 (no loops, no groups) *)
From Coq Require Import List ZArith Reals.
From Verif Require Import RSum CellModel InterpolationModel MeshModel.
Import ListNotations.
Local Open Scope R_scope.

(** Euclidean distance of two points in [dim] dimensions *)
Definition distance (dim : nat) (a b : nat -> R) : R := sqrt (rsum dim (fun i => (a i - b i) ^ 2)).
(** a vector as a function of the component *)
Definition comp (l : list R) : nat -> R := fun i => nth i l 0.

(** an element of a mesh in [dim]-dimensional space: as many nodes as its interpolation has, at least one, each with
    [dim] values *)
Definition element_ok (values : Z -> list R) (dim : nat) (e : element) : Prop :=
  enodes e <> [] /\ length (enodes e) = inum (einterp e) /\ forall n, In n (enodes e) -> length (values n) = dim.
Definition mesh_ok (values : Z -> list R) (dim : nat) (elements : list collection) : Prop :=
  forall c, In c elements -> element_ok values dim (ecoord c)
    /\ forall d de, edof c d = Some de -> length (enodes de) = inum (einterp de).

(** [n] is a coordinate node of the mesh *)
Definition coordinate_node (elements : list collection) (n : Z) : Prop :=
  exists c, In c elements /\ In n (enodes (ecoord c)).

(** component [i] of the global position of the local point [x] of an element: sum of shape function times node value *)
Definition position (values : Z -> list R) (e : element) (x : nat -> R) (i : nat) : R :=
  rsum (length (enodes e)) (fun k => ishape (einterp e) x k * nth i (values (nth k (enodes e) 0%Z)) 0).

(** [n] is a node of the dof type [dof], used by some element at the position [p] *)
Definition dof_node_at (values : Z -> list R) (elements : list collection) (dof : Z) (n : Z) (p : nat -> R) : Prop :=
  exists c de k, In c elements /\ edof c dof = Some de /\ nth_error (enodes de) k = Some n
    /\ p = position values (ecoord c) (ilocal (einterp de) k).

(** the node values of an element as Cell passes them to the Jacobian *)
Definition node_values (values : Z -> list R) (dim : nat) (e : element) : list R :=
  extract_node_values dim (length (enodes e)) (fun k i => nth i (values (nth k (enodes e) 0%Z)) 0).
(** the derivatives of the shape functions of a table at a local point *)
Definition deriv_of (t : InterpolationModel.element) (x : nat -> R) : mfun := fun k j => nth j (nth k (e_deriv t x) []) 0.


(** no two nodes of the mesh have the same position, so elements that touch in a node share it *)
Definition nodes_distinct (m : unit_mesh) : Prop :=
  forall a b, coordinate_node (uelements m) a -> coordinate_node (uelements m) b -> unit_values m a = unit_values m b -> a = b.

(** ** for C50 *)

(** [p] lies in the bounding box of the coordinate nodes *)
Definition in_node_box (values : Z -> list R) (dim : nat) (elements : list collection) (p : nat -> R) : Prop :=
  forall i, (i < dim)%nat ->
    (exists n, coordinate_node elements n /\ comp (values n) i <= p i)
    /\ (exists n, coordinate_node elements n /\ p i <= comp (values n) i).

(** the bounding box is at least [w] wide in each direction *)
Definition node_box_wide (values : Z -> list R) (dim : nat) (elements : list collection) (w : R) : Prop :=
  forall i, (i < dim)%nat -> exists n m, coordinate_node elements n /\ coordinate_node elements m
    /\ w <= comp (values m) i - comp (values n) i.

(** the interpolation that element [c] gets *)
Definition new_interp (optIp : option interp) (c : collection) : interp :=
  match optIp with Some ip => ip | None => einterp (ecoord c) end.

(** [p] is the position of an interpolation point that the elements of the group will get *)
Definition new_point (values : Z -> list R) (elements : list collection) (group : list nat) (optIp : option interp)
  (p : nat -> R) : Prop :=
  exists idx c k, In idx group /\ nth_error elements idx = Some c /\ (k < inum (new_interp optIp c))%nat
    /\ p = position values (ecoord c) (ilocal (new_interp optIp c) k).

(** two dof nodes of the mesh are the same exactly if their positions are closer than [eps] *)
Definition nodes_shared (values : Z -> list R) (dim : nat) (elements : list collection) (dof : Z) (eps : R) : Prop :=
  forall n p n' p', dof_node_at values elements dof n p -> dof_node_at values elements dof n' p' ->
    (n = n' <-> distance dim p p' < eps).
