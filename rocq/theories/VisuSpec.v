(** * What a user of Visualizer expects, independent of its implementation *)
From Coq Require Import String List ZArith Arith Reals Bool.
From Verif Require Import RSum Outcome GridModel ShapeModel PropShape VisuModel.
Import ListNotations.
Local Open Scope Z_scope.

(** the points of a cell that are drawn: its corner nodes, or the points the handler was made with *)
Definition points_of (h : handler) (o : vobj) : list (list R) :=
  match h with HAverage => corners (v_shape o) | HVoronoi pts _ => pts | HPoint pts => pts end.
(** the visualization cells of a cell: corners (as numbers of its points) and VTK type *)
Definition vtk_type (s : eshape) : Z :=
  match s with SLine => 3 | STriangle => 5 | SQuadrilateral => 9 | STetrahedron => 10 | SHexahedron => 12 | SPrism => 13 | SPyramid => 14 end.
Definition cells_of (h : handler) (o : vobj) : list (list Z * Z) :=
  match h with
  | HAverage => [(map Z.of_nat (seq 0 (length (corners (v_shape o)))), vtk_type (v_shape o))]
  | HVoronoi _ cells => cells
  | HPoint _ => []
  end.
(** the number of the first point and of the first visualization cell of the c-th cell *)
Fixpoint first_of (count : vobj -> nat) (objs : list vobj) (c : nat) : Z :=
  match objs, c with o :: l, S c' => Z.of_nat (count o) + first_of count l c' | _, _ => 0 end.
Definition first_point (h : handler) := first_of (fun o => length (points_of h o)).
Definition first_cell (h : handler) := first_of (fun o => length (cells_of h o)).
(** a vector as three components *)
Definition pad3 (v : list R) : list R := v ++ repeat 0%R (3 - length v).

(** preconditions *)
Definition supported (h : handler) (o : vobj) : Prop :=
  (match h with
   | HAverage => v_shape o <> SHexahedron /\ v_shape o <> SPyramid
   | HVoronoi pts cells => forall ids t i, In (ids, t) cells -> In i ids -> 0 <= i < Z.of_nat (length pts)
   | HPoint _ => True
   end) /\ forall x, In x (points_of h o) -> (length (v_coords o x) <= 3)%nat.
Definition op_ok (h : handler) (objs : list vobj) (op : vop) : Prop :=
  forall c o, nth_error objs c = Some o ->
  match op with
  | VDof _ num f => match h with HPoint _ => True | _ => num = 2 -> forall x, In x (points_of h o) -> (length (f c x) <= 3)%nat end
  | VCell _ vals =>
    match h with
    | HAverage => exists n, vals c <> [] /\ forall v, In v (vals c) -> length v = n
    | HVoronoi _ cells => length (vals c) = length cells
    | HPoint pts => length (vals c) = length pts
    end
  | VPoint _ _ => True
  end.

(** under which name a call stores data, and whether for the visualization cells (true) or points *)
Definition target (h : handler) (op : vop) : bool * string :=
  match op with
  | VDof name _ _ => (false, name)
  | VPoint name _ => (false, name)
  | VCell name _ => (match h with HPoint _ => false | _ => true end, name)
  end.
(** the mean of vectors *)
Definition mean (vals : list (list R)) : list R :=
  map (fun k => (rsum (length vals) (fun j => nth k (nth j vals []) 0) / INR (length vals))%R) (seq 0 (length (hd [] vals))).
(** the value that a call stores for point (or visualization cell) number i of cell c *)
Definition stored (h : handler) (op : vop) (c : nat) (o : vobj) (i : nat) : list R :=
  let x := nth i (points_of h o) [] in
  match op with
  | VDof _ num f => match h with HPoint _ => f c x | _ => if Z.eqb num 2 then pad3 (f c x) else f c x end
  | VPoint _ f => f (v_coords o x)
  | VCell _ vals => match h with HAverage => mean (vals c) | _ => nth i (vals c) [] end
  end.
(** the number of items of cell c and the id of the i-th of them *)
Definition items (h : handler) (k : bool) (o : vobj) : nat := if k then length (cells_of h o) else length (points_of h o).
Definition item (h : handler) (k : bool) (objs : list vobj) (c i : nat) : Z := first_of (items h k) objs c + Z.of_nat i.
(** what the file writer reads *)
Definition data (k : bool) (g : grid) (id : Z) (name : string) : outcome (list R) := if k then cell_data g id name else point_data g id name.
(** the drawn geometry *)
Definition geometry (h : handler) (objs : list vobj) (g : grid) : Prop :=
  (forall c o i x, nth_error objs c = Some o -> nth_error (points_of h o) i = Some x ->
    omap p_coords (at_index (g_points g) (item h false objs c i)) = Ok (pad3 (v_coords o x))) /\
  (forall c o i ids t, nth_error objs c = Some o -> nth_error (cells_of h o) i = Some (ids, t) ->
    omap (fun v => (c_ids v, c_type v)) (at_index (g_cells g) (item h true objs c i)) = Ok (map (fun j => first_point h objs c + j) ids, t)) /\
  Z.of_nat (length (g_points g)) = first_point h objs (length objs) /\ Z.of_nat (length (g_cells g)) = first_cell h objs (length objs).
