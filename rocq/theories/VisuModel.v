(** * Model of nuto/visualize: Visualizer and its handlers

    The grid is that of GridModel.v.  A cell is its shape and the interpolation of its coordinates; the interpolated dof
    values, the integration point values and the functions of the coordinates are given with the calls, because they change
    from one call to the next.  A failed assert is [UB]. *)
From Coq Require Import String List ZArith Arith Reals Bool.
From Verif Require Import Outcome GridModel ShapeModel.
Import ListNotations.
Local Open Scope Z_scope.

(** CellInterface::GetShape and Interpolate(coords), CellInterface.h:20-50 *)
Record vobj := mkObj { v_shape : eshape; v_coords : list R -> list R }.

(** AverageGeometries.h:19-57 and GetGeometry, AverageHandler.cpp:15-32; the cell types by their VTK numbers *)
Definition average_geometry (s : eshape) : outcome (list (list R) * Z) :=
  match s with
  | SLine => Ok ([[-1]; [1]], 3%Z)
  | SQuadrilateral => Ok ([[-1; -1]; [1; -1]; [1; 1]; [-1; 1]], 9%Z)
  | STriangle => Ok ([[0; 0]; [1; 0]; [0; 1]], 5%Z)
  | STetrahedron => Ok ([[0; 0; 0]; [1; 0; 0]; [0; 1; 0]; [0; 0; 1]], 10%Z)
  | SPrism => Ok ([[0; 0; -1]; [1; 0; -1]; [0; 1; -1]; [0; 0; 1]; [1; 0; 1]; [0; 1; 1]], 13%Z)
  | _ => Throw
  end%R.

(** AverageHandler, VoronoiHandler (VoronoiHandler.h:15-25: points, and corners and type of each cell), PointHandler *)
Inductive handler := HAverage | HVoronoi (pts : list (list R)) (cells : list (list Z * Z)) | HPoint (pts : list (list R)).

(** the loop over AddPoint: AverageHandler.cpp:39-40, VoronoiHandler.cpp:20-22, PointHandler.cpp:29-33 *)
Fixpoint add_points (g : grid) (o : vobj) (pts : list (list R)) : outcome (grid * list Z) :=
  match pts with
  | [] => Ok (g, [])
  | x :: pts' => obind (add_point g (v_coords o x)) (fun '(g1, id) => omap (fun '(g2, ids) => (g2, id :: ids)) (add_points g1 o pts'))
  end.
(** [pointIds[i]] for all corners, VoronoiHandler.cpp:27-29 *)
Fixpoint local_ids (pids corners : list Z) : outcome (list Z) :=
  match corners with [] => Ok [] | i :: l => obind (at_index pids i) (fun id => omap (cons id) (local_ids pids l)) end.
(** VoronoiHandler.cpp:25-31 *)
Fixpoint add_cells (g : grid) (pids : list Z) (cells : list (list Z * Z)) : outcome (grid * list Z) :=
  match cells with
  | [] => Ok (g, [])
  | (corners, t) :: l => obind (local_ids pids corners) (fun ids => obind (add_cell g ids t) (fun '(g1, id) =>
      omap (fun '(g2, sub) => (g2, id :: sub)) (add_cells g1 pids l)))
  end.
(** WriteGeometry: AverageHandler.cpp:33-44, VoronoiHandler.cpp:18-34, PointHandler.cpp:26-35; the ids of the points and the entry
    for [mSubCells] *)
Definition write_geometry (h : handler) (o : vobj) (g : grid) : outcome (grid * list Z * list Z) :=
  match h with
  | HAverage => obind (average_geometry (v_shape o)) (fun '(pts, t) => obind (add_points g o pts) (fun '(g1, pids) =>
      omap (fun '(g2, _) => (g2, pids, [])) (add_cell g1 pids t)))
  | HVoronoi pts cells => obind (add_points g o pts) (fun '(g1, pids) => omap (fun '(g2, sub) => (g2, pids, sub)) (add_cells g1 pids cells))
  | HPoint pts => omap (fun '(g1, pids) => (g1, pids, [])) (add_points g o pts)
  end.

(** Visualizer.h:45-52: the grid, [mPointIds]; [mSubCells] of the cloned handler *)
Record visu := mkVisu { vi_grid : grid; vi_pids : list (list Z); vi_sub : list (list Z) }.
(** Visualizer::WriteGeometry, Visualizer.cpp:48-52; called by the constructor, lines 6-11 *)
Fixpoint write_all_geometry (h : handler) (objs : list vobj) (v : visu) : outcome visu :=
  match objs with
  | [] => Ok v
  | o :: l => obind (write_geometry h o (vi_grid v)) (fun '(g, pids, sub) => write_all_geometry h l (mkVisu g (vi_pids v ++ [pids]) (vi_sub v ++ [sub])))
  end.
Definition visualizer (h : handler) (objs : list vobj) : outcome visu := write_all_geometry h objs (mkVisu grid_empty [] []).

(** the points a handler evaluates: AverageHandler.cpp:51-52 and 77-78, VoronoiHandler.cpp:41-43 and 64-66 *)
Definition handler_points (h : handler) (s : eshape) : outcome (list (list R)) :=
  match h with HAverage => omap fst (average_geometry s) | HVoronoi pts _ => Ok pts | HPoint pts => Ok pts end.
(** the loops over SetPointData: [pointIds[i]] gets the value at point i *)
Fixpoint set_points (g : grid) (name : string) (pids : list Z) (i : Z) (vals : list (outcome (list R))) : outcome grid :=
  match vals with
  | [] => Ok g
  | ov :: l => obind ov (fun v => obind (at_index pids i) (fun id => obind (set_point_data g id name v) (fun g1 => set_points g1 name pids (i + 1) l)))
  end.
(** PointHandler.cpp:41-45 and 62-66: the loop runs over [pointIds] and reads [mIntegrationPointCoords[i]] *)
Definition per_id (pids : list Z) (pts : list (list R)) : list (outcome (list R)) :=
  map (fun i => match nth_error pts i with Some x => Ok x | None => UB end) (seq 0 (length pids)).
Definition evaluated (h : handler) (pids : list Z) (pts : list (list R)) : list (outcome (list R)) :=
  match h with HPoint _ => per_id pids pts | _ => map (fun x => Ok x) pts end.

(** WriteDofValues: AverageHandler.cpp:46-61, VoronoiHandler.cpp:36-50, PointHandler.cpp:37-46 (no conversion to 3D) *)
Definition dof_value (h : handler) (num : Z) (v : list R) : outcome (list R) :=
  match h with HPoint _ => Ok v | _ => if Z.eqb num 2 then to3d v else Ok v end.
Definition write_dof (h : handler) (o : vobj) (pids : list Z) (name : string) (num : Z) (f : list R -> list R) (g : grid) : outcome grid :=
  obind (handler_points h (v_shape o)) (fun pts =>
    set_points (define_point_data g name) name pids 0 (map (fun ox => obind ox (fun x => dof_value h num (f x))) (evaluated h pids pts))).
(** PointData: AverageHandler.cpp:73-83, VoronoiHandler.cpp:60-70, PointHandler.cpp:57-67 *)
Definition write_point (h : handler) (o : vobj) (pids : list Z) (name : string) (f : list R -> list R) (g : grid) : outcome grid :=
  obind (handler_points h (v_shape o)) (fun pts =>
    set_points (define_point_data g name) name pids 0 (map (fun ox => omap (fun x => f (v_coords o x)) ox) (evaluated h pids pts))).

(** [sum += val] of vectors of different sizes is a failed assert of Eigen *)
Fixpoint vec_add (a b : list R) : outcome (list R) :=
  match a, b with [], [] => Ok [] | x :: a', y :: b' => omap (cons (x + y)%R) (vec_add a' b') | _, _ => UB end.
Fixpoint vec_sum (a : list R) (vs : list (list R)) : outcome (list R) :=
  match vs with [] => Ok a | v :: l => obind (vec_add a v) (fun s => vec_sum s l) end.
(** the loop of VoronoiHandler::CellData, VoronoiHandler.cpp:56-57 *)
Fixpoint set_cells (g : grid) (name : string) (sub : list Z) (i : Z) (vals : list (list R)) : outcome grid :=
  match vals with
  | [] => Ok g
  | v :: l => obind (at_index sub i) (fun id => obind (set_cell_data g id name v) (fun g1 => set_cells g1 name sub (i + 1) l))
  end.
(** the loop of PointHandler::CellData, PointHandler.cpp:53-54 *)
Fixpoint set_offset (g : grid) (name : string) (offset i : Z) (vals : list (list R)) : outcome grid :=
  match vals with
  | [] => Ok g
  | v :: l => obind (set_point_data g (i + offset) name v) (fun g1 => set_offset g1 name offset (i + 1) l)
  end.
(** CellData: AverageHandler.cpp:63-71, VoronoiHandler.cpp:52-58, PointHandler.cpp:48-55 *)
Definition write_cell (h : handler) (sub : list (list Z)) (cell : Z) (name : string) (vals : list (list R)) (g : grid) : outcome grid :=
  match h with
  | HAverage =>
    match vals with
    | [] => UB
    | v0 :: _ => obind (vec_sum (repeat 0%R (length v0)) vals) (fun s =>
        set_cell_data (define_cell_data g name) cell name (map (fun x => (x / INR (length vals))%R) s))
    end
  | HVoronoi _ _ => obind (at_index sub cell) (fun ids =>
      if Nat.eqb (length vals) (length ids) then set_cells (define_cell_data g name) name ids 0 vals else UB)
  | HPoint pts =>
      if Nat.eqb (length vals) (length pts) then set_offset (define_point_data g name) name (cell * Z.of_nat (length vals)) 0 vals else UB
  end.

(** DofValues, CellData, PointData, Visualizer.cpp:13-41.  [VDof name num f]: f i x is the dof value of the i-th cell at x; [VCell name
    vals]: vals i are the values that Eval of the i-th cell returns *)
Inductive vop := VDof (name : string) (num : Z) (f : nat -> list R -> list R) | VCell (name : string) (vals : nat -> list (list R))
  | VPoint (name : string) (f : list R -> list R).
(** the loop over the cells; [i] counts from the first of them *)
Fixpoint for_cells (body : nat -> vobj -> grid -> outcome grid) (objs : list vobj) (i : nat) (g : grid) : outcome grid :=
  match objs with [] => Ok g | o :: l => obind (body i o g) (fun g1 => for_cells body l (S i) g1) end.
(** [mPointIds[i]] *)
Definition pids_of (v : visu) (i : nat) : outcome (list Z) := match nth_error (vi_pids v) i with Some l => Ok l | None => UB end.
Definition visu_op (h : handler) (objs : list vobj) (v : visu) (op : vop) : outcome visu :=
  omap (fun g => mkVisu g (vi_pids v) (vi_sub v))
    match op with
    | VDof name num f => for_cells (fun i o g => obind (pids_of v i) (fun pids => write_dof h o pids name num (f i) g)) objs 0 (vi_grid v)
    | VCell name vals => for_cells (fun i o g => write_cell h (vi_sub v) (Z.of_nat i) name (vals i) g) objs 0 (vi_grid v)
    | VPoint name f => for_cells (fun i o g => obind (pids_of v i) (fun pids => write_point h o pids name f g)) objs 0 (vi_grid v)
    end.
Fixpoint visu_run (h : handler) (objs : list vobj) (v : visu) (ops : list vop) : outcome visu :=
  match ops with [] => Ok v | op :: l => obind (visu_op h objs v op) (fun v1 => visu_run h objs v1 l) end.
