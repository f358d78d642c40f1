(** Model of the Voronoi cells and the visualization cells of nuto/math/DelaunayVoronoi.h.  Coordinates are exact reals. *)
From Coq Require Import Reals ZArith List Bool Arith.
From Verif Require Import Outcome AdaptiveModel CollisionModel DelaunayModel PolygonModel.
Import ListNotations.
Local Open Scope R_scope.

(** std::unordered_map<Edge, std::vector<const Triangle*>>, lines 604-616: edges with the same two ends are one key; the stored key
    is the edge of the first triangle.  The entries are kept in the order of their insertion. *)
Definition edge_map : Type := list (edge * list triangle).
Fixpoint edge_put (e : edge) (t : triangle) (m : edge_map) : edge_map :=
  match m with
  | [] => [(e, [t])]
  | (k, ts) :: m' => if edge_eqb k e then (k, ts ++ [t]) :: m' else (k, ts) :: edge_put e t m'
  end.
Definition edge_to_triangle (tris : list triangle) : edge_map :=
  fold_left (fun m t => fold_left (fun m e => edge_put e t m) (triangle_edges t) m) tris [].

(** GetCircumcenter of a triangle of Delaunay's triangulation; with corners on a line the quotients are infinite or not a number,
    and so is all that follows: [UB] stands for that *)
Definition center_of_triangle (t : triangle) : outcome p2 :=
  let '(A, B, C) := unique_points t in
  if reqb (2 * (px A * (py B - py C) + px B * (py C - py A) + px C * (py A - py B))) 0 then UB else Ok (circumcenter t).
Definition neg2 (a : p2) : p2 := (- px a, - py a).

(** lines 640-689: the ends of the Voronoi edge across an edge of one triangle; [None] is [continue] *)
Definition single_side (boundary : list p2) (e : edge) (t : triangle) : outcome (option (p2 * p2)) :=
  obind (center_of_triangle t) (fun p0 =>
    let ev := sub2 (snd e) (fst e) in
    if reqb (dot2 ev ev) 0 then UB
    else
      let f := dot2 ev (sub2 p0 (fst e)) / dot2 ev ev in
      let edgePoint := (px (fst e) + f * px ev, py (fst e) + f * py ev) in
      let n0 := sub2 edgePoint p0 in
      let n1 := if rltb (Rabs (dot2 n0 n0)) (/ 100000000) then (py ev, - px ev) else n0 in
      let again := existsb (fun e' => andb (negb (edge_eqb e' e)) (param_test (fun l => rltb 1 l) (line_parameter e' p0 n1))) (triangle_edges t) in
      let n := if again then neg2 n1 else n1 in
      if point_is_inside boundary p0 then Ok (Some (p0, closest_intersection boundary p0 n))
      else if again then Ok None
      else let q0 := closest_intersection boundary p0 n in Ok (Some (q0, closest_intersection boundary q0 n))).
(** lines 691-714 *)
Definition double_side (boundary : list p2) (t0 t1 : triangle) : outcome (option (p2 * p2)) :=
  obind (center_of_triangle t0) (fun p0 => obind (center_of_triangle t1) (fun p1 =>
    let q0 := if point_is_inside boundary p0 then Some p0
              else if segment_intersects boundary p0 p1 then Some (closest_intersection boundary p0 (sub2 p1 p0)) else None in
    match q0 with
    | None => Ok None
    | Some q0 => Ok (Some (q0, if point_is_inside boundary p1 then p1 else closest_intersection boundary p1 (sub2 q0 p1)))
    end)).
(** lines 632-718; more than two triangles leave p0 and p1 uninitialised *)
Definition voronoi_edge (boundary : list p2) (entry : edge * list triangle) : outcome (option (p2 * p2)) :=
  match snd entry with
  | [t] => single_side boundary (fst entry) t
  | [t0; t1] => double_side boundary t0 t1
  | _ => UB
  end.
Fixpoint voronoi_points (boundary : list p2) (entries : edge_map) : outcome (list p2) :=
  match entries with
  | [] => Ok []
  | x :: r => obind (voronoi_edge boundary x) (fun o => obind (voronoi_points boundary r) (fun l =>
      Ok (match o with None => l | Some (a, b) => a :: b :: l end)))
  end.

(** Polygon::GetPointOnBothEdges, lines 350-360: throws a string *)
Definition point_on_both (es : list edge) (i j : Z) : outcome p2 :=
  if orb (Z.ltb i 0) (Z.ltb j 0) then UB
  else match nth_error es (Z.to_nat i), nth_error es (Z.to_nat j) with
  | Some e1, Some e2 => if edge_contains e2 (fst e1) then Ok (fst e1) else if edge_contains e2 (snd e1) then Ok (snd e1) else Throw
  | _, _ => UB
  end.
(** Polygon::GetOtherPointsOnBoundary, lines 363-371; erase at the end of the vector is undefined *)
Fixpoint other_points (p : p2) (ps : list p2) : outcome (list p2) :=
  match ps with
  | [] => UB
  | q :: ps' => if p2_eqb q p then Ok ps' else omap (cons q) (other_points p ps')
  end.
(** Polygon::AddIntersectionWithBoundary, lines 376-426, on the stored points; [i] counts up to the number of points at the start.
    The points change in the loop: an index may be outside then. *)
Fixpoint boundary_loop (boundary : list p2) (ip : p2) (num : nat) (todo : list nat) (ps : list p2) : outcome (list p2) :=
  match todo with
  | [] => Ok ps
  | i :: todo' =>
    match nth_error ps i, nth_error ps ((i + 1) mod num) with
    | Some a, Some b =>
      let e0 := edge_index boundary a in
      let e1 := edge_index boundary b in
      if orb (Z.eqb e0 (-1)) (orb (Z.eqb e1 (-1)) (Z.eqb e0 e1)) then boundary_loop boundary ip num todo' ps
      else obind (point_on_both (cyclic_edges boundary) e0 e1) (fun c =>
        let ps1 := polygon_points (ps ++ [c]) in
        if point_is_inside ps1 ip then Ok ps1
        else obind (other_points c boundary) (fun others => boundary_loop boundary ip num todo' (polygon_points (ps ++ others))))
    | _, _ => UB
    end
  end.
Definition add_intersection (boundary : list p2) (ip : p2) (ps : list p2) : outcome (list p2) :=
  if Nat.eqb (length (filter (fun p => negb (Z.eqb (edge_index boundary p) (-1))) ps)) 2
  then boundary_loop boundary ip (length ps) (seq 0 (length ps)) ps else Ok ps.

(** CalculateVoronoiPolygons, lines 592-724, for a triangulation; [order] is the order in which the hash map is traversed.
    The cells that are stored when a point fails are those of [stored_cells] below. *)
Section Cells.
  Variable order : edge_map -> edge_map.
  Definition voronoi_cell (boundary : list p2) (tris : list triangle) (p : p2) : outcome (list p2) :=
    let entries := filter (fun x => edge_contains (fst x) p) (order (edge_to_triangle tris)) in
    obind (voronoi_points boundary entries) (fun pts => add_intersection boundary p (polygon_points pts)).
  Fixpoint voronoi_cells_of (boundary : list p2) (tris : list triangle) (pts : list p2) : outcome (list (list p2)) :=
    match pts with
    | [] => Ok []
    | p :: r => obind (voronoi_cell boundary tris p) (fun c => omap (cons c) (voronoi_cells_of boundary tris r))
    end.
  (** the boundary is that of SetBoundary, line 449; the text thrown is not modelled *)
  Definition voronoi_cells (boundary : list p2) (tris : list triangle) (pts : list p2) : outcome (list (list p2)) :=
    match polygon_points boundary with
    | [] => Throw
    | b => voronoi_cells_of b tris pts
    end.
  (** mVoronoiPolygons after CalculateVoronoiPolygons: line 598 makes room for all cells, line 722 stores those computed; an exception
      leaves the remaining ones without points *)
  Fixpoint stored_cells_of (boundary : list p2) (tris : list triangle) (pts : list p2) : list (list p2) :=
    match pts with
    | [] => []
    | p :: r => match voronoi_cell boundary tris p with Ok c => c :: stored_cells_of boundary tris r | _ => map (fun _ => []) pts end
    end.
  Definition stored_cells (boundary : list p2) (tris : list triangle) (pts : list p2) (stored : list (list p2)) : list (list p2) :=
    match polygon_points boundary with
    | [] => stored
    | b => stored_cells_of b tris pts
    end.
  (** GetVoronoiCells, lines 464-470: the cells are computed if none are stored; the result and the cells stored afterwards *)
  Definition get_voronoi_cells (boundary : list p2) (tris : list triangle) (pts : list p2) (stored : list (list p2)) : outcome (list (list p2)) * list (list p2) :=
    match stored with
    | [] => (voronoi_cells boundary tris pts, stored_cells boundary tris pts stored)
    | _ => (Ok stored, stored)
    end.
End Cells.

(** Transform, lines 472-482: T = (1, 1/2; 0, sqrt(3/4)), and TransformInverse, lines 484-496: Eigen's inverse of a 2x2 matrix is the
    adjugate divided by the determinant *)
Definition transform (p : p2) : p2 := (px p + / 2 * py p, sqrt (3 / 4) * py p).
Definition transform_inverse (p : p2) : p2 :=
  let det := 1 * sqrt (3 / 4) - / 2 * 0 in
  (sqrt (3 / 4) / det * px p + - (/ 2) / det * py p, - 0 / det * px p + 1 / det * py p).

(** CalculateVisualizationCellsPolygon, lines 726-754, for the Voronoi cells: the points in the order of their first appearance *)
Definition has_point (l : list p2) (p : p2) : bool := existsb (fun q => p2_eqb q p) l.
Definition visu_points (cells : list (list p2)) : list p2 :=
  fold_left (fun acc p => if has_point acc p then acc else acc ++ [p]) (concat cells) [].
Fixpoint find_index (l : list p2) (p : p2) : nat :=
  match l with [] => O | q :: l' => if p2_eqb q p then O else S (find_index l' p) end.
Definition visualization_cells (transformed : bool) (cells : list (list p2)) : list p2 * list (list nat) :=
  let vp := visu_points cells in
  (if transformed then map transform_inverse vp else vp, map (map (find_index vp)) cells).
(** CalculateVisualizationCellsTriangle, lines 761-785: [polygon[0]] of an empty cell does not exist; the unsigned size minus one of a
    cell with one corner is 0 *)
Definition fan (cell : list nat) : outcome (list (nat * nat * nat)) :=
  match cell with
  | [] => UB
  | p0 :: r => Ok (map (fun e => (p0, fst e, snd e)) (combine r (tl r)))
  end.
Fixpoint fans (i : nat) (cells : list (list nat)) : outcome (list ((nat * nat * nat) * nat)) :=
  match cells with
  | [] => Ok []
  | c :: r => obind (fan c) (fun ts => omap (app (map (fun t => (t, i)) ts)) (fans (S i) r))
  end.
Definition visualization_triangles (transformed : bool) (cells : list (list p2)) : outcome (list p2 * (list (nat * nat * nat) * list nat)) :=
  let '(vp, vc) := visualization_cells transformed cells in
  omap (fun l => (vp, (map fst l, map snd l))) (fans 0 vc).
