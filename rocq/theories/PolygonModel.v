(** Model of the queries of nuto/math/DelaunayVoronoi.h on edges and polygons.  Coordinates are exact reals. *)
From Coq Require Import Reals ZArith List Bool.
From Verif Require Import Outcome AdaptiveModel CollisionModel DelaunayModel.
Import ListNotations.
Local Open Scope R_scope.

(** a comparison with a parameter that may be not a number, [None]: false *)
Definition param_test (f : R -> bool) (o : option R) : bool := match o with Some l => f l | None => false end.
(** Polygon::SegmentIntersects, lines 310-319 *)
Definition segment_intersects (ps : list p2) (p0 p1 : p2) : bool :=
  existsb (fun e => param_test (fun l => andb (rltb 0 l) (rltb l 1)) (line_parameter e p0 (sub2 p1 p0))) (cyclic_edges ps).
(** Polygon::GetClosestIntersection, lines 323-338; std::min(a, b) is b if b < a, else a *)
Definition closest_parameter (ps : list p2) (p d : p2) : R :=
  fold_left (fun acc e => match line_parameter e p d with
                          | Some l => if rltb (/ 10000000000) l then (if rltb l acc then l else acc) else acc
                          | None => acc
                          end) (cyclic_edges ps) 10000000000.
Definition closest_intersection (ps : list p2) (p d : p2) : p2 :=
  let l := closest_parameter ps p d in (px p + px d * l, py p + py d * l).
(** Edge::GetDistance, lines 96-102; [None]: both ends are equal, 0/0 *)
Definition edge_distance (e : edge) (p : p2) : option R :=
  let v := sub2 (snd e) (fst e) in
  let a := sub2 p (fst e) in
  if reqb (dot2 v v) 0 then None
  else let w := (px a - dot2 a v * px v / dot2 v v, py a - dot2 a v * py v / dot2 v v) in Some (sqrt (dot2 w w)).
(** Polygon::GetEdgeIndex, lines 341-347 *)
Fixpoint edge_index_from (i : Z) (es : list edge) (p : p2) : Z :=
  match es with
  | [] => (-1)%Z
  | e :: es' => if param_test (fun d => rltb d (/ 100000000)) (edge_distance e p) then i else edge_index_from (i + 1) es' p
  end.
Definition edge_index (ps : list p2) (p : p2) : Z := edge_index_from 0 (cyclic_edges ps) p.
