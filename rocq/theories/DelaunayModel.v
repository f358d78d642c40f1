(** Model of nuto/math/DelaunayVoronoi.h: edges, triangles, polygons and the triangulation.  Coordinates are exact reals. *)
From Coq Require Import Reals ZArith List Bool Arith.
From Verif Require Import Outcome AdaptiveModel CollisionModel.
Import ListNotations.
Local Open Scope R_scope.

Definition p2 : Type := (R * R)%type.
Definition px (p : p2) : R := fst p.
Definition py (p : p2) : R := snd p.
Definition p2_eqb (a b : p2) : bool := andb (reqb (px a) (px b)) (reqb (py a) (py b)).
Definition dot2 (a b : p2) : R := px a * px b + py a * py b.
Definition sub2 (a b : p2) : p2 := (px a - px b, py a - py b).

(** class Edge, DelaunayVoronoi.h:26-103 *)
Definition edge : Type := (p2 * p2)%type.
(** lines 49-53 *)
Definition edge_eqb (a b : edge) : bool :=
  orb (andb (p2_eqb (fst a) (fst b)) (p2_eqb (snd a) (snd b))) (andb (p2_eqb (fst a) (snd b)) (p2_eqb (snd a) (fst b))).
(** lines 55-60 *)
Definition edge_contains (e : edge) (p : p2) : bool := orb (p2_eqb (fst e) p) (p2_eqb (snd e) p).
(** GetIntersectionLineParameter, lines 75-93.  [None]: the edge and the direction are parallel, both quotients are infinite or
    not a number; the callers then see a value that is not positive (infinite edge parameters return -1, and if the numerator of
    the edge parameter vanishes too, the line parameter is not a number or, for a degenerate edge, 0/0). *)
Definition line_parameter (e : edge) (point direction : p2) : option R :=
  let ev := sub2 (snd e) (fst e) in
  let n := direction in
  let eXn := px ev * py n - py ev * px n in
  let D := sub2 point (fst e) in
  if reqb eXn 0 then None
  else
    let edgeParameter := (px D * py n - py D * px n) / eXn in
    let lineParameter := (py D * px ev - px D * py ev) / (- eXn) in
    if orb (rltb edgeParameter 0) (rltb 1 edgeParameter) then Some (-1) else Some lineParameter.

(** class Triangle, lines 105-233 *)
Definition triangle : Type := (edge * edge * edge)%type.
(** GetUniquePoints, lines 117-133; the asserts are not modelled (they are off in release builds) *)
Definition unique_points (t : triangle) : p2 * p2 * p2 :=
  let '(e0, e1, _) := t in
  (fst e0, snd e0, if edge_contains e0 (fst e1) then snd e1 else fst e1).
(** lines 140-154 *)
Definition triangle_has_point (t : triangle) (p : p2) : bool :=
  let '(e0, e1, e2) := t in orb (edge_contains e0 p) (orb (edge_contains e1 p) (edge_contains e2 p)).
Definition triangle_has_edge (t : triangle) (e : edge) : bool :=
  let '(e0, e1, e2) := t in orb (edge_eqb e e0) (orb (edge_eqb e e1) (edge_eqb e e2)).
(** operator==, lines 156-163 *)
Definition triangle_eqb (t other : triangle) : bool :=
  let '(a, b, c) := unique_points other in
  andb (triangle_has_point t a) (andb (triangle_has_point t b) (triangle_has_point t c)).
(** GetCircumcenter, lines 166-179 *)
Definition circumcenter (t : triangle) : p2 :=
  let '(A, B, C) := unique_points t in
  let d := 2 * (px A * (py B - py C) + px B * (py C - py A) + px C * (py A - py B)) in
  let x := dot2 A A * (py B - py C) + dot2 B B * (py C - py A) + dot2 C C * (py A - py B) in
  let y := dot2 A A * (px C - px B) + dot2 B B * (px A - px C) + dot2 C C * (px B - px A) in
  (x / d, y / d).
(** CircumcircleContainsPoint, lines 181-220 *)
Definition det3 (a b c d e f g h i : R) : R := a * (e * i - f * h) - b * (d * i - f * g) + c * (d * h - e * g).
Definition circle_row (P D : p2) : R * R * R :=
  (px P - px D, py P - py D, px P * px P - px D * px D + py P * py P - py D * py D).
Definition circle_contains (t : triangle) (D : p2) : bool :=
  let '(A, B0, C0) := unique_points t in
  let v1 := sub2 B0 A in let v2 := sub2 C0 A in
  let dir := px v1 * py v2 - py v1 * px v2 in
  let '(B, C) := if rltb dir 0 then (C0, B0) else (B0, C0) in
  if orb (p2_eqb A D) (orb (p2_eqb B D) (p2_eqb C D)) then false
  else
    let '(a, b, c) := circle_row A D in let '(d, e, f) := circle_row B D in let '(g, h, i) := circle_row C D in
    rltb 0 (det3 a b c d e f g h i).

(** the constructor: SortAndRemoveDoublicates, lines 241-286.  std::atan2 without the signed zeros *)
Definition atan2 (y x : R) : R :=
  if rltb 0 x then atan (y / x)
  else if rltb x 0 then (if rltb y 0 then atan (y / x) - PI else atan (y / x) + PI)
  else if rltb 0 y then PI / 2 else if rltb y 0 then - (PI / 2) else 0.
(** lines 255-258; without points 0/0, which is not used *)
Definition center_of_points (pts : list p2) : p2 :=
  let n := INR (length pts) in
  (fold_left Rplus (map px pts) 0 / n, fold_left Rplus (map py pts) 0 / n).
(** std::map<double, Vector2d>::operator[] and assignment, line 266 *)
Fixpoint angle_put (k : R) (v : p2) (m : list (R * p2)) : list (R * p2) :=
  match m with
  | [] => [(k, v)]
  | (k', v') :: m' => if rltb k k' then (k, v) :: m else if rltb k' k then (k', v') :: angle_put k v m' else (k', v) :: m'
  end.
(** lines 263-267, the arguments of atan2 in the order of the code *)
Definition angles_points (pts : list p2) : list (R * p2) :=
  let c := center_of_points pts in
  fold_left (fun m p => angle_put (atan2 (px p - px c) (py p - py c)) p m) pts [].
(** lines 275-283 *)
Fixpoint keep_apart (last : R) (m : list (R * p2)) : list p2 :=
  match m with
  | [] => []
  | (k, v) :: m' => if rltb (/ 1000000) (k - last) then v :: keep_apart k m' else keep_apart last m'
  end.
Definition polygon_points (pts : list p2) : list p2 := keep_apart (- 10) (angles_points pts).

(** class Polygon.  UpdateEdges, lines 288-294, of the stored points *)
Definition cyclic_edges (ps : list p2) : list edge :=
  match ps with [] => [] | p0 :: ps' => combine ps (ps' ++ [p0]) end.
(** PointIsInside, lines 297-308 *)
Definition hits (p : p2) (e : edge) : bool :=
  match line_parameter e p (1, 0) with Some l => rltb 0 l | None => false end.
Definition point_is_inside (ps : list p2) (p : p2) : bool :=
  Nat.eqb (length (filter (hits p) (cyclic_edges ps)) mod 2) 1.

(** CalculateDelaunayTriangulation, lines 499-575, without the file of lines 578-589.  A list node is an address (nat) with its
    triangle; a freed address is never reused (the least harmful allocator). *)
Definition nodes : Type := list (nat * triangle).
Definition lookup_node (l : nodes) (a : nat) : option triangle :=
  match find (fun n => Nat.eqb (fst n) a) l with Some n => Some (snd n) | None => None end.
(** mTriangulation.remove( *ptr ): reading a freed node is undefined *)
Definition remove_by (l : nodes) (a : nat) : outcome nodes :=
  match lookup_node l a with
  | None => UB
  | Some t => Ok (filter (fun n => negb (triangle_eqb (snd n) t)) l)
  end.
Fixpoint remove_all (l : nodes) (addrs : list nat) : outcome nodes :=
  match addrs with
  | [] => Ok l
  | a :: r => obind (remove_by l a) (fun l' => remove_all l' r)
  end.
(** lines 508-525.  [size] is an Eigen expression that still refers to superMin and superMax: the second line reads the
    superMin changed by the first. *)
Definition super_points (pts : list p2) (p0 : p2) : p2 * p2 * p2 * p2 :=
  let mn := fold_left (fun m p => (Rmin (px m) (px p), Rmin (py m) (py p))) pts p0 in
  let mx := fold_left (fun m p => (Rmax (px m) (px p), Rmax (py m) (py p))) pts p0 in
  let mn' := (px mn - 3 * (px mx - px mn), py mn - 3 * (py mx - py mn)) in
  let mx' := (px mx + 3 * (px mx - px mn'), py mx + 3 * (py mx - py mn')) in
  (mn', (px mx', py mn'), mx', (px mn', py mx')).
(** lines 534-556: the edges of the hole *)
Definition triangle_edges (t : triangle) : list edge := let '(a, b, c) := t in [a; b; c].
Definition hole (bad : list triangle) : list edge :=
  flat_map (fun t => filter (fun e => negb (existsb (fun o => andb (negb (triangle_eqb o t)) (triangle_has_edge o e)) bad))
                       (triangle_edges t)) bad.
(** lines 558-563 *)
Fixpoint push_triangles (next : nat) (p : p2) (es : list edge) (l : nodes) : nodes * nat :=
  match es with
  | [] => (l, next)
  | e :: es' => push_triangles (S next) p es' (l ++ [(next, (e, (p, fst e), (p, snd e)))])
  end.
Definition add_point (st : nodes * nat) (p : p2) : outcome (nodes * nat) :=
  let '(l, next) := st in
  let bad := filter (fun n => circle_contains (snd n) p) l in
  let polygon := hole (map snd bad) in
  obind (remove_all l (map fst bad)) (fun l' => Ok (push_triangles next p polygon l')).
Fixpoint add_points (st : nodes * nat) (ps : list p2) : outcome (nodes * nat) :=
  match ps with [] => Ok st | p :: r => obind (add_point st p) (fun st' => add_points st' r) end.
(** lines 566-575 *)
Definition to_erase (l : nodes) (sp : list p2) : list nat :=
  flat_map (fun n => map (fun _ => fst n) (filter (triangle_has_point (snd n)) sp)) l.
(** an empty mPoints reads mPoints[0] *)
Definition triangulate (pts : list p2) : outcome nodes :=
  match pts with
  | [] => UB
  | p0 :: _ =>
    let '(s0, s1, s2, s3) := super_points pts p0 in
    let t0 : triangle := ((s0, s1), (s1, s2), (s2, s0)) in
    let t1 : triangle := ((s0, s2), (s2, s3), (s3, s0)) in
    obind (add_points ([(0%nat, t0); (1%nat, t1)], 2%nat) pts) (fun st =>
    remove_all (fst st) (to_erase (fst st) [s0; s1; s2; s3]))
  end.
