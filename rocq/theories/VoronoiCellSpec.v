(** * What a user of the Voronoi cells expects, independent of the implementation *)
From Coq Require Import Reals List Permutation.
From Verif Require Import DelaunaySpec.
Import ListNotations.
Local Open Scope R_scope.

Definition point : Type := (R * R)%type.
(** a triangle as the list of its three edges, each given by its ends in any order *)
Definition joins (A B : point) (e : point * point) : Prop := e = (A, B) \/ e = (B, A).
Definition is_triangle (A B C : point) (t : (point * point) * (point * point) * (point * point)) : Prop :=
  exists e0 e1 e2, t = (e0, e1, e2) /\ joins A B e0 /\ joins B C e1 /\ joins C A e2.
(** two points are joined by an edge of the triangulation *)
Definition neighbours (tris : list ((point * point) * (point * point) * (point * point))) (p q : point) : Prop :=
  exists t A B C, In t tris /\ is_triangle A B C t /\
    ((p = A /\ q = B) \/ (p = B /\ q = A) \/ (p = B /\ q = C) \/ (p = C /\ q = B) \/ (p = C /\ q = A) \/ (p = A /\ q = C)).
(** no point is inside the circle through the corners of a triangle: the point with the same distance to the corners is not closer
    to another point *)
Definition delaunay (tris : list ((point * point) * (point * point) * (point * point))) (pts : list point) : Prop :=
  forall t A B C m q, In t tris -> is_triangle A B C t -> distance2 m A = distance2 m B -> distance2 m A = distance2 m C ->
    In q pts -> distance2 m A <= distance2 m q.
(** convex combinations of the points with a property *)
Inductive hull (P : point -> Prop) : point -> Prop :=
| hull_in p : P p -> hull P p
| hull_mid p q s : hull P p -> hull P q -> 0 <= s <= 1 -> hull P (fst p + s * (fst q - fst p), snd p + s * (snd q - snd p)).
(** the edge from [p] to [q] belongs to at least two of the triangles *)
Definition in_two (tris : list ((point * point) * (point * point) * (point * point))) (p q : point) : Prop :=
  exists t1 t2 rest, Permutation tris (t1 :: t2 :: rest) /\ neighbours [t1] p q /\ neighbours [t2] p q.
(** the point with the same distance to the corners of a triangle *)
Definition center_of (t : (point * point) * (point * point) * (point * point)) (m : point) : Prop :=
  exists A B C, is_triangle A B C t /\ distance2 m A = distance2 m B /\ distance2 m A = distance2 m C.
Definition corner_of (t : (point * point) * (point * point) * (point * point)) (p : point) : Prop :=
  exists A B C, is_triangle A B C t /\ (p = A \/ p = B \/ p = C).

(** twice the signed area of a triangle, and of a polygon by the shoelace formula *)
Fixpoint shoelace_from (first prev : point) (l : list point) : R :=
  match l with
  | [] => fst prev * snd first - fst first * snd prev
  | q :: l' => (fst prev * snd q - fst q * snd prev) + shoelace_from first q l'
  end.
Definition shoelace (l : list point) : R := match l with [] => 0 | p :: l' => shoelace_from p p l' end.

(** T = (1, 1/2; 0, sqrt(3/4)) maps the reference triangle to the equilateral triangle *)
Definition equilateral (p : point) : point := (fst p + 1 / 2 * snd p, sqrt (3 / 4) * snd p).
(** the point that a user of the transformed system has in mind for a visualization point *)
Definition in_system (transformed : bool) (p : point) : point := if transformed then equilateral p else p.
(** the corners of a triangle of indices *)
Definition corners (transformed : bool) (vp : list point) (t : nat * nat * nat) (a b c : point) : Prop :=
  let '(i, j, k) := t in
  exists a' b' c', nth_error vp i = Some a' /\ nth_error vp j = Some b' /\ nth_error vp k = Some c' /\
    a = in_system transformed a' /\ b = in_system transformed b' /\ c = in_system transformed c'.
(** the triangles that belong to integration point [i] *)
Definition triangles_of (i : nat) (ts : list (nat * nat * nat)) (ips : list nat) : list (nat * nat * nat) :=
  map fst (filter (fun x => Nat.eqb (snd x) i) (combine ts ips)).
(** the areas add up: [areas l S] if the corners of the triangles of [l] are known and twice their signed areas add up to [S] *)
Inductive areas (transformed : bool) (vp : list point) : list (nat * nat * nat) -> R -> Prop :=
| areas_nil : areas transformed vp [] 0
| areas_cons t l a b c S : corners transformed vp t a b c -> areas transformed vp l S -> areas transformed vp (t :: l) (orient a b c + S).
