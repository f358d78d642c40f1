(** * Specification for C98: facets of the reference shapes and their Lagrange bases, written down independently of the elements *)
From Coq Require Import List Arith ZArith Bool Reals.
From Verif Require Import RSum ShapeModel InterpolationModel InterpolationSpec.
Import ListNotations.
Local Open Scope R_scope.

(** corner coordinates and facets (edges of plane shapes, faces of solids, by corner numbers) of the seven reference shapes *)
Definition shape_dim (s : eshape) : nat := match s with SLine => 1 | STriangle | SQuadrilateral => 2 | _ => 3 end.
Definition shape_corners (s : eshape) : list (list R) :=
  match s with
  | SLine => [[-1]; [1]]
  | STriangle => [[0; 0]; [1; 0]; [0; 1]]
  | SQuadrilateral => [[-1; -1]; [1; -1]; [1; 1]; [-1; 1]]
  | STetrahedron => [[0; 0; 0]; [1; 0; 0]; [0; 1; 0]; [0; 0; 1]]
  | SHexahedron => [[-1; -1; -1]; [1; -1; -1]; [1; 1; -1]; [-1; 1; -1]; [-1; -1; 1]; [1; -1; 1]; [1; 1; 1]; [-1; 1; 1]]
  | SPrism => [[0; 0; -1]; [1; 0; -1]; [0; 1; -1]; [0; 0; 1]; [1; 0; 1]; [0; 1; 1]]
  | SPyramid => [[1; 1; 0]; [1; -1; 0]; [-1; -1; 0]; [-1; 1; 0]; [0; 0; 1]]
  end.
Definition facets (s : eshape) : list (list nat) :=
  match s with
  | SLine => []
  | STriangle => [[0; 1]; [1; 2]; [2; 0]]
  | SQuadrilateral => [[0; 1]; [1; 2]; [2; 3]; [3; 0]]
  | STetrahedron => [[0; 1; 2]; [0; 1; 3]; [1; 2; 3]; [0; 2; 3]]
  | SHexahedron => [[0; 1; 2; 3]; [4; 5; 6; 7]; [0; 1; 5; 4]; [1; 2; 6; 5]; [2; 3; 7; 6]; [3; 0; 4; 7]]
  | SPrism => [[0; 1; 2]; [3; 4; 5]; [0; 1; 4; 3]; [1; 2; 5; 4]; [2; 0; 3; 5]]
  | SPyramid => [[0; 1; 2; 3]; [0; 1; 4]; [1; 2; 4]; [2; 3; 4]; [3; 0; 4]]
  end%nat.
(** the corners of a facet may be listed starting anywhere and in both directions *)
Inductive same_facet : list nat -> list nat -> Prop :=
| same_refl l : same_facet l l
| same_rotate l a l' : same_facet l (a :: l') -> same_facet l (l' ++ [a])
| same_reverse l l' : same_facet l l' -> same_facet l (rev l').

(** ** the Lagrange basis of degree one or two on an edge (-1, 1), a triangle and a square: nodes, functions, points *)
Definition facet_points (order : Z) (n : nat) : list (list R) :=
  let corners := match n with 2%nat => [[-1]; [1]] | 3%nat => [[0; 0]; [1; 0]; [0; 1]] | _ => [[-1; -1]; [1; -1]; [1; 1]; [-1; 1]] end in
  let middles := match n with 2%nat => [[0]] | 3%nat => [[1/2; 0]; [1/2; 1/2]; [0; 1/2]] | _ => [[0; -1]; [1; 0]; [0; 1]; [-1; 0]; [0; 0]] end in
  if Z.eqb order 1 then corners else corners ++ middles.
Definition facet_basis (order : Z) (n : nat) (xi : nat -> R) : list R :=
  let x := xi 0%nat in let y := xi 1%nat in
  let l t := (1 - t) / 2 in let r t := (1 + t) / 2 in
  let l2 t := l t * (2 * l t - 1) in let r2 t := r t * (2 * r t - 1) in let m2 t := 4 * l t * r t in
  let a := 1 - x - y in
  if Z.eqb order 1 then
    match n with 2%nat => [l x; r x] | 3%nat => [a; x; y] | _ => [l x * l y; r x * l y; r x * r y; l x * r y] end
  else
    match n with
    | 2%nat => [l2 x; r2 x; m2 x]
    | 3%nat => [a * (2 * a - 1); x * (2 * x - 1); y * (2 * y - 1); 4 * a * x; 4 * x * y; 4 * y * a]
    | _ => [l2 x * l2 y; r2 x * l2 y; r2 x * r2 y; l2 x * r2 y; m2 x * l2 y; r2 x * m2 y; m2 x * r2 y; l2 x * m2 y; m2 x * m2 y]
    end.
Definition on_facet (n : nat) (xi : nat -> R) : Prop :=
  match n with
  | 2%nat => -1 <= xi 0%nat <= 1
  | 3%nat => 0 <= xi 0%nat /\ 0 <= xi 1%nat /\ xi 0%nat + xi 1%nat <= 1
  | _ => -1 <= xi 0%nat <= 1 /\ -1 <= xi 1%nat <= 1
  end.
(** the (bi)linear map of the reference facet onto the facet with the corner numbers [c] *)
Definition facet_map (s : eshape) (c : list nat) (xi : nat -> R) (d : nat) : R :=
  rsum (length c) (fun k => nth k (facet_basis 1 (length c) xi) 0 * nth d (nth (nth k c 0%nat) (shape_corners s) []) 0).

(** the interpolated value of the nodal values [v] *)
Definition value (e : element) (v : nat -> R) (x : nat -> R) : R := rsum (length (e_nodes e)) (fun i => nth i (e_shape e x) 0 * v i).
(** node [i] of the element is point [k] of the facet *)
Definition node_on (e : element) (s : eshape) (order : Z) (c : list nat) (i k : nat) : Prop :=
  (i < length (e_nodes e))%nat /\ forall d, nth d (nth i (e_nodes e) []) 0 = facet_map s c (at_node (nth k (facet_points order (length c)) [])) d.

(** polynomials in up to three variables as lists of coefficient and exponents *)
Definition monomial (m : nat * nat * nat) (x : nat -> R) : R := let '(a, b, c) := m in x 0%nat ^ a * x 1%nat ^ b * x 2%nat ^ c.
Definition polynomial (p : list (R * (nat * nat * nat))) (x : nat -> R) : R := rlsum (map (fun cm => fst cm * monomial (snd cm) x) p).
Definition degree_at_most (dim : nat) (order : Z) (p : list (R * (nat * nat * nat))) : Prop :=
  forall k a b c, In (k, (a, b, c)) p -> (Z.of_nat (a + b + c) <= order)%Z /\ (dim <= 2 -> c = 0)%nat /\ (dim <= 1 -> b = 0)%nat.
