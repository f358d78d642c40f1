(** * Model of nuto/math/shapes/: Shape::IsWithinShape
    The coordinates are a function of the index; numbers are exact reals. *)
From Coq Require Import List Arith Bool Reals.
From Verif Require Import AdaptiveModel.
Import ListNotations.
Local Open Scope R_scope.

(** Shape.h:9-18 *)
Inductive eshape := SLine | STriangle | SQuadrilateral | STetrahedron | SHexahedron | SPrism | SPyramid.

(** Line.h:16-20, Triangle.h:16-21, Quadrilateral.h:16-21, Tetrahedron.h:16-22, Hexahedron.h:16-22, Prism.h:16-22,
    Pyramid.h:16-22 *)
Definition IsWithinShape (s : eshape) (xi : nat -> R) (e : R) : bool :=
  let x := xi 0%nat in let y := xi 1%nat in let z := xi 2%nat in
  match s with
  | SLine => rltb (-1 - e) x && rltb x (1 + e)
  | STriangle => rltb (0 - e) x && rltb x (1 + e) && rltb (0 - e) y && rltb y (1 + e) && rltb (x + y) (1 + e)
  | SQuadrilateral => rltb (-1 - e) x && rltb x (1 + e) && rltb (-1 - e) y && rltb y (1 + e)
  | STetrahedron => rltb (0 - e) x && rltb x (1 + e) && rltb (0 - e) y && rltb y (1 + e) && rltb (0 - e) z && rltb z (1 + e) && rltb (x + y + z) (1 + e)
  | SHexahedron => rltb (-1 - e) x && rltb x (1 + e) && rltb (-1 - e) y && rltb y (1 + e) && rltb (-1 - e) z && rltb z (1 + e)
  | SPrism => rltb (0 - e) x && rltb x (1 + e) && rltb (0 - e) y && rltb y (1 + e) && rltb (-1 - e) z && rltb z (1 + e) && rltb (x + y) (1 + e)
  | SPyramid => rltb (- (1 - z) - e) x && rltb x (1 - z + e) && rltb (- (1 - z) - e) y && rltb y (1 - z + e)
  end%bool.
(** the default tolerance of every shape *)
Definition default_tolerance : R := 1 / 10 ^ 8.
