(** * Model of nuto/mechanics/elements/ElementIga.h with the element functions of nuto/mechanics/iga/Nurbs.h

    [double] is modelled by the real numbers.  A control point is the list of the values of its node (for one instance). *)
From Coq Require Import List Arith Bool Reals.
From Verif Require Import RSum Outcome AdaptiveModel NurbsModel CellModel.
Import ListNotations.
Local Open Scope R_scope.

(** mKnots[i][knotIDs[i]] and the following knot, Nurbs.h:71-82; an index outside of the vector is undefined behaviour *)
Definition element_knots (knots : list R) (id : nat) : outcome (R * R) :=
  match nth_error knots id, nth_error knots (S id) with Some a, Some b => Ok (a, b) | _, _ => UB end.

(** Transformation, ElementIga.h:22-31, one direction *)
Definition transformation (k : R * R) (s : R) : R := fst k + 0.5 * (s + 1) * (snd k - fst k).

(** Matrix::N times the node values, ElementInterface.h:31-34 and ElementIga.h:40-43, for [num] control points *)
Definition n_times_values (garbage : mfun) (shape : nat -> R) (num : nat) (pts : list (list R)) (dim : nat) : list R :=
  map (mvmul (num * dim) (matrix_N garbage shape num dim) (fun c => nth c (concat pts) 0)) (seq 0 dim).

(** the node values are copied into segments of the size of the first control point, Nurbs.h:349-350 and 370-372: another number of
    values is undefined behaviour *)
Definition same_size (dim : nat) (pts : list (list R)) : bool := forallb (fun p => Nat.eqb (length p) dim) pts.

(** ** Curves: Nurbs<1> and ElementIga<1> *)

Record curve := mkCurve { c_knots : list R; c_points : list (list R); c_weights : list R; c_degree : nat }.

(** GetDimension, Nurbs.h:46-49 *)
Definition curve_dim (c : curve) : outcome nat := match c_points c with [] => UB | p :: _ => Ok (length p) end.

(** GetControlPointsElement of Nurbs<1>, Nurbs.h:339-353, as the list of the control points; the assert of line 342 guards an index
    below zero *)
Definition curve_points_element (c : curve) (id : nat) : outcome (list (list R)) :=
  if andb (Nat.leb (c_degree c) id) (Nat.ltb id (length (c_points c)))
  then Ok (firstn (S (c_degree c)) (skipn (id - c_degree c) (c_points c))) else UB.

Section Iga.
  Variables (junk1 junk2 junk3 : nat -> nat -> R) (garbage : mfun).

  (** GetShapeFunctions (order 0), ElementIga.h:45-48, and GetDerivativeShapeFunctions (order 1), lines 50-53 *)
  Definition curve_shape (order : nat) (c : curve) (id : nat) (s : R) : outcome (nat -> R) :=
    obind (element_knots (c_knots c) id) (fun k =>
    Rational1 junk1 junk2 junk3 order (transformation k s) (c_degree c) (c_knots c) (c_weights c)).

  (** ExtractNodeValues, ElementIga.h:35-38 *)
  Definition curve_node_values (c : curve) (id : nat) : outcome (list R) :=
    obind (curve_dim c) (fun dim => obind (curve_points_element c id) (fun pts =>
    if same_size dim pts then Ok (concat pts) else UB)).

  (** Interpolate of ElementInterface.h:31-34 *)
  Definition curve_interpolate (c : curve) (id : nat) (s : R) : outcome (list R) :=
    obind (curve_shape 0 c id s) (fun shape =>
    obind (curve_dim c) (fun dim => obind (curve_points_element c id) (fun pts =>
    if same_size dim pts then Ok (n_times_values garbage shape (S (c_degree c)) pts dim) else UB))).

  (** the Jacobian of a cell with this element as coordinate element, Cell.h:110-114 *)
  Definition curve_jacobian (c : curve) (id : nat) (s : R) : outcome jacobian :=
    obind (curve_node_values c id) (fun values =>
    obind (curve_shape 1 c id s) (fun dN =>
    make_jacobian values (S (c_degree c)) 1 (fun k _ => dN k))).

  (** Cell::Integrate of a function of the place, Cell.h:98-116, for the points and weights of an integration type *)
  Fixpoint curve_integrate (c : curve) (id : nat) (f : list R -> R) (rule : list (R * R)) : outcome R :=
    match rule with
    | [] => Ok 0
    | (s, weight) :: rule' =>
      obind (curve_jacobian c id s) (fun j => obind (curve_interpolate c id s) (fun x =>
      omap (fun rest => f x * jDet j * weight + rest) (curve_integrate c id f rule')))
    end.
End Iga.

(** ** Surfaces: Nurbs<2> and ElementIga<2> *)

(** the points and weights by row (direction 1) and column (direction 0) *)
Record surface := mkSurface { f_knots0 : list R; f_knots1 : list R; f_points : list (list (list R)); f_weights : list (list R);
                              f_degree0 : nat; f_degree1 : nat }.

Definition at2 {A} (l : list (list A)) (i j : nat) : outcome A :=
  match nth_error l i with Some r => match nth_error r j with Some a => Ok a | None => UB end | None => UB end.
Fixpoint all_ok {A} (l : list (outcome A)) : outcome (list A) :=
  match l with [] => Ok [] | o :: l' => obind o (fun a => omap (cons a) (all_ok l')) end.

(** the pairs (i, j) in the order of the two loops, Nurbs.h:365-375 and 482-530 *)
Definition loop_pairs (d0 d1 : nat) : list (nat * nat) := list_prod (seq 0 (S d1)) (seq 0 (S d0)).

(** GetDimension *)
Definition surface_dim (f : surface) : outcome nat := match f_points f with (p :: _) :: _ => Ok (length p) | _ => UB end.

(** GetControlPointsElement of Nurbs<2>, Nurbs.h:355-376 *)
Definition surface_points_element (f : surface) (id0 id1 : nat) : outcome (list (list R)) :=
  if andb (Nat.leb (f_degree0 f) id0) (Nat.leb (f_degree1 f) id1) then
    all_ok (map (fun '(i, j) => at2 (f_points f) (id1 - f_degree1 f + i) (id0 - f_degree0 f + j)) (loop_pairs (f_degree0 f) (f_degree1 f)))
  else UB.

Section IgaSurface.
  Variables (junk1 junk2 junk3 : nat -> nat -> R) (garbage : mfun).

  (** BasisFunctionsAndDerivativesRational of Nurbs<2>, Nurbs.h:428-535, for derivatives up to order 1: the value of the row
      [count] = i (degree0 + 1) + j and the column [col] *)
  Definition surface_rational (order : nat) (f : surface) (x y : R) : outcome (nat -> nat -> R) :=
    let d0 := f_degree0 f in let d1 := f_degree1 f in
    obind (FindSpan x d0 (f_knots0 f)) (fun sp0 =>
    obind (FindSpan y d1 (f_knots1 f)) (fun sp1 =>
    obind (BasisFunctionsAndDerivatives junk1 junk2 junk3 order x sp0 d0 (f_knots0 f)) (fun s0 =>
    obind (BasisFunctionsAndDerivatives junk1 junk2 junk3 order y sp1 d1 (f_knots1 f)) (fun s1 =>
    if andb (Nat.leb d0 sp0) (Nat.leb d1 sp1) then
      obind (all_ok (map (fun '(i, j) => at2 (f_weights f) (sp1 - d1 + i) (sp0 - d0 + j)) (loop_pairs d0 d1))) (fun ws =>
      let w := fun i j => nth (i * S d0 + j) ws 0 in
      Ok (fun count col =>
        let i := (count / S d0)%nat in let j := (count mod S d0)%nat in
        match order with
        | O => rational2_value d0 d1 s0 s1 w i j
        | _ => rational2_first d0 d1 s0 s1 w i j col
        end))
    else UB)))).

  (** GetShapeFunctions and GetDerivativeShapeFunctions *)
  Definition surface_shape (order : nat) (f : surface) (id0 id1 : nat) (s t : R) : outcome (nat -> nat -> R) :=
    obind (element_knots (f_knots0 f) id0) (fun k0 => obind (element_knots (f_knots1 f) id1) (fun k1 =>
    surface_rational order f (transformation k0 s) (transformation k1 t))).

  (** Interpolate *)
  Definition surface_interpolate (f : surface) (id0 id1 : nat) (s t : R) : outcome (list R) :=
    obind (surface_shape 0 f id0 id1 s t) (fun shape =>
    obind (surface_dim f) (fun dim => obind (surface_points_element f id0 id1) (fun pts =>
    if same_size dim pts then Ok (n_times_values garbage (fun k => shape k 0%nat) (S (f_degree0 f) * S (f_degree1 f)) pts dim) else UB))).
End IgaSurface.
