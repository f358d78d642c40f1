(** * Specification vocabulary for B-splines *)
From Coq Require Import List Arith Bool Reals.
From Verif Require Import RSum AdaptiveModel.
Import ListNotations.
Local Open Scope R_scope.

Definition knot (knots : list R) (i : nat) : R := nth i knots 0.
Definition nondecreasing (knots : list R) : Prop :=
  forall a b, (a <= b)%nat -> (b < length knots)%nat -> knot knots a <= knot knots b.
(** number of basis functions = number of control points *)
Definition basis_count (degree : nat) (knots : list R) : nat := (length knots - degree - 1)%nat.
(** the parameter range on which degree + 1 basis functions overlap *)
Definition domain (degree : nat) (knots : list R) (t : R) : Prop :=
  knot knots degree <= t <= knot knots (basis_count degree knots).
(** first and last knot repeated degree + 1 times; the end knot not more often *)
Definition clamped (degree : nat) (knots : list R) : Prop :=
  (2 * degree + 2 <= length knots)%nat /\
  knot knots 0 = knot knots degree /\
  knot knots (basis_count degree knots) = knot knots (length knots - 1) /\
  knot knots (basis_count degree knots - 1) < knot knots (basis_count degree knots).

(** quotient with the convention x / 0 = 0 of the Cox-de Boor recursion *)
Definition cdiv (a b : R) : R := if Req_EM_T b 0 then 0 else a / b.

(** Cox-de Boor recursion of degree [p] over a given family of degree 0 functions *)
Fixpoint cox_de_boor (base : nat -> R -> R) (u : nat -> R) (p m : nat) (t : R) : R :=
  match p with
  | O => base m t
  | S q => cdiv (t - u m) (u (m + p)%nat - u m) * cox_de_boor base u q m t +
           cdiv (u (m + p + 1)%nat - t) (u (m + p + 1)%nat - u (m + 1)%nat) * cox_de_boor base u q (m + 1)%nat t
  end.

(** degree 0: the indicator of the half-open interval [u_m, u_{m+1}), the last interval of the domain being closed *)
Definition indicator (degree : nat) (knots : list R) (m : nat) (t : R) : R :=
  if orb (andb (rleb (knot knots m) t) (rltb t (knot knots (m + 1))))
         (andb (Nat.eqb (m + 1) (basis_count degree knots))
               (andb (rltb (knot knots m) t) (if Req_EM_T t (knot knots (m + 1)) then true else false)))
  then 1 else 0.
(** the [m]-th B-spline of degree [p] *)
Definition bspline (degree : nat) (knots : list R) (p m : nat) (t : R) : R :=
  cox_de_boor (indicator degree knots) (knot knots) p m t.
(** the polynomial that the B-spline equals on the knot interval number [i] *)
Definition piece (knots : list R) (i p m : nat) (t : R) : R :=
  cox_de_boor (fun m _ => if Nat.eqb m i then 1 else 0) (knot knots) p m t.
(** the NURBS basis function number [m] with weights [w] *)
Definition nurbs_basis (degree : nat) (knots w : list R) (m : nat) (t : R) : R :=
  bspline degree knots degree m t * nth m w 0 /
  rsum (basis_count degree knots) (fun q => bspline degree knots degree q t * nth q w 0).
(** the NURBS curve (one coordinate) with control values [c] *)
Definition nurbs_curve (degree : nat) (knots w c : list R) (t : R) : R :=
  rsum (basis_count degree knots) (fun m => nurbs_basis degree knots w m t * nth m c 0).
(** rational tensor product basis: function number j in direction 0 and i in direction 1, weights w i j *)
Definition surface_basis (d0 d1 : nat) (A B : nat -> R -> R) (w : nat -> nat -> R) (i j : nat) (x y : R) : R :=
  A j x * B i y * w i j / rsum (S d1) (fun i => rsum (S d0) (fun j => A j x * B i y * w i j)).
