(** * Specification vocabulary for cells, Jacobians and differential operators *)
From Coq Require Import List ZArith Arith Reals.
From Coquelicot Require Import Coquelicot.
From Verif Require Import Outcome DofModel RSum CellModel.
Import ListNotations.
Local Open Scope R_scope.

(** partial derivative of a function of finitely many coordinates *)
Definition is_partial (f : (nat -> R) -> R) (x : nat -> R) (j : nat) (l : R) : Prop :=
  is_derive (fun t => f (fun i => if Nat.eqb i j then t else x i)) (x j) l.

(** interpolation of component [i] of a field with nodal values [v k i] *)
Definition interpolated (n : nat) (N : nat -> (nat -> R) -> R) (v : nat -> nat -> R) (i : nat) (x : nat -> R) : R :=
  rsum n (fun k => N k x * v k i).

(** engineering strain component [r] in Voigt order for the displacement gradient G:
    xx | xx,yy,xy | xx,yy,zz,yz,xz,xy *)
Definition eps (G : mfun) (a b : nat) : R := (G a b + G b a) / 2.
Definition voigt_components (dim : nat) (G : mfun) : list R :=
  match dim with
  | 1%nat => [eps G 0 0]
  | 2%nat => [eps G 0 0; eps G 1 1; 2 * eps G 0 1]
  | 3%nat => [eps G 0 0; eps G 1 1; eps G 2 2; 2 * eps G 1 2; 2 * eps G 0 2; 2 * eps G 0 1]
  | _ => []
  end.

Definition kron (i j : nat) : R := if Nat.eqb i j then 1 else 0.

(** product of matrices *)
Definition mmul (k : nat) (A B : mfun) : mfun := fun i j => rsum k (fun l => A i l * B l j).

(** determinant by Leibniz' formula *)
Definition leibniz (n : nat) (A : mfun) : R :=
  match n with
  | 1%nat => A 0%nat 0%nat
  | 2%nat => A 0%nat 0%nat * A 1%nat 1%nat - A 0%nat 1%nat * A 1%nat 0%nat
  | 3%nat => A 0%nat 0%nat * A 1%nat 1%nat * A 2%nat 2%nat + A 0%nat 1%nat * A 1%nat 2%nat * A 2%nat 0%nat
           + A 0%nat 2%nat * A 1%nat 0%nat * A 2%nat 1%nat - A 0%nat 2%nat * A 1%nat 1%nat * A 2%nat 0%nat
           - A 0%nat 1%nat * A 1%nat 0%nat * A 2%nat 2%nat - A 0%nat 0%nat * A 1%nat 2%nat * A 2%nat 1%nat
  | _ => 0
  end.
(** Gram determinant of the columns: the squared length / area of the image of the
    unit segment / square *)
Definition gram (rows cols : nat) (A : mfun) : R :=
  let g := fun a b => rsum rows (fun i => A i a * A i b) in
  match cols with 1%nat => g 0%nat 0%nat | 2%nat => g 0%nat 0%nat * g 1%nat 1%nat - g 0%nat 1%nat * g 0%nat 1%nat | _ => 0 end.

(** derivative of the geometry map x_i(xi) = sum_k N_k(xi) x_{k,i} *)
Definition geometry_derivative (dim numNodes : nat) (coords : list R) (dN : mfun) : mfun :=
  fun i j => rsum numNodes (fun k => dN k j * nth (k * dim + i) coords 0).

(** state of an integrand before it is called for the i-th time, if it is called once
    for each of the points [ips 0], [ips 1], ... *)
Fixpoint state_at {S V} (f : S -> ipdata -> S * V) (ips : nat -> ipdata) (s : S) (i : nat) : S :=
  match i with O => s | Datatypes.S k => fst (f (state_at f ips s k) (ips k)) end.

(** uncached answer to a request *)
Definition direct {M V Op} (mul : M -> V -> V) (elN : Z -> outcome M) (elB : Z -> Op -> outcome M)
           (elV : Z -> nat -> outcome V) (r : request) : answer :=
  match r with
  | RN d => AM (elN d)
  | RB d op => AM (elB d op)
  | RV d k => AV (elV d k)
  | RValue d k => AV (mulo mul (elN d) (elV d k))
  | RApply d op k => AV (mulo mul (elB d op) (elV d k))
  end.
(** the operator a request uses *)
Definition uses {Op} (r : request) : option (Z * Op) :=
  match r with RB d op | RApply d op _ => Some (d, op) | _ => None end.
(** at most one operator per dof type *)
Definition one_operator {Op} (rs : list (@request Op)) : Prop :=
  forall r1 r2 d op1 op2, In r1 rs -> In r2 rs -> uses r1 = Some (d, op1) -> uses r2 = Some (d, op2) -> op1 = op2.
