(** * Specification for C86: polynomials and the sum of squared errors *)
From Coq Require Import Arith Reals.
From Verif Require Import RSum.
Local Open Scope R_scope.

(** c_0 + c_1 t + ... + c_d t^d *)
Definition poly (c : nat -> R) (d : nat) (t : R) : R := rsum (S d) (fun i => c i * t ^ i).
(** the sum of the squared errors at n points *)
Definition sq_error (n : nat) (x y : nat -> R) (c : nat -> R) (d : nat) : R :=
  rsum n (fun k => (poly c d (x k) - y k) * (poly c d (x k) - y k)).
(** the points number s 0 .. s d have different abscissae *)
Definition distinct_points (d : nat) (x : nat -> R) (s : nat -> nat) : Prop :=
  forall i j, (i <= d)%nat -> (j <= d)%nat -> i <> j -> x (s i) <> x (s j).
(** what is known about the linear solver: if the matrix is regular, it returns the solution *)
Definition regular (n : nat) (a : nat -> nat -> R) : Prop :=
  forall v, (forall i, (i < n)%nat -> rsum n (fun j => a i j * v j) = 0) -> forall i, (i < n)%nat -> v i = 0.
Definition solver (lu : nat -> (nat -> nat -> R) -> (nat -> R) -> nat -> R) : Prop :=
  forall n a b, regular n a -> forall i, (i < n)%nat -> rsum n (fun j => a i j * lu n a b j) = b i.
