(** * Specification for C34 *)
From Coq Require Import List Arith Reals ZArith.
From Coquelicot Require Import Coquelicot.
From Verif Require Import RSum Outcome.
Import ListNotations.
Local Open Scope R_scope.

(** what a caller computes: the sum of weight * integrand over the points 0 .. n-1 *)
Definition quadrature (n : nat) (weight : Z -> outcome R) (coords : Z -> outcome (list R)) (g : list R -> R) (v : R) : Prop :=
  exists w x, (forall i, (i < n)%nat -> weight (Z.of_nat i) = Ok (w i) /\ coords (Z.of_nat i) = Ok (x i)) /\
    v = rsum n (fun i => w i * g (x i)).

(** polynomials in d variables with degree at most D in each of them *)
Fixpoint multi_polynomial (d D : nat) (g : list R -> R) : Prop :=
  match d with
  | O => True
  | S d' => exists c : nat -> list R -> R, (forall k, (k <= D)%nat -> multi_polynomial d' D (c k)) /\
      forall x l, g (x :: l) = rsum (S D) (fun k => c k l * x ^ k)
  end.

(** the iterated integral over [-1,1]^d *)
Fixpoint cube_integral (d : nat) (g : list R -> R) (v : R) : Prop :=
  match d with
  | O => v = g []
  | S d' => exists h, (forall x, cube_integral d' (fun l => g (x :: l)) (h x)) /\ is_RInt h (-1) 1 v
  end.

(** product of functions of the single coordinates *)
Fixpoint product (fs : list (R -> R)) (l : list R) : R :=
  match fs, l with f :: fs', x :: l' => f x * product fs' l' | _, _ => 1 end.
