(** * Specification for C33 and C73 *)
From Coq Require Import Reals.
From Verif Require Import RSum.
Local Open Scope R_scope.

(** Legendre polynomials by Bonnet's recursion: (P n x, P (n+1) x) *)
Fixpoint legendre_pair (n : nat) (x : R) : R * R :=
  match n with
  | O => (1, x)
  | S m => let (a, b) := legendre_pair m x in (b, ((2 * INR m + 3) * x * b - (INR m + 1) * a) / (INR m + 2))
  end.
Definition P (n : nat) (x : R) : R := fst (legendre_pair n x).

(** polynomial functions of degree at most d *)
Definition polynomial (d : nat) (f : R -> R) : Prop := exists c : nat -> R, forall x, f x = rsum (S d) (fun k => c k * x ^ k).
