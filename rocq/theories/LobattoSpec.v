(** * Specification for C39: Lagrange basis of a set of nodes *)
From Coq Require Import List Arith Reals.
From Verif Require Import RSum.
Import ListNotations.
Local Open Scope R_scope.

(** f is a polynomial of degree below n *)
Definition polynomial_below (n : nat) (f : R -> R) : Prop := exists c : nat -> R, forall x, f x = rsum n (fun k => c k * x ^ k).
(** L j is the j-th Lagrange polynomial of the nodes: degree below the number of nodes, one at node j and zero at the others *)
Definition lagrange_basis (nodes : list R) (L : nat -> R -> R) : Prop :=
  forall j, (j < length nodes)%nat -> polynomial_below (length nodes) (L j) /\
    forall i, (i < length nodes)%nat -> L j (nth i nodes 0) = if Nat.eqb i j then 1 else 0.
(** x has a distance of at least 1e-15 to all nodes *)
Definition away_from (nodes : list R) (x : R) : Prop := forall i, (i < length nodes)%nat -> 1 / 10 ^ 15 <= Rabs (x - nth i nodes 0).
(** nodes that the tolerance can tell apart *)
Definition separated (nodes : list R) : Prop :=
  forall i j, (i < length nodes)%nat -> (j < length nodes)%nat -> i <> j -> 2 / 10 ^ 15 <= Rabs (nth i nodes 0 - nth j nodes 0).
