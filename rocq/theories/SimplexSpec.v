(** * Specification for C35: polynomials, integrals over simplices and prisms *)
From Coq Require Import List Arith Reals.
From Coquelicot Require Import Coquelicot.
From Verif Require Import RSum.
Import ListNotations.
Local Open Scope R_scope.

(** a polynomial is a list of terms (coefficient, exponents) *)
Fixpoint monomial (e : list nat) (x : list R) : R :=
  match e, x with k :: e', a :: x' => a ^ k * monomial e' x' | _, _ => 1 end.
Definition evaluate (t : list (R * list nat)) (x : list R) : R := rlsum (map (fun ce => fst ce * monomial (snd ce) x) t).
Definition degree_at_most (d p : nat) (t : list (R * list nat)) : Prop :=
  List.Forall (fun ce => length (snd ce) = d /\ (list_sum (snd ce) <= p)%nat) t.
Definition coefficient_sum (t : list (R * list nat)) : R := rlsum (map (fun ce => Rabs (fst ce)) t).

(** iterated integral over { x_i >= 0, sum x_i <= s } in d dimensions *)
Fixpoint simplex_integral (d : nat) (s : R) (g : list R -> R) (v : R) : Prop :=
  match d with
  | O => v = g []
  | S d' => exists h, (forall x, 0 <= x <= s -> simplex_integral d' (s - x) (fun l => g (x :: l)) (h x)) /\ is_RInt h 0 s v
  end.
(** triangle times [-1, 1]; the last coordinate is the one along the axis *)
Definition prism_integral (g : list R -> R) (v : R) : Prop :=
  exists h, (forall z, simplex_integral 2 1 (fun l => g (l ++ [z])) (h z)) /\ is_RInt h (-1) 1 v.

(** the value of an integration rule *)
Definition apply_rule (r : list (R * list R)) (g : list R -> R) : R := rlsum (map (fun wx => fst wx * g (snd wx)) r).
