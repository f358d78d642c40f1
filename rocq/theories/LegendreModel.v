(** * Model of nuto/math/Legendre.cpp and nuto/math/Quadrature.cpp *)
From Coq Require Import List Arith Bool Reals ZArith.
From Verif Require Import Outcome.
Import ListNotations.
Local Open Scope R_scope.

(** Factorial: tgamma(i + 1) converted to int, Legendre.cpp:10.  The gamma function is taken as exact;
    a value that does not fit into int is undefined behaviour. *)
Definition int_factorial (i : nat) : outcome R :=
  if Z.leb (Z.of_nat (fact i)) (2 ^ 31 - 1) then Ok (INR (fact i)) else UB.

(** the loop Legendre.cpp:15-19: (vals[k + j], vals[k + j - 1]); entries below k are 0, for i = 1 the code takes 0 *)
Fixpoint legendre_vals (start : R) (k : nat) (x : R) (j : nat) : R * R :=
  match j with
  | O => (start, 0)
  | S j' =>
    let (v1, v2) := legendre_vals start k x j' in
    let i := INR (k + j) in
    (((2 * i - 1) * x * v1 - (i - 1 + INR k) * v2) / INR (k + j - k), v1)
  end.

(** Legendre(n, x, k), Legendre.cpp:8-21, for n, k >= 0 *)
Definition legendre (n : nat) (x : R) (k : nat) : outcome R :=
  if Nat.leb k n then
    obind (int_factorial (2 * k)) (fun f2k =>
    obind (int_factorial k) (fun fk =>
    Ok (fst (legendre_vals (f2k / (2 ^ k * fk)) k x (n - k)))))
  else Ok 0.

(** all results of a list of calls *)
Fixpoint osequence {A} (l : list (outcome A)) : outcome (list A) :=
  match l with [] => Ok [] | x :: l' => obind x (fun a => obind (osequence l') (fun r => Ok (a :: r))) end.

(** ComputeWeightsAndPoints1DGauss, Quadrature.cpp:26-39; [roots] is LegendreRoots (its Newton iteration is modelled in LegendreRootsModel) *)
Definition gauss_rule (roots : nat -> list R) (nIps : nat) : outcome (list R * list R) :=
  match nIps with
  | O => Throw
  | _ =>
    let points := roots nIps in
    obind (osequence (map (fun i => obind (legendre nIps (nth i points 0) 1) (fun dl =>
                       Ok (2 / (1 - nth i points 0 * nth i points 0) / (dl * dl)))) (seq 0 nIps)))
      (fun weights => Ok (weights, points))
  end.

(** ComputeWeightsAndPoints1DLobatto, Quadrature.cpp:6-24; [roots] is LegendreDerivRoots *)
Definition lobatto_rule (roots : nat -> list R) (nIps : nat) : outcome (list R * list R) :=
  if Nat.leb nIps 1 then Throw
  else
    let points := [-1] ++ roots (nIps - 1)%nat ++ [1] in
    let w := 2 / (INR nIps * (INR nIps - 1)) in
    obind (osequence (map (fun i => obind (legendre (nIps - 1) (nth i points 0) 0) (fun lp => Ok (w / (lp * lp)))) (seq 1 (nIps - 2))))
      (fun inner => Ok ([w] ++ inner ++ [w], points)).
