(** * Model of nuto/mechanics/integrationtypes/IntegrationTypeTensorProduct.cpp *)
From Coq Require Import List Arith Bool Reals ZArith.
From Verif Require Import Outcome LegendreModel.
Import ListNotations.
Local Open Scope R_scope.

(** the loop over dim, lines 30-37: (weight, coordinates) of point i.  int arithmetic is modelled with unbounded
    naturals, i.e. n^3 is assumed to fit into int *)
Fixpoint tensor_point (w1 p1 : list R) (n dims i power : nat) (acc : R) : R * list R :=
  match dims with
  | O => (acc, [])
  | S d =>
    let index := ((i / power) mod n)%nat in
    let (wt, cs) := tensor_point w1 p1 n d i (power * n) (acc * nth index w1 0) in
    (wt, nth index p1 0 :: cs)
  end.

(** the constructor, lines 15-39: all points for a given 1D rule *)
Definition tensor_rule (dim n : nat) (w1 p1 : list R) : list (R * list R) :=
  map (fun i => tensor_point w1 p1 n dim i 1 1) (seq 0 (n ^ dim)).

Inductive method := GAUSS | LOBATTO.
(** ComputeWeightsAndPoints1D, lines 4-12 *)
Definition rule_1d (gauss_roots lobatto_roots : nat -> list R) (m : method) (n : nat) : outcome (list R * list R) :=
  match m with GAUSS => gauss_rule gauss_roots n | LOBATTO => lobatto_rule lobatto_roots n end.
Definition integration_type (gauss_roots lobatto_roots : nat -> list R) (dim n : nat) (m : method) : outcome (list (R * list R)) :=
  obind (rule_1d gauss_roots lobatto_roots m n) (fun wp => Ok (tensor_rule dim n (fst wp) (snd wp))).

(** GetNumIntegrationPoints, GetIntegrationPointWeight, GetLocalIntegrationPointCoordinates, lines 41-61 *)
Definition num_ips (r : list (R * list R)) : nat := length r.
Definition ip_weight (r : list (R * list R)) (i : Z) : outcome R :=
  if Z.leb 0 i && Z.ltb i (Z.of_nat (length r)) then Ok (fst (nth (Z.to_nat i) r (0, []))) else Throw.
Definition ip_coords (r : list (R * list R)) (i : Z) : outcome (list R) :=
  if Z.leb 0 i && Z.ltb i (Z.of_nat (length r)) then Ok (snd (nth (Z.to_nat i) r (0, []))) else Throw.
