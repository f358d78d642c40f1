(** * Model of the Lobatto interpolations of arbitrary order *)
From Coq Require Import List Arith Bool Reals.
From Verif Require Import RSum Outcome AdaptiveModel.
Import ListNotations.
Local Open Scope R_scope.

(** InterpolationTrussLobatto::LocalCoords, InterpolationTrussLobatto.cpp:10-26; [roots] is LegendreDerivRoots *)
Definition lobatto_nodes (roots : nat -> list R) (order : nat) : outcome (list R) :=
  match order with O => Throw | _ => Ok ([-1] ++ roots order ++ [1]) end.

(** BarycentricWeights, InterpolationTrussLobatto.cpp:29-41 *)
Definition barycentric (nodes : list R) : list R :=
  let n := length nodes in
  map (fun j => fold_left (fun w i => if Nat.eqb i j then w else w / (nth j nodes 0 - nth i nodes 0)) (seq 0 n) 1) (seq 0 n).

(** InterpolationTrussLobatto::ShapeFunctions, InterpolationTrussLobatto.cpp:44-76 *)
Definition lobatto_shape (x : R) (nodes : list R) : list R :=
  let n := length nodes in
  let w := barycentric nodes in
  let near j := rltb (Rabs (x - nth j nodes 0)) (1 / 10 ^ 15) in
  if existsb near (seq 0 n) then map (fun j => if near j then 1 else 0) (seq 0 n)
  else
    let tmp := map (fun j => nth j w 0 / (x - nth j nodes 0)) (seq 0 n) in
    let sum := fold_left Rplus tmp 0 in
    map (fun t => t / sum) tmp.

(** InterpolationTrussLobatto::DerivativeShapeFunctions, InterpolationTrussLobatto.cpp:79-102 *)
Definition lobatto_deriv (x : R) (nodes : list R) : list R :=
  let n := length nodes in
  let w := barycentric nodes in
  map (fun j =>
    fold_left (fun result k =>
      if Nat.eqb k j then result
      else result + fold_left (fun tmp i => if negb (Nat.eqb i j) && negb (Nat.eqb i k) then tmp * (x - nth i nodes 0) else tmp) (seq 0 n) 1)
      (seq 0 n) 0 * nth j w 0) (seq 0 n).

(** InterpolationQuadLobatto.cpp:9-23 *)
Definition quad_coords (id : nat) (nodes : list R) : list R :=
  let d := length nodes in [nth (id mod d) nodes 0; nth (id / d) nodes 0].
(** InterpolationQuadLobatto.cpp:25-42 *)
Definition quad_shape (x y : R) (nodes : list R) : list R :=
  let n := length nodes in let Nx := lobatto_shape x nodes in let Ny := lobatto_shape y nodes in
  flat_map (fun j => map (fun i => nth i Nx 0 * nth j Ny 0) (seq 0 n)) (seq 0 n).
(** InterpolationQuadLobatto.cpp:44-66 *)
Definition quad_deriv (x y : R) (nodes : list R) : list (list R) :=
  let n := length nodes in let DNx := lobatto_deriv x nodes in let DNy := lobatto_deriv y nodes in
  let Nx := lobatto_shape x nodes in let Ny := lobatto_shape y nodes in
  flat_map (fun j => map (fun i => [nth i DNx 0 * nth j Ny 0; nth i Nx 0 * nth j DNy 0]) (seq 0 n)) (seq 0 n).

(** InterpolationBrickLobatto.cpp:8-24 *)
Definition brick_coords (id : nat) (nodes : list R) : list R :=
  let d := length nodes in [nth (id mod d) nodes 0; nth (id mod (d * d) / d) nodes 0; nth (id / (d * d)) nodes 0].
(** InterpolationBrickLobatto.cpp:27-48 *)
Definition brick_shape (x y z : R) (nodes : list R) : list R :=
  let n := length nodes in let Nx := lobatto_shape x nodes in let Ny := lobatto_shape y nodes in let Nz := lobatto_shape z nodes in
  flat_map (fun k => flat_map (fun j => map (fun i => nth i Nx 0 * nth j Ny 0 * nth k Nz 0) (seq 0 n)) (seq 0 n)) (seq 0 n).
(** InterpolationBrickLobatto.cpp:51-79 *)
Definition brick_deriv (x y z : R) (nodes : list R) : list (list R) :=
  let n := length nodes in
  let DNx := lobatto_deriv x nodes in let DNy := lobatto_deriv y nodes in let DNz := lobatto_deriv z nodes in
  let Nx := lobatto_shape x nodes in let Ny := lobatto_shape y nodes in let Nz := lobatto_shape z nodes in
  flat_map (fun k => flat_map (fun j => map (fun i =>
    [nth i DNx 0 * nth j Ny 0 * nth k Nz 0; nth i Nx 0 * nth j DNy 0 * nth k Nz 0; nth i Nx 0 * nth j Ny 0 * nth k DNz 0]) (seq 0 n)) (seq 0 n)) (seq 0 n).
