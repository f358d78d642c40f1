(** * Specification for C29 *)
From Coq Require Import List ZArith Arith Reals.
From Verif Require Import Outcome GroupModel DofModel DofSpec ConstraintModel Algebra MergerModel.
Import ListNotations.

(** the nodes of a dof type in the mesh *)
Definition in_mesh (mesh : list felement) (d a : Z) : Prop := exists e l, In e mesh /\ e d = Some l /\ In a l.

(** value of component i of node a *)
Definition component (v : node_values) (instance : nat) (a : Z) (i : nat) : option R :=
  match nth_error (v a) instance with Some vs => nth_error vs i | None => None end.

(** component i of node a has dof number n *)
Definition numbered_as (h : nodes) (a : Z) (i : nat) (n : nat) : Prop := nth_error (h a) i = Some (Z.of_nat n).

(** the global vector fits the mesh: the nodes of every dof type have the instance, as many values
    as dof numbers, numbers are below the size of the block, no node belongs to two dof types *)
Definition vector_fits (mesh : list felement) (h : nodes) (v : node_values) (instance : nat) (dofs : list Z) (size : Z -> nat) : Prop :=
  NoDup dofs /\
  (forall d a, In d dofs -> in_mesh mesh d a ->
     (exists vs, nth_error (v a) instance = Some vs /\ length vs = length (h a)) /\ num_values v a = length (h a) /\
     forall i, i < length (h a) -> exists n, numbered_as h a i n /\ n < size d) /\
  (forall d d' a, In d dofs -> In d' dofs -> in_mesh mesh d a -> in_mesh mesh d' a -> d = d').

(** different components have different numbers; every number is used *)
Definition numbers_unique (mesh : list felement) (h : nodes) (dofs : list Z) : Prop :=
  forall d a a' i i' n, In d dofs -> in_mesh mesh d a -> in_mesh mesh d a' -> numbered_as h a i n -> numbered_as h a' i' n -> a = a' /\ i = i'.
Definition numbers_complete (mesh : list felement) (h : nodes) (dofs : list Z) (size : Z -> nat) : Prop :=
  forall d n, In d dofs -> n < size d -> exists a i, in_mesh mesh d a /\ numbered_as h a i n.

(** no nodes were added to the mesh since they were looked up *)
Definition memo_current (mesh : list felement) (m : memo) : Prop :=
  ascending m /\ forall d l, mfind lt_dof d m = Some l -> NoDup l /\ forall a, In a l <-> in_mesh mesh d a.

(** the states of a merger object for a fixed mesh: fresh, or after any calls that returned *)
Inductive merger_state (mesh : list felement) : memo -> Prop :=
| merger_fresh : merger_state mesh []
| merger_merge h values dofs inst m v m' v' : merger_state mesh m ->
    merge mesh h values dofs inst m v = Ok (m', v') -> merger_state mesh m'
| merger_extract h values dofs inst m v m' values' : merger_state mesh m ->
    extract mesh h v dofs inst m values = Ok (m', values') -> merger_state mesh m'.
