(** * Specification for C83 and C84 *)
From Coq Require Import List ZArith Arith Reals.
From Verif Require Import Outcome GroupModel DofModel DofSpec ConstraintModel Algebra MergerModel MergerSpec AssemblerSpec CellModel TdpModel.
Import ListNotations.

(** the value of component i of node a before renumbering: the old global vector decides where it has entries for the dof
    type, otherwise what is stored at the node *)
Definition value_before (old : dofvec R_cring) (h : nodes) (v : node_values) (d a : Z) (i : nat) (x : R) : Prop :=
  match mfind lt_dof d old with
  | Some (y :: b) => exists n, numbered_as h a i n /\ nth_error (y :: b) n = Some x
  | _ => component v 0 a i = Some x
  end.

(** node a has a current value for each of its dof numbers *)
Definition node_complete (h : nodes) (v : node_values) (a : Z) : Prop :=
  exists vs, nth_error (v a) 0 = Some vs /\ length vs = length (h a).

(** the old global vector is empty for the dof type or has an entry for the number of every component *)
Definition old_fits (mesh : list felement) (h : nodes) (old : dofvec R_cring) (d : Z) : Prop :=
  match mfind lt_dof d old with
  | Some (y :: b) => forall a i, in_mesh mesh d a -> i < length (h a) -> exists n, numbered_as h a i n /\ n < length (y :: b)
  | _ => True
  end.

(** dof type d after renumbering: all components have numbers from 0 to N-1, each number is used once, the new vector has
    N entries and component i of node a has at its new number the value it had; so has the node *)
Definition renumbered (mesh : list felement) (old : dofvec R_cring) (h : nodes) (v : node_values) (d : Z)
    (h' : nodes) (v' : node_values) (new : dofvec R_cring) (N : nat) : Prop :=
  @size_of R_cring new d = Some N /\
  (forall a i, in_mesh mesh d a -> i < length (h a) ->
     exists n x, numbered_as h' a i n /\ n < N /\ value_before old h v d a i x /\ @val R_cring new d n = x /\ component v' 0 a i = Some x) /\
  (forall a a' i i' n, in_mesh mesh d a -> in_mesh mesh d a' -> numbered_as h' a i n -> numbered_as h' a' i' n -> a = a' /\ i = i') /\
  (forall n, n < N -> exists a i, in_mesh mesh d a /\ i < length (h a) /\ numbered_as h' a i n).

(** the entry of a block of a matrix, zero without a block *)
Definition at_entry (m : dofmat R_cring) (a b : Z) (i j : nat) : R :=
  match mat_at m a b with Some s => entry s i j | None => 0%R end.

(** what an update function sees at point i of a cell *)
Definition cell_point (c : ucell) (i : nat) (ip : ipdata) : Prop :=
  make_ip (uc_id c) (uc_ip c) (uc_coordinates c) (uc_numNodes c) (uc_dim c) (uc_dShape c) i = Ok ip.
(** all points of the cells, cell by cell *)
Definition points_of (ips : ucell -> nat -> ipdata) (cells : list ucell) : list ipdata :=
  flat_map (fun c => map (ips c) (seq 0 (uc_ips c))) cells.
(** the calls of update functions, in order *)
Definition calls {S} (ips : ucell -> nat -> ipdata) (t dt : R) (v : node_values) (fs : list (list ucell * update_function S)) : list ((S -> ipdata -> S) * ipdata) :=
  flat_map (fun e => map (fun ip => (snd e t dt v, ip)) (points_of ips (fst e))) fs.
(** an update function for history data per cell id and point: the data of the point it is called for, nothing else *)
Definition at_point {H} (g : R -> R -> node_values -> ipdata -> H -> H) : update_function (Z -> nat -> H) :=
  fun t dt v x ip c i => if andb (Z.eqb c (ipCell ip)) (Nat.eqb i (ipId ip)) then g t dt v ip (x c i) else x c i.
