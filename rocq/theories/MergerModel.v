(** * Model of nuto/mechanics/tools/NodalValueMerger.cpp *)
From Coq Require Import List ZArith Arith Bool Reals.
From Verif Require Import Outcome GroupModel DofModel ConstraintModel Algebra.
Import ListNotations.

(** mValues of all nodes by address: instances, then components, NodeSimple.h:87 *)
Definition node_values := Z -> list (list R).

(** an element collection: the nodes of its element for each dof type it has *)
Definition felement := Z -> option (list Z).

(** MeshFem::NodesTotal(dof), MeshFem.cpp:104-115 *)
Definition nodes_total (mesh : list felement) (d : Z) : option group :=
  group_add_all group_empty (flat_map (fun e => match e d with Some l => l | None => [] end) mesh).

(** the memoized groups mNodes *)
Definition memo := list (Z * list Z).

(** NodalValueMerger::Nodes, NodalValueMerger.cpp:10-16 *)
Definition merger_nodes (mesh : list felement) (m : memo) (d : Z) : outcome (list Z * memo) :=
  match mfind lt_dof d m with
  | Some l => Ok (l, m)
  | None => match nodes_total mesh d with Some g => Ok (mData g, mset lt_dof d (mData g) m) | None => UB end
  end.

(** GetNumValues, NodeSimple.h:82-85 *)
Definition num_values (v : node_values) (a : Z) : nat := match v a with vs :: _ => length vs | [] => 0 end.

(** the nested loops over nodes and components as one loop over the pairs; the number of
    components is not changed by the loop body *)
Definition node_components (v : node_values) (l : list Z) : list (Z * nat) :=
  flat_map (fun a => map (fun i => (a, i)) (seq 0 (num_values v a))) l.

Fixpoint upd {A} (i : nat) (x : A) (l : list A) : list A :=
  match l, i with
  | [], _ => []
  | _ :: l', O => x :: l'
  | y :: l', S i' => y :: upd i' x l'
  end.

(** GetValues(instance)[i] and SetValue, NodeSimple.h:50-54, 69-74: out of range is undefined *)
Definition get_value (v : node_values) (instance : nat) (k : Z * nat) : outcome R :=
  match nth_error (v (fst k)) instance with
  | Some vs => match nth_error vs (snd k) with Some x => Ok x | None => UB end
  | None => UB
  end.
Definition set_value (v : node_values) (instance : nat) (k : Z * nat) (x : R) : outcome node_values :=
  match nth_error (v (fst k)) instance with
  | Some vs => if Nat.ltb (snd k) (length vs)
               then Ok (fun a => if Z.eqb a (fst k) then upd instance (upd (snd k) x vs) (v (fst k)) else v a)
               else UB
  | None => UB
  end.

(** newValues[dof](dofNumber): const operator[] throws for a missing dof type *)
Definition read_dof (values : dofvec R_cring) (d n : Z) : outcome R :=
  match mfind lt_dof d values with
  | None => Throw
  | Some b => if Z.ltb n 0 then UB else match nth_error b (Z.to_nat n) with Some x => Ok x | None => UB end
  end.
(** ( *rNewValues)[dof](dofNumber) = x: operator[] inserts an empty vector *)
Definition write_dof (values : dofvec R_cring) (d n : Z) (x : R) : outcome (dofvec R_cring) :=
  let (b, values') := @dc_index (list R) [] values d in
  if Z.ltb n 0 then UB else if Nat.ltb (Z.to_nat n) (length b) then Ok (mset lt_dof d (upd (Z.to_nat n) x b) values') else UB.

Fixpoint merge_components (h : nodes) (values : dofvec R_cring) (d : Z) (instance : nat) (ks : list (Z * nat)) (v : node_values)
  : outcome node_values :=
  match ks with
  | [] => Ok v
  | k :: ks' =>
    obind (dof_number h (fst k, Z.of_nat (snd k))) (fun n =>
    obind (read_dof values d n) (fun x =>
    obind (set_value v instance k x) (fun v' => merge_components h values d instance ks' v')))
  end.

(** NodalValueMerger::Merge, NodalValueMerger.cpp:18-28 *)
Fixpoint merge (mesh : list felement) (h : nodes) (values : dofvec R_cring) (dofs : list Z) (instance : nat) (m : memo) (v : node_values)
  : outcome (memo * node_values) :=
  match dofs with
  | [] => Ok (m, v)
  | d :: ds =>
    obind (merger_nodes mesh m d) (fun lm =>
    obind (merge_components h values d instance (node_components v (fst lm)) v) (fun v' =>
    merge mesh h values ds instance (snd lm) v'))
  end.

Fixpoint extract_components (h : nodes) (v : node_values) (d : Z) (instance : nat) (ks : list (Z * nat)) (values : dofvec R_cring)
  : outcome (dofvec R_cring) :=
  match ks with
  | [] => Ok values
  | k :: ks' =>
    obind (dof_number h (fst k, Z.of_nat (snd k))) (fun n =>
    obind (get_value v instance k) (fun x =>
    obind (write_dof values d n x) (fun values' => extract_components h v d instance ks' values')))
  end.

(** NodalValueMerger::Extract, NodalValueMerger.cpp:30-40 *)
Fixpoint extract (mesh : list felement) (h : nodes) (v : node_values) (dofs : list Z) (instance : nat) (m : memo) (values : dofvec R_cring)
  : outcome (memo * dofvec R_cring) :=
  match dofs with
  | [] => Ok (m, values)
  | d :: ds =>
    obind (merger_nodes mesh m d) (fun lm =>
    obind (extract_components h v d instance (node_components v (fst lm)) values) (fun values' =>
    extract mesh h v ds instance (snd lm) values'))
  end.
