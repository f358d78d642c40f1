(** * Specifications for C03 (unique ids) and C04 (ValueVector)

    C03: the only thing that matters for an id is which construction it stems
    from.  [origins ops] computes, for a program [ops], the list of origins of
    all objects, an origin being the position of the constructing operation. *)
From Coq Require Import List ZArith Arith.
From Verif Require Import BaseModel.
Import ListNotations.

Definition origin_step (n : nat) (os : list nat) (o : uid_op) : list nat :=
  match o with
  | UidConstruct _ => os ++ [n]
  | UidCopy src => match nth_error os src with None => os | Some x => os ++ [x] end
  | UidAssign dst src => match nth_error os src with None => os | Some x => set_nth dst x os end
  end.

Fixpoint origins_from (n : nat) (os : list nat) (ops : list uid_op) : list nat :=
  match ops with [] => os | o :: ops' => origins_from (S n) (origin_step n os o) ops' end.

Definition origins (ops : list uid_op) : list nat := origins_from 0 [] ops.

Definition is_construct (c : nat) (o : uid_op) : bool :=
  match o with UidConstruct c' => Nat.eqb c c' | _ => false end.

(** number of constructions of class [c] among the first [n] operations *)
Definition constructions (c n : nat) (ops : list uid_op) : nat :=
  length (filter (is_construct c) (firstn n ops)).

(** C04: abstractly, a ValueVector is the list of (reference, value) pairs in
    insertion order. *)
Section VV.
  Context {V : Type}.
  Definition vv_abs_step (next : nat) (l : list (nat * V)) (o : vv_op V) : list (nat * V) :=
    match o with
    | VvAdd v => l ++ [(next, v)]
    | VvWrite r v => map (fun rv => if Nat.eqb (fst rv) r then (r, v) else rv) l
    | VvErase from to => firstn from l ++ skipn to l
    end.
  Fixpoint vv_abs_run (next : nat) (l : list (nat * V)) (ops : list (vv_op V)) : list (nat * V) :=
    match ops with
    | [] => l
    | o :: ops' =>
      vv_abs_run (match o with VvAdd _ => S next | _ => next end) (vv_abs_step next l o) ops'
    end.
End VV.
