(** Specification vocabulary for C59 and C60. *)
From Coq Require Import Reals ZArith List.
From Verif Require Import EventModel.
Import ListNotations.

(** an event is an unordered pair of collidables at a time *)
Definition same_pair (a b : event) : Prop :=
  (efst a = efst b /\ esnd a = esnd b) \/ (efst a = esnd b /\ esnd a = efst b).
Definition same_event (a b : event) : Prop := etime a = etime b /\ same_pair a b.
Definition involves (e : event) (c : Z) : Prop := efst e = c \/ esnd e = c.
Definition involvesb (e : event) (c : Z) : bool := orb (Z.eqb (efst e) c) (Z.eqb (esnd e) c).

(** a well formed list: ordered nodes at distinct addresses; every event is about two collidables, and
    the local list of a collidable holds exactly the addresses of its events, each once *)
Fixpoint ordered (l : list node) : Prop :=
  match l with
  | [] => True
  | x :: l' => (forall y, In y l' -> event_lt (snd x) (snd y) = true) /\ ordered l'
  end.
Definition wf_list (s : elist) : Prop :=
  ordered (nodes s) /\ NoDup (map fst (nodes s)) /\
  (forall n, In n (nodes s) -> efst (snd n) <> esnd (snd n)) /\
  (forall c, NoDup (locals s c) /\
     forall a, In a (locals s c) <-> exists e, In (a, e) (nodes s) /\ involves e c).
