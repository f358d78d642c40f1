(** Model of nuto/math/NaturalCoordinateMemoizer.h. *)
From Coq Require Import Reals List Bool Arith.
From Verif Require Import Outcome AdaptiveModel.
Import ListNotations.
Local Open Scope R_scope.

(** A double: a number or NaN.  Infinities are left out, and the two zeros are one number (they compare equal). *)
Definition coord : Type := option R.
Definition coord_lt (a b : coord) : bool := match a, b with Some x, Some y => rltb x y | _, _ => false end.
Definition coords : Type := list coord.

(** CompareVector::operator(), NaturalCoordinateMemoizer.h:14-28; std::tie compares elementwise.  Vectors of different sizes read
    past the end of [r] (the assert is off in release builds); [Throw] stands for the bare [throw;], which terminates. *)
Definition tie2 (a0 b0 : coord) (rest : bool) : bool := orb (coord_lt a0 b0) (andb (negb (coord_lt b0 a0)) rest).
Definition compare (l r : coords) : outcome bool :=
  match l, r with
  | [a0], [b0] => Ok (coord_lt a0 b0)
  | [a0; a1], [b0; b1] => Ok (tie2 a0 b0 (coord_lt a1 b1))
  | [a0; a1; a2], [b0; b1; b2] => Ok (tie2 a0 b0 (tie2 a1 b1 (coord_lt a2 b2)))
  | _, _ => if Nat.eqb (length l) (length r) then Throw else UB
  end.

Section Memo.
Context {V : Type}.
Variable f : coords -> V.

(** std::map<TNaturalCoords, TResult, TCompare>, line 75: the nodes in key order, each with its address.  [find] looks for the
    first node that is not smaller and takes it if it is not larger; this is what the tree search does when the comparison is a
    strict weak order, or when there is one node. *)
Record node := Node { addr : nat; key : coords; value : V }.
Fixpoint map_find (l : list node) (v : coords) : outcome (option node) :=
  match l with
  | [] => Ok None
  | n :: r => obind (compare (key n) v) (fun b =>
      if b then map_find r v
      else obind (compare v (key n)) (fun c => if c then Ok None else Ok (Some n)))
  end.
(** emplace_hint: inserts at the sorted position, or finds the node that is already there *)
Fixpoint map_insert (l : list node) (n : node) : outcome (list node * node) :=
  match l with
  | [] => Ok ([n], n)
  | m :: r => obind (compare (key m) (key n)) (fun b =>
      if b then obind (map_insert r n) (fun x => Ok (m :: fst x, snd x))
      else obind (compare (key n) (key m)) (fun c => if c then Ok (n :: m :: r, n) else Ok (m :: r, m)))
  end.

(** the memoizer: the map, the next fresh address and the arguments mFunction has been called with *)
Record memo := Memo { cache : list node; next : nat; calls : list coords }.
Definition empty_memo : memo := Memo [] 0 [].
(** Get, lines 48-66: returns a reference to the node's value, here the address *)
Definition get (m : memo) (v : coords) : outcome (memo * nat) :=
  obind (map_find (cache m) v) (fun r =>
    match r with
    | Some n => Ok (m, addr n)
    | None => obind (map_insert (cache m) (Node (next m) v (f v))) (fun x =>
        Ok (Memo (fst x) (S (next m)) (calls m ++ [v]), addr (snd x)))
    end).
(** ClearCache, lines 68-71 *)
Definition clear_cache (m : memo) : memo := Memo [] (next m) (calls m).
(** reading through a returned reference *)
Definition deref (m : memo) (a : nat) : outcome V :=
  match find (fun n => Nat.eqb (addr n) a) (cache m) with Some n => Ok (value n) | None => UB end.

Inductive request := Get (v : coords) | Clear.
(** a history: the value read right after each Get *)
Fixpoint history (m : memo) (rs : list request) : outcome (memo * list V) :=
  match rs with
  | [] => Ok (m, [])
  | Get v :: rs' => obind (get m v) (fun x => obind (deref (fst x) (snd x)) (fun y =>
      obind (history (fst x) rs') (fun z => Ok (fst z, y :: snd z))))
  | Clear :: rs' => history (clear_cache m) rs'
  end.

(** ** several threads.  Get in steps: the search of line 50, which is outside the critical section; waiting for the critical
    section; the emplace of line 62 inside it.  The critical section is a lock. *)
Inductive phase := Idle | Searching (v : coords) | Missed (v : coords) | Inserting (v : coords).
Record thread := Thread { pending : list coords; ph : phase; results : list (coords * V) }.
Record shared := Shared { threads : nat -> thread; locked : bool; memory : memo }.
Definition set_thread (s : shared) (i : nat) (t : thread) : nat -> thread :=
  fun j => if Nat.eqb j i then t else threads s j.
Inductive step (s : shared) : shared -> Prop :=
| step_start : forall i v rest, pending (threads s i) = v :: rest -> ph (threads s i) = Idle ->
    step s (Shared (set_thread s i (Thread rest (Searching v) (results (threads s i)))) (locked s) (memory s))
| step_hit : forall i v n, ph (threads s i) = Searching v -> map_find (cache (memory s)) v = Ok (Some n) ->
    step s (Shared (set_thread s i (Thread (pending (threads s i)) Idle (results (threads s i) ++ [(v, value n)])))
              (locked s) (memory s))
| step_miss : forall i v, ph (threads s i) = Searching v -> map_find (cache (memory s)) v = Ok None ->
    step s (Shared (set_thread s i (Thread (pending (threads s i)) (Missed v) (results (threads s i)))) (locked s) (memory s))
| step_enter : forall i v, ph (threads s i) = Missed v -> locked s = false ->
    step s (Shared (set_thread s i (Thread (pending (threads s i)) (Inserting v) (results (threads s i)))) true (memory s))
| step_insert : forall i v l n, ph (threads s i) = Inserting v ->
    map_insert (cache (memory s)) (Node (next (memory s)) v (f v)) = Ok (l, n) ->
    step s (Shared (set_thread s i (Thread (pending (threads s i)) Idle (results (threads s i) ++ [(v, value n)])))
              false (Memo l (S (next (memory s))) (calls (memory s) ++ [v]))).
Inductive reaches (s : shared) : shared -> Prop :=
| reaches_refl : reaches s s
| reaches_step : forall s' s'', reaches s s' -> step s' s'' -> reaches s s''.
(** all threads idle with their requests *)
Definition initial (requests : nat -> list coords) (m : memo) : shared :=
  Shared (fun i => Thread (requests i) Idle []) false m.
(** one thread walks through the tree while another one changes it *)
Definition data_race (s : shared) : Prop :=
  exists i j v w, i <> j /\ ph (threads s i) = Searching v /\ ph (threads s j) = Inserting w.
(** two threads change the tree at once *)
Definition write_race (s : shared) : Prop :=
  exists i j v w, i <> j /\ ph (threads s i) = Inserting v /\ ph (threads s j) = Inserting w.
End Memo.
