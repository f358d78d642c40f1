(** Model of nuto/geometryConcrete/collision/Event.cpp and of the event list in
    handler/EventListHandler.cpp.  Collidables are identified by their addresses (integers).
    The statistics (mType, counters, timers) are left out. *)
From Coq Require Import Reals ZArith List Bool.
From Verif Require Import Outcome AdaptiveModel CollisionModel.
Import ListNotations.
Local Open Scope R_scope.

(** Event: mTime, mFirst, mSecond *)
Record event := mkEvent { etime : R; efst : Z; esnd : Z }.

(** Event.cpp:82 and 91 *)
Definition smaller (e : event) : Z := if Z.ltb (efst e) (esnd e) then efst e else esnd e.
Definition bigger (e : event) : Z := if Z.ltb (efst e) (esnd e) then esnd e else efst e.

(** operator<, Event.cpp:73-95 *)
Definition event_lt (a b : event) : bool :=
  if negb (reqb (etime a) (etime b)) then rltb (etime a) (etime b)
  else if negb (Z.eqb (smaller a) (smaller b)) then Z.ltb (smaller b) (smaller a)
  else Z.ltb (bigger b) (bigger a).

(** operator==, Event.cpp:97-111 *)
Definition event_eq (a b : event) : bool :=
  if negb (reqb (etime a) (etime b)) then false
  else if andb (Z.eqb (efst a) (efst b)) (Z.eqb (esnd a) (esnd b)) then true
  else if andb (Z.eqb (efst a) (esnd b)) (Z.eqb (esnd a) (efst b)) then true
  else false.

(** ** The event list with its memory
    The std::set is the list of its nodes in order; a node is an event at an address.  A pointer is
    dangling if no node has its address.  mLocalEvents of a collidable is a list of addresses. *)
Definition node := (Z * event)%type.
Record elist := mkEL { nodes : list node; locals : Z -> list Z; barrier : R }.

(** std::set::insert; the flag is [insert.second] *)
Fixpoint set_insert (n : node) (l : list node) : list node * bool :=
  match l with
  | [] => ([n], true)
  | x :: l' =>
    if event_lt (snd n) (snd x) then (n :: l, true)
    else if event_lt (snd x) (snd n) then (x :: fst (set_insert n l'), snd (set_insert n l'))
    else (l, false)
  end.

Definition set_local (f : Z -> list Z) (c : Z) (l : list Z) : Z -> list Z :=
  fun c' => if Z.eqb c' c then l else f c'.

(** AddEvent, EventListHandler.cpp:52-66, with AddLocalEvent, Event.cpp:118-122; [a] is the address
    the allocator returns.  (The destructor of the temporary Event finds nothing to remove.) *)
Definition add_event (a : Z) (t : R) (c1 c2 : Z) (s : elist) : elist :=
  if orb (rltb t 0) (rltb (barrier s) t) then s
  else let e := mkEvent t c2 c1 in
    let (ns, inserted) := set_insert (a, e) (nodes s) in
    if inserted then
      let f1 := set_local (locals s) c2 (locals s c2 ++ [a]) in
      let f2 := set_local f1 c1 (f1 c1 ++ [a]) in
      mkEL ns f2 (barrier s)
    else s.

(** ~Event, Event.cpp:25-35: the address leaves both local lists *)
Definition remove_addr (a : Z) (l : list Z) : list Z := filter (fun x => negb (Z.eqb x a)) l.
Definition destroy (n : node) (f : Z -> list Z) : Z -> list Z :=
  let f1 := set_local f (efst (snd n)) (remove_addr (fst n) (f (efst (snd n)))) in
  set_local f1 (esnd (snd n)) (remove_addr (fst n) (f1 (esnd (snd n)))).

(** std::set::erase(key): destroys the node that is equivalent to the key *)
Definition equivalent (a b : event) : bool := andb (negb (event_lt a b)) (negb (event_lt b a)).
Fixpoint erase_key (k : event) (l : list node) : list node * list node :=
  match l with
  | [] => ([], [])
  | x :: l' =>
    if equivalent (snd x) k then (fst (erase_key k l'), x :: snd (erase_key k l'))
    else (x :: fst (erase_key k l'), snd (erase_key k l'))
  end.
Definition erase_event (k : event) (s : elist) : elist :=
  let (kept, gone) := erase_key k (nodes s) in
  mkEL kept (fold_left (fun f n => destroy n f) gone (locals s)) (barrier s).

(** DeleteOldEvents, EventListHandler.cpp:68-72.  [read a] is what dereferencing the dangling pointer [a]
    yields: [None] is undefined behaviour. *)
Definition deref (read : Z -> option event) (a : Z) (s : elist) : option event :=
  match find (fun n => Z.eqb (fst n) a) (nodes s) with Some n => Some (snd n) | None => read a end.
Fixpoint delete_old (read : Z -> option event) (ps : list Z) (s : elist) : outcome elist :=
  match ps with
  | [] => Ok s
  | p :: ps' => match deref read p s with
                | None => UB
                | Some e => delete_old read ps' (erase_event e s)
                end
  end.

(** EraseOldEvents, Event.cpp:58-71.  GetLocalEventsToDelete appends the local events of a sphere
    (CollidableParticleSphere.cpp:216-222) and nothing for a wall (CollidableWallBase.h:82). *)
Definition to_delete (is_sphere : Z -> bool) (s : elist) (c : Z) : list Z := if is_sphere c then locals s c else [].
Definition erase_old (read : Z -> option event) (is_sphere : Z -> bool) (e : event) (s : elist) : outcome elist :=
  delete_old read (to_delete is_sphere s (efst e) ++ to_delete is_sphere s (esnd e)) s.

(** Clear and the mEvents.clear() of SetTimeBarrier, EventListHandler.cpp:47-50 and 150 *)
Definition clear_events (s : elist) : elist :=
  mkEL [] (fold_left (fun f n => destroy n f) (nodes s) (locals s)) (barrier s).
(** SetTimeBarrier, line 146 and 150 *)
Definition reset_barrier (t : R) (s : elist) : elist := clear_events (mkEL (nodes s) (locals s) t).

Definition empty_list (b : R) : elist := mkEL [] (fun _ => []) b.

(** Calls on the list.  [OpErase e]: EraseOldEvents of an event. *)
Inductive list_op :=
| OpAdd (a : Z) (t : R) (c1 c2 : Z)
| OpErase (e : event)
| OpReset (t : R).
Definition list_step (is_sphere : Z -> bool) (s : elist) (o : list_op) : outcome elist :=
  match o with
  | OpAdd a t c1 c2 => Ok (add_event a t c1 c2 s)
  | OpErase e => erase_old (fun _ => None) is_sphere e s
  | OpReset t => Ok (reset_barrier t s)
  end.
Fixpoint list_run (is_sphere : Z -> bool) (s : elist) (ops : list list_op) : outcome elist :=
  match ops with [] => Ok s | o :: ops' => obind (list_step is_sphere s o) (fun s' => list_run is_sphere s' ops') end.
