(** Model of the event-driven simulation: nuto/geometryConcrete/collision/handler/CollisionHandler.cpp,
    handler/EventListHandler.cpp, Event.cpp, SubBox.cpp and the registration of spheres in sub-boxes
    (CollidableBase.cpp, CollidableWallVirtual.cpp).

    Simplifications: exact reals; status output switched off (rTimePrintOut = 0); the statistics and timers are left out, the wall clock is an oracle.  The event list is the ordered list of
    its events: EraseOldEvents removes the events of the two collidables (the effect of reading the freed events
    with their old content, see C60_stale_memory_partial). *)
From Coq Require Import Reals ZArith List Bool.
From Verif Require Import Outcome AdaptiveModel Vec3 CollisionModel EventModel SubBoxModel.
Import ListNotations.
Local Open Scope R_scope.

(** what is at the address of a collidable *)
(** the cylinder wall of the box [b], SubBoxHandler.cpp:230-238 *)
Inductive object := OSphere | OWall (w : box_wall) | OCylinder (w : cylinder) (b : Z).

(** The spheres, mCollidables of each box, mBoxes of each sphere, the events and mTimeBarrier. *)
Record sim := mkSim { sph : Z -> sphere; content : Z -> list Z; inboxes : Z -> list Z; evs : list event; bar : R }.

Definition set_sphere (f : Z -> sphere) (i : Z) (s : sphere) : Z -> sphere := fun k => if Z.eqb k i then s else f k.
Definition set_list (f : Z -> list Z) (i : Z) (l : list Z) : Z -> list Z := fun k => if Z.eqb k i then l else f k.
Definition without (i : Z) (l : list Z) : list Z := filter (fun k => negb (Z.eqb k i)) l.

(** std::set::insert (EventModel.set_insert without the addresses) *)
Fixpoint insert_event (e : event) (l : list event) : list event :=
  match l with
  | [] => [e]
  | x :: l' => if event_lt e x then e :: l else if event_lt x e then x :: insert_event e l' else l
  end.

Section Simulation.
  Variable what : Z -> object.     (* the objects *)
  Variable nboxes : Z.             (* mSubBoxes.size() *)

  Definition is_sphere (c : Z) : bool := match what c with OSphere => true | _ => false end.

  (** GetSubBoxes; for a wall SetBoxes, CollidableWallBase.cpp:109-114, leaves the inside box *)
  Definition boxes_of (s : sim) (c : Z) : list Z :=
    match what c with OSphere => inboxes s c | OWall w => [bw_inside w] | OCylinder _ b => [b] end.

  (** IsInOutsideBox, CollidableWallVirtual.cpp:19-26 *)
  Definition in_outside (s : sim) (w : box_wall) (i : Z) : bool := existsb (Z.eqb (bw_outside w)) (inboxes s i).

  (** CollidableWallPhysical / CollidableWallVirtual::PredictCollision(sphere) *)
  Definition predict_box_wall (s : sim) (w : box_wall) (i : Z) : outcome R :=
    match bw_kind w with
    | Physical => predict_wall (bw_wall w) (sph s i)
    | Virtual => predict_virtual (bw_wall w) (in_outside s w i) (sph s i)
    end.

  (** rCollidable.PredictCollision( *collidable ): double dispatch, CollidableParticleSphere.cpp:121-124 and 175-178,
      CollidableWallBase.cpp:42-50, CollidableWallCylinder.cpp:43-83 *)
  Definition predict (s : sim) (c1 c2 : Z) : outcome R :=
    match what c1, what c2 with
    | OSphere, OSphere => predict_spheres (sph s c2) (sph s c1)
    | OSphere, OWall w => predict_box_wall s w c1
    | OWall w, OSphere => predict_box_wall s w c2
    | OSphere, OCylinder w _ => predict_cylinder w (sph s c1)
    | OCylinder w _, OSphere => predict_cylinder w (sph s c2)
    | _, _ => Ok (-1)
    end.

  (** AddEvent, EventListHandler.cpp:52-61 *)
  Definition add_event_to (b t : R) (c1 c2 : Z) (l : list event) : list event :=
    if orb (rltb t 0) (rltb b t) then l else insert_event (mkEvent t c2 c1) l.

  (** SubBox::CreateEvents, SubBox.cpp:74-83, over the collidables [cs] of the box *)
  Fixpoint create_events (s : sim) (c : Z) (cs : list Z) (l : list event) : outcome (list event) :=
    match cs with
    | [] => Ok l
    | d :: cs' => obind (predict s c d) (fun t =>
        create_events s c cs' (if reqb t EVENTNULL then l else add_event_to (bar s) t c d l))
    end.
  Fixpoint create_in_boxes (s : sim) (c : Z) (bs : list Z) (l : list event) : outcome (list event) :=
    match bs with
    | [] => Ok l
    | b :: bs' => obind (create_events s c (content s b) l) (create_in_boxes s c bs')
    end.

  (** MoveAndGrow; a wall does nothing (CollidableWallBase.h) *)
  Definition move (s : sim) (c : Z) (t : R) : sim :=
    if is_sphere c then mkSim (set_sphere (sph s) c (move_and_grow (sph s c) t)) (content s) (inboxes s) (evs s) (bar s)
    else s.

  (** SubBox::AddSphere, SubBox.cpp:28-32 *)
  Definition add_sphere_to (s : sim) (b i : Z) : sim :=
    mkSim (sph s) (set_list (content s) b (content s b ++ [i])) (set_list (inboxes s) i (inboxes s i ++ [b])) (evs s) (bar s).
  (** SubBox::RemoveSphere, SubBox.cpp:34-39, with RemoveBox, CollidableBase.cpp:51-57 *)
  Definition remove_sphere_from (s : sim) (b i : Z) : outcome sim :=
    match without b (inboxes s i) with
    | [] => Throw
    | l => Ok (mkSim (sph s) (set_list (content s) b (without i (content s b))) (set_list (inboxes s) i l) (evs s) (bar s))
    end.

  (** CollidableWallPhysical.cpp:18-28, CollidableWallVirtual.cpp:28-40 *)
  Definition perform_box_wall (s : sim) (w : box_wall) (i : Z) : outcome sim :=
    match bw_kind w with
    | Physical => Ok (mkSim (set_sphere (sph s) i (perform_wall (bw_wall w) (sph s i))) (content s) (inboxes s) (evs s) (bar s))
    | Virtual => if in_outside s w i then remove_sphere_from s (bw_inside w) i
                 else Ok (add_sphere_to s (bw_outside w) i)
    end.

  (** mFirst->PerformCollision( *mSecond ): double dispatch, [this] is mSecond for two spheres;
      CollidableWallCylinder.cpp:24-41 *)
  Definition perform_cylinder_wall (s : sim) (w : cylinder) (i : Z) : outcome sim :=
    omap (fun u => mkSim (set_sphere (sph s) i u) (content s) (inboxes s) (evs s) (bar s)) (perform_cylinder w (sph s i)).
  Definition perform (s : sim) (c1 c2 : Z) : outcome sim :=
    match what c1, what c2 with
    | OSphere, OSphere =>
      let p := perform_spheres (sph s c2) (sph s c1) in
      Ok (mkSim (set_sphere (set_sphere (sph s) c2 (fst p)) c1 (snd p)) (content s) (inboxes s) (evs s) (bar s))
    | OSphere, OWall w => perform_box_wall s w c1
    | OWall w, OSphere => perform_box_wall s w c2
    | OSphere, OCylinder w _ => perform_cylinder_wall s w c1
    | OCylinder w _, OSphere => perform_cylinder_wall s w c2
    | _, _ => Ok s
    end.

  (** EraseOldEvents, Event.cpp:58-71, DeleteOldEvents, EventListHandler.cpp:68-72: the local events of the spheres *)
  Definition concerns (c : Z) (e : event) : bool := andb (is_sphere c) (orb (Z.eqb (efst e) c) (Z.eqb (esnd e) c)).
  Definition erase_events (c1 c2 : Z) (l : list event) : list event :=
    filter (fun e => negb (orb (concerns c1 e) (concerns c2 e))) l.

  Definition with_events (s : sim) (l : list event) : sim := mkSim (sph s) (content s) (inboxes s) l (bar s).

  (** PerformNextEvent, EventListHandler.cpp:111-142; Event::PerformCollision and AddNewEvents, Event.cpp:42-56.
      Dereferencing begin() of an empty set is undefined. *)
  Definition perform_next (s : sim) : outcome sim :=
    match evs s with
    | [] => UB
    | e :: _ =>
      obind (perform (move (move s (efst e) (etime e)) (esnd e) (etime e)) (efst e) (esnd e)) (fun s1 =>
        let s2 := with_events s1 (erase_events (efst e) (esnd e) (evs s1)) in
        obind (create_in_boxes s2 (efst e) (boxes_of s2 (efst e)) (evs s2)) (fun l =>
        omap (with_events s2) (create_in_boxes s2 (esnd e) (boxes_of s2 (esnd e)) l)))
    end.

  (** GetNextEventTime, EventListHandler.cpp:74-80 *)
  Definition next_time (s : sim) : R := match evs s with [] => EVENTNULL | e :: _ => etime e end.

  (** SetTimeBarrier, EventListHandler.cpp:144-161 *)
  Fixpoint create_all (s : sim) (b : Z) (cs : list Z) (l : list event) : outcome (list event) :=
    match cs with
    | [] => Ok l
    | c :: cs' => obind (create_events s c (content s b) l) (create_all s b cs')
    end.
  Fixpoint rebuild (s : sim) (bs : list Z) (l : list event) : outcome (list event) :=
    match bs with
    | [] => Ok l
    | b :: bs' => obind (create_all s b (content s b) l) (rebuild s bs')
    end.
  Definition set_barrier (t : R) (s : sim) : outcome sim :=
    let s0 := mkSim (sph s) (content s) (inboxes s) [] t in
    omap (with_events s0) (rebuild s0 (zrange 0 (nboxes - 1)) []).

  (** ** Simulate, CollisionHandler.cpp:58-185
      The local variables globalTime, oldGlobalTime, globalTimeOfBarrierReset, noChangeCounter, noChangeGlobalTime. *)
  Record loop := mkLoop { lsim : sim; lglobal : R; lold : R; lreset : R; lcount : Z; lnochange : R }.
  Inductive status := Running | Stopped | Failed.

  (** lines 92-104 and 106-117: factor 10 and 1.1 *)
  Definition reset (f : R) (L : loop) : outcome loop :=
    omap (fun s => mkLoop s (next_time s) (lold L) (next_time s) (lcount L) (lnochange L))
      (set_barrier (lold L + f * (lold L - lreset L)) (lsim L)).
  Definition fetch (L : loop) : loop :=
    mkLoop (lsim L) (next_time (lsim L)) (lold L) (lreset L) (lcount L) (lnochange L).

  Variable events_max : Z.         (* rNumEventsMax *)
  Variable time_max : R.           (* rTimeMax *)

  (** One pass through the loop.  [timeout]: the wall clock has passed rWTimeMax; [late]: the condition of line 107.
      An exception of PerformNextEvent ends the loop (lines 137-143); the state it leaves is not described. *)
  Definition pass (timeout late : bool) (L : loop) : outcome (status * loop) :=
    if orb timeout (negb (rltb (lglobal L) time_max)) then Ok (Stopped, L)
    else
      obind (let L1 := fetch L in if reqb (lglobal L1) EVENTNULL then reset 10 L1 else Ok L1) (fun L1 =>
      obind (if late then reset (11 / 10) L1 else Ok L1) (fun L2 =>
      obind (perform_next (lsim L2)) (fun s =>
      let near := rltb (lglobal L2 - lnochange L2) (tenm 6) in
      let count := if near then (lcount L2 + 1)%Z else 0%Z in
      if andb near (Z.ltb events_max count)
      then Ok (Failed, mkLoop s (lglobal L2) (lold L2) (lreset L2) count (lnochange L2))
      else Ok (Running, mkLoop s (lglobal L2) (lglobal L2) (lreset L2) count
                          (if near then lnochange L2 else lglobal L2))))).

  (** after [n] passes; the booleans of pass [k] are [timeout k] and [late k] *)
  Fixpoint passes (timeout late : nat -> bool) (n : nat) (L : loop) : outcome (status * loop) :=
    match n with
    | O => Ok (Running, L)
    | S m => obind (passes timeout late m L) (fun '(st, L') =>
        match st with Running => pass (timeout m) (late m) L' | _ => Ok (st, L') end)
    end.
  (** lines 76-87 *)
  Definition start (barrier0 : R) (s : sim) : outcome loop :=
    omap (fun s' => mkLoop s' 0 0 0 0 0) (set_barrier barrier0 s).
  (** ParticleHandler::Sync, ParticleHandler.cpp:154-158, called in line 173 *)
  Definition sync (ids : list Z) (t : R) (s : sim) : sim := fold_left (fun s i => move s i t) ids s.
  (** the whole call, if the loop ends within [n] passes; [Failed]: the exception of lines 180-182 *)
  Definition simulate (timeout late : nat -> bool) (n : nat) (barrier0 : R) (ids : list Z) (s : sim) : outcome (status * sim) :=
    obind (start barrier0 s) (fun L => omap (fun '(st, L') => (st, sync ids (lglobal L') (lsim L'))) (passes timeout late n L)).
End Simulation.

(** The state after BuildSubBoxes and AddSpheresToBoxes: [b] are the collidables of the boxes; AddSphere enters each
    box into the list of the sphere as well. *)
Definition boxes_with (nboxes : Z) (b : boxes) (i : Z) : list Z :=
  filter (fun k => existsb (Z.eqb i) (b k)) (zrange 0 (nboxes - 1)).
Definition initial_sim (nboxes : Z) (sph0 : Z -> sphere) (b : boxes) : sim :=
  mkSim sph0 b (boxes_with nboxes b) [] 0.

(** ** A cylinder specimen, SubBoxHandler.cpp:209-262
    Lines 215-220: the cylinder around the axis through [gorg + radius]; BuildSubBoxes and AddSpheresToBoxes (the
    contents [b]); a cylinder wall, at an address in [cylinders k], for the boxes with one to three corners inside; then the
    physical side walls are removed from the boxes. *)
Definition specimen_cylinder (g : grid) (r h : R) : cylinder :=
  new_cylinder (V3 (vx (gorg g) + r) (vy (gorg g) + r) (vz (gorg g) + h)) (V3 0 0 1) r.
Definition cylinder_boxes (what : Z -> object) (cylinders : boxes) (b : boxes) : boxes := fun k =>
  filter (fun d => match what d with
    | OSphere => true
    | OWall w => stays w
    | OCylinder w _ => negb (reqb (vz (wdir (cwall w))) 0)
    end) (b k ++ cylinders k).
