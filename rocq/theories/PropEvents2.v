(** * C60: histories of the event list refine a set of events *)
From Coq Require Import List ZArith Arith Bool Reals Lra Lia.
From Verif Require Import Outcome AdaptiveModel AdaptiveProofs EventModel EventSpec EventProofs PropEvents.
Import ListNotations.
Local Open Scope R_scope.

(** ** Specification: a set of events and the time barrier *)
Definition events := (event -> Prop).
Definition ideal_step (is_sphere : Z -> bool) (o : list_op) (x : events * R) : events * R :=
  match o with
  | OpAdd _ t c1 c2 => (fun e => fst x e \/ (0 <= t <= snd x /\ same_event e (mkEvent t c1 c2)), snd x)
  | OpErase e0 => (fun e => fst x e /\ ~ exists c, involves e0 c /\ is_sphere c = true /\ involves e c, snd x)
  | OpReset t => (fun _ => False, t)
  end.
Fixpoint ideal_run (is_sphere : Z -> bool) (ops : list list_op) (x : events * R) : events * R :=
  match ops with [] => x | o :: ops' => ideal_run is_sphere ops' (ideal_step is_sphere o x) end.

(** the calls of a simulation: events of two different collidables at a fresh address; EraseOldEvents for an event of the list
    between a sphere and a wall (for two spheres see [C60_sphere_sphere_refuted]) *)
Definition call_ok (is_sphere : Z -> bool) (s : elist) (o : list_op) : Prop :=
  match o with
  | OpAdd a _ c1 c2 => c1 <> c2 /\ ~ In a (map fst (nodes s))
  | OpErase e => (exists a, In (a, e) (nodes s)) /\ is_sphere (efst e) <> is_sphere (esnd e)
  | OpReset _ => True
  end.
Fixpoint calls_ok (is_sphere : Z -> bool) (s : elist) (ops : list list_op) : Prop :=
  match ops with
  | [] => True
  | o :: ops' => call_ok is_sphere s o /\ forall s', list_step is_sphere s o = Ok s' -> calls_ok is_sphere s' ops'
  end.
(** the list holds an event (between the same two collidables, in either order) *)
Definition holds_event (s : elist) (e : event) : Prop := exists a e', In (a, e') (nodes s) /\ same_event e e'.
Fixpoint times_ascend (l : list event) : Prop :=
  match l with [] => True | e :: l' => (forall e', In e' l' -> etime e <= etime e') /\ times_ascend l' end.

(** ** Proofs *)
Lemma same_sym a b : same_event a b -> same_event b a.
Proof. intros (T & P). split; [congruence|]. unfold same_pair in *. intuition congruence. Qed.
Lemma same_trans a b c : same_event a b -> same_event b c -> same_event a c.
Proof. intros (T & P) (T' & P'). split; [congruence|]. unfold same_pair in *. intuition congruence. Qed.
Lemma same_involves a b c : same_event a b -> involves a c -> involves b c.
Proof. intros (_ & P) H. unfold same_pair, involves in *. intuition congruence. Qed.
Lemma same_swap t c1 c2 : same_event (mkEvent t c1 c2) (mkEvent t c2 c1).
Proof. split; [reflexivity|]. right. split; reflexivity. Qed.

Lemma add_barrier a t c1 c2 s : barrier (add_event a t c1 c2 s) = barrier s.
Proof. unfold add_event. destruct (_ || _)%bool; [reflexivity|]. destruct (set_insert _ _) as (ns & [|]); reflexivity. Qed.
Lemma erase_barrier read ps : forall s s', delete_old read ps s = Ok s' -> barrier s' = barrier s.
Proof.
  induction ps as [|p ps IH]; intros s s'; cbn [delete_old]; [intros H; injection H as <-; reflexivity|].
  destruct (deref read p s) as [e|]; [|discriminate]. intros H. apply IH in H. rewrite H. unfold erase_event. destruct (erase_key e (nodes s)). reflexivity.
Qed.
Lemma add_holds a t c1 c2 s e : holds_event (add_event a t c1 c2 s) e <-> holds_event s e \/ (0 <= t <= barrier s /\ same_event e (mkEvent t c1 c2)).
Proof.
  unfold add_event. destruct (rltb_spec t 0) as [(-> & Lt)|(-> & Lt)]; cbn [orb].
  { split; [left; assumption|]. intros [H|((F & _) & _)]; [exact H|exfalso; lra]. }
  destruct (rltb_spec (barrier s) t) as [(-> & Lb)|(-> & Lb)].
  { split; [left; assumption|]. intros [H|((_ & F) & _)]; [exact H|exfalso; lra]. }
  pose proof (set_insert_in (a, mkEvent t c2 c1) (nodes s)) as Hin.
  pose proof (set_insert_false (a, mkEvent t c2 c1) (nodes s)) as Hf.
  destruct (set_insert (a, mkEvent t c2 c1) (nodes s)) as (ns & b) eqn:E. cbn [fst snd] in Hin, Hf. destruct b.
  - unfold holds_event. cbn [nodes]. split.
    + intros (a' & e' & H & Hs). apply Hin in H. destruct H as [H|(_ & H)]; [left; eauto|]. injection H as -> ->.
      right. split; [lra|]. eapply same_trans; [exact Hs|apply same_swap].
    + intros [(a' & e' & H & Hs)|(_ & Hs)].
      * exists a', e'. split; [apply Hin; left; exact H|exact Hs].
      * exists a, (mkEvent t c2 c1). split; [apply Hin; right; split; reflexivity|]. eapply same_trans; [exact Hs|apply same_swap].
  - split; [left; assumption|]. intros [H|(_ & Hs)]; [exact H|]. destruct (Hf eq_refl) as ((a' & e') & Hx & Hse). cbn [snd] in Hse.
    exists a', e'. split; [exact Hx|]. eapply same_trans; [exact Hs|]. eapply same_trans; [apply same_swap|apply same_sym, Hse].
Qed.
Lemma ordered_ascend l : ordered l -> times_ascend (map snd l).
Proof.
  induction l as [|x l IH]; cbn [map times_ascend ordered]; [auto|]. intros (H & Ho). split; [|auto].
  intros e' He. apply in_map_iff in He. destruct He as (y & <- & Hy). apply H in Hy. apply event_lt_spec in Hy. lra.
Qed.

(** C60: after every such history the list holds exactly the events that were added within [0, barrier] and neither outdated nor
    reset since, the earliest first, without reading a destroyed event.  Missing for the full statement: collisions of two spheres *)
Theorem C60_history_partial : forall is_sphere b ops, calls_ok is_sphere (empty_list b) ops ->
  exists s, list_run is_sphere (empty_list b) ops = Ok s /\
    (forall e, holds_event s e <-> fst (ideal_run is_sphere ops (fun _ => False, b)) e) /\
    barrier s = snd (ideal_run is_sphere ops (fun _ => False, b)) /\
    times_ascend (map snd (nodes s)).
Proof.
  intros is_sphere b ops.
  assert (G : forall ops s x, reachable is_sphere s -> (forall e, holds_event s e <-> fst x e) -> barrier s = snd x -> calls_ok is_sphere s ops ->
    exists s', list_run is_sphere s ops = Ok s' /\ (forall e, holds_event s' e <-> fst (ideal_run is_sphere ops x) e) /\
      barrier s' = snd (ideal_run is_sphere ops x) /\ times_ascend (map snd (nodes s'))).
  { clear ops b. induction ops as [|o ops IH]; intros s x Hr Hh Hb Hc; cbn [list_run ideal_run].
    - exists s. split; [reflexivity|]. split; [exact Hh|]. split; [exact Hb|]. apply ordered_ascend. apply (reachable_wf _ _ Hr).
    - destruct Hc as (Ho & Hc). destruct o as [a t c1 c2|e0|t]; cbn [list_step obind call_ok] in *.
      + destruct Ho as (Hne & Hf). apply IH; [apply reach_add; assumption| | |apply Hc; reflexivity].
        * intros e. rewrite add_holds, Hh, Hb. reflexivity.
        * rewrite add_barrier. exact Hb.
      + destruct Ho as ((a & Hin) & Hk). destruct (C60_sphere_wall_partial is_sphere s a e0 Hr Hin Hk) as (s' & E & N).
        rewrite E. cbn [obind]. apply IH; [eapply reach_erase; eauto| | |apply Hc; exact E].
        * intros e. cbn [ideal_step fst]. rewrite <- Hh. unfold holds_event. split.
          -- intros (a' & e' & H & Hs). apply N in H. destruct H as (H & Hno). split; [eauto|].
             intros (c & H1 & H2 & H3). apply Hno. exists c. cbn [snd]. split; [exact H1|]. split; [exact H2|]. eapply same_involves; eauto.
          -- intros ((a' & e' & H & Hs) & Hno). exists a', e'. split; [|exact Hs]. apply N. split; [exact H|].
             intros (c & H1 & H2 & H3). cbn [snd] in H3. apply Hno. exists c. split; [exact H1|]. split; [exact H2|]. eapply same_involves; [apply same_sym, Hs|exact H3].
        * change (barrier s' = snd x). unfold erase_old in E. apply erase_barrier in E. congruence.
      + apply IH; [apply reach_reset; assumption| |reflexivity|apply Hc; reflexivity].
        intros e. cbn [ideal_step fst]. split; [|tauto]. intros (a' & e' & [] & _). }
  intros Hc. apply G; [apply reach_new| |reflexivity|exact Hc].
  intros e. cbn [fst]. split; [|tauto]. intros (a & e' & [] & _).
Qed.
Print Assumptions C60_history_partial.

(** sphere 10 meets wall 1 at time 1 and sphere 11 at time 2; after the collision with the wall both events are gone *)
Example C60_history_case : let sph := fun c => Z.leb 10 c in
  let ops := [OpAdd 100 1 10 1; OpAdd 101 2 11 10; OpErase (mkEvent 1 1 10)] in
  calls_ok sph (empty_list 5) ops /\
  (fst (ideal_run sph (firstn 2 ops) (fun _ => False, 5)) (mkEvent 2 10 11)) /\
  ~ (fst (ideal_run sph ops (fun _ => False, 5)) (mkEvent 2 10 11)).
Proof.
  cbv zeta. assert (L: nodes (add_event 100 1 10 1 (empty_list 5)) = [(100%Z, mkEvent 1 1 10)]).
  { unfold add_event, empty_list. cbn [barrier nodes].
    destruct (rltb_spec 1 0) as [(_ & F)|(-> & _)]; [exfalso; lra|].
    destruct (rltb_spec 5 1) as [(_ & F)|(-> & _)]; [exfalso; lra|]. reflexivity. }
  split; [|split].
  - cbn [calls_ok call_ok list_step]. split; [split; [discriminate|cbn; tauto]|].
    intros s E. injection E as <-. split.
    + split; [discriminate|]. rewrite L. cbn. intros [F|[]]. discriminate.
    + intros s E. injection E as <-. split; [|intros; exact I]. split; [|cbn; discriminate]. exists 100%Z. apply C60_case.
  - cbn. right. split; [lra|]. apply same_swap.
  - cbn [ideal_run ideal_step fst snd]. intros (_ & Hno). apply Hno. exists 10%Z. split; [right; reflexivity|]. split; [reflexivity|left; reflexivity].
Qed.
