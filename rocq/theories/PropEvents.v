(** * C59, C60: the event list of the particle simulation *)
From Coq Require Import Reals ZArith List Bool Lra Lia.
From Verif Require Import Outcome AdaptiveModel AdaptiveProofs CollisionModel CollisionProofs2 EventModel EventSpec EventProofs.
Import ListNotations.
Local Open Scope R_scope.

(** ** C59 *)
Theorem C59_strict_order :
  (forall a, event_lt a a = false) /\
  (forall a b c, event_lt a b = true -> event_lt b c = true -> event_lt a c = true) /\
  (forall a b, event_lt a b = true -> event_lt b a = false) /\
  (forall a b, event_lt a b = false /\ event_lt b a = false <-> same_event a b) /\
  (forall a b, etime a < etime b -> event_lt a b = true).
Proof.
  split; [exact lt_irrefl|]. split; [exact lt_trans|]. split; [exact lt_asym|]. split.
  - intros a b. rewrite <- equivalent_spec. unfold equivalent. rewrite andb_true_iff, !negb_true_iff. tauto.
  - intros a b H. apply event_lt_spec. auto.
Qed.
Theorem C59_equality : forall a b,
  (event_eq a b = true <-> same_event a b) /\
  (event_eq a b = true <-> event_lt a b = false /\ event_lt b a = false).
Proof.
  intros a b. split; [apply event_eq_spec|]. rewrite event_eq_spec. symmetry. apply C59_strict_order.
Qed.
Theorem C59_swapped_partners : forall t c c' e,
  event_eq (mkEvent t c c') (mkEvent t c' c) = true /\
  event_lt (mkEvent t c c') e = event_lt (mkEvent t c' c) e /\
  event_lt e (mkEvent t c c') = event_lt e (mkEvent t c' c).
Proof.
  intros t c c' e.
  assert (S: smaller (mkEvent t c c') = smaller (mkEvent t c' c) /\ bigger (mkEvent t c c') = bigger (mkEvent t c' c)).
  { apply same_pair_keys. right. auto. }
  destruct S as (S & B). split; [apply event_eq_spec; split; [auto|right; auto]|].
  unfold event_lt. rewrite S, B. auto.
Qed.
Print Assumptions C59_strict_order.
Print Assumptions C59_equality.
Print Assumptions C59_swapped_partners.

(** ** C60 *)

(** The lists that arise from a sequence of calls: events are added at fresh addresses for two different
    collidables; EraseOldEvents is called for an event of the list that is about a sphere and a wall. *)
Inductive reachable (is_sphere : Z -> bool) : elist -> Prop :=
| reach_new b : reachable is_sphere (empty_list b)
| reach_add s a t c1 c2 : reachable is_sphere s -> c1 <> c2 -> ~ In a (map fst (nodes s)) ->
    reachable is_sphere (add_event a t c1 c2 s)
| reach_reset s t : reachable is_sphere s -> reachable is_sphere (reset_barrier t s)
| reach_erase s a e s' : reachable is_sphere s -> In (a, e) (nodes s) ->
    is_sphere (efst e) <> is_sphere (esnd e) ->
    erase_old (fun _ => None) is_sphere e s = Ok s' -> reachable is_sphere s'.

(** EraseOldEvents for a collision of one sphere with a wall *)
Lemma erase_one read is_sphere e s : wf_list s -> is_sphere (efst e) <> is_sphere (esnd e) ->
  exists s', erase_old read is_sphere e s = Ok s' /\ wf_list s' /\
    nodes s' = filter (fun n => negb (orb (andb (is_sphere (efst e)) (involvesb (snd n) (efst e)))
                                     (andb (is_sphere (esnd e)) (involvesb (snd n) (esnd e))))) (nodes s).
Proof.
  intros Hw Hk. unfold erase_old, to_delete.
  assert (X: forall c, exists s', delete_old read (locals s c) s = Ok s' /\ wf_list s' /\
      nodes s' = filter (fun n => negb (involvesb (snd n) c)) (nodes s)).
  { intros c. destruct Hw as (W1 & W2 & W3 & W4). pose proof (W4 c) as (Hd & Hin).
    destruct (delete_live read (locals s c) s) as (s' & E & W' & N & _).
    - repeat split; auto; apply W4.
    - auto.
    - intros p Hp. apply Hin in Hp. destruct Hp as (e' & He' & _). change p with (fst (p, e')). apply in_map. auto.
    - exists s'. split; auto. split; auto. rewrite N. apply filter_ext_In. intros n Hn. unfold not_in.
      rewrite not_in_locals; auto. repeat split; auto; apply W4. }
  destruct (is_sphere (efst e)) eqn:E1, (is_sphere (esnd e)) eqn:E2; try congruence.
  - destruct (X (efst e)) as (s' & E & W' & N). exists s'. rewrite app_nil_r. split; auto. split; auto. rewrite N.
    apply filter_ext_In. intros n _. cbn [andb]. rewrite orb_false_r. reflexivity.
  - destruct (X (esnd e)) as (s' & E & W' & N). exists s'. split; auto.
Qed.
Lemma reset_wf t s : wf_list s -> wf_list (reset_barrier t s).
Proof. intros H. apply clear_wf. exact H. Qed.
Lemma reachable_wf is_sphere s : reachable is_sphere s -> wf_list s.
Proof.
  induction 1 as [b|s a t c1 c2 _ IH Hc Ha|s t _ IH|s a e s' _ IH Hin Hk He].
  - split; [exact I|]. split; [constructor|]. split; [intros n []|]. intros c. split; [constructor|].
    intros a. simpl. split; [tauto|]. intros (e & [] & _).
  - apply add_event_wf; auto.
  - apply reset_wf. auto.
  - destruct (erase_one (fun _ => None) is_sphere e s IH Hk) as (s1 & E & W & _). congruence.
Qed.

(** A collision with a wall: no dangling pointer is read, and exactly the events of the sphere go. *)
Theorem C60_sphere_wall_partial : forall is_sphere s a e,
  reachable is_sphere s -> In (a, e) (nodes s) -> is_sphere (efst e) <> is_sphere (esnd e) ->
  exists s', erase_old (fun _ => None) is_sphere e s = Ok s' /\
    forall n, In n (nodes s') <->
      In n (nodes s) /\ ~ exists c, involves e c /\ is_sphere c = true /\ involves (snd n) c.
Proof.
  intros is_sphere s a e Hr Hin Hk.
  destruct (erase_one (fun _ => None) is_sphere e s (reachable_wf _ _ Hr) Hk) as (s' & E & _ & N).
  exists s'. split; auto. intros n. rewrite N, filter_In, negb_true_iff, orb_false_iff, !andb_false_iff.
  split.
  - intros (Hn & H1 & H2). split; auto. intros (c & Hc & Hs & Hi). apply involvesb_spec in Hi.
    destruct Hc as [<-|<-]; intuition congruence.
  - intros (Hn & Hno). split; auto.
    assert (forall c, involves e c -> is_sphere c = false \/ involvesb (snd n) c = false) as HH.
    { intros c Hc. destruct (is_sphere c) eqn:Es; auto. destruct (involvesb (snd n) c) eqn:Ei; auto.
      exfalso. apply Hno. exists c. split; auto. split; auto. apply involvesb_spec. auto. }
    split; apply HH; [left|right]; auto.
Qed.

(** A collision of two spheres: its own event is in the local lists of both, is destroyed through the first and
    read again through the second - whatever else is in the list. *)
Theorem C60_sphere_sphere_refuted : forall is_sphere s a e,
  reachable is_sphere s -> In (a, e) (nodes s) -> is_sphere (efst e) = true -> is_sphere (esnd e) = true ->
  erase_old (fun _ => None) is_sphere e s = UB.
Proof.
  intros is_sphere s a e Hr Hin H1 H2. pose proof (reachable_wf _ _ Hr) as Hw.
  unfold erase_old, to_delete. rewrite H1, H2, delete_app.
  pose proof Hw as (W1 & W2 & W3 & W4). pose proof (W4 (efst e)) as (Hd & Hc1). pose proof (W4 (esnd e)) as (_ & Hc2).
  destruct (delete_live (fun _ => None) (locals s (efst e)) s) as (s' & E & W' & N & _); auto.
  - intros p Hp. apply Hc1 in Hp. destruct Hp as (e' & He' & _). change p with (fst (p, e')). apply in_map. auto.
  - rewrite E. cbn [obind]. apply (delete_dead _ _ a); auto.
    + apply Hc2. exists e. split; auto. right. auto.
    + rewrite N. intros F. apply in_map_iff in F. destruct F as (n & En & Hn). apply filter_In in Hn.
      destruct Hn as (_ & Hn). unfold not_in in Hn. rewrite En, negb_true_iff in Hn.
      assert (existsb (Z.eqb a) (locals s (efst e)) = true); [|congruence].
      apply existsb_exists. exists a. split; [|apply Z.eqb_refl]. apply Hc1. exists e. split; auto. left. auto.
Qed.

(** What a run that survives does: if the memory of a destroyed event still reads as before, the outcome is the
    intended one also for two spheres. *)
Theorem C60_stale_memory_partial : forall read is_sphere s a e,
  reachable is_sphere s -> In (a, e) (nodes s) ->
  (forall a' e', In (a', e') (nodes s) -> read a' = Some e') ->
  exists s', erase_old read is_sphere e s = Ok s' /\
    forall n, In n (nodes s') <->
      In n (nodes s) /\ ~ exists c, involves e c /\ is_sphere c = true /\ involves (snd n) c.
Proof.
  intros read is_sphere s a e Hr Hin Hread. pose proof (reachable_wf _ _ Hr) as Hw.
  pose proof Hw as (W1 & W2 & W3 & W4). unfold erase_old.
  destruct (delete_stale read s (to_delete is_sphere s (efst e) ++ to_delete is_sphere s (esnd e)) W1 W2 Hread s Hw)
    as (s' & E & _ & N & _); auto.
  - intros p Hp. apply in_app_iff in Hp. unfold to_delete in Hp.
    assert (X: forall c, In p (locals s c) -> In p (map fst (nodes s))).
    { intros c Hc. apply W4 in Hc. destruct Hc as (e' & He' & _). change p with (fst (p, e')). apply in_map. auto. }
    destruct Hp as [Hp|Hp]; [destruct (is_sphere (efst e))|destruct (is_sphere (esnd e))]; try destruct Hp; eauto.
  - exists s'. split; auto. intros n. rewrite N, filter_In. unfold not_in. rewrite existsb_app, negb_true_iff, orb_false_iff.
    assert (X: In n (nodes s) -> forall c, existsb (Z.eqb (fst n)) (to_delete is_sphere s c) = false <->
       ~ (is_sphere c = true /\ involves (snd n) c)).
    { intros Hn c. unfold to_delete. destruct (is_sphere c) eqn:Es; [|simpl; split; auto; intros _ (F & _); discriminate].
      rewrite not_in_locals by auto. rewrite <- involvesb_spec. destruct (involvesb (snd n) c); split; try congruence.
      - intros F. exfalso. apply F. auto.
      - intros _ (_ & F). discriminate. }
    split.
    + intros (Hn & A & B). split; auto. rewrite X in A, B by auto. intros (c & [<-|<-] & Hs & Hi); tauto.
    + intros (Hn & Hno). split; auto. rewrite !X by auto. split; intros (Hs & Hi); apply Hno.
      * exists (efst e). split; [left; auto|]. auto.
      * exists (esnd e). split; [right; auto|]. auto.
Qed.
Print Assumptions C60_sphere_wall_partial.
Print Assumptions C60_sphere_sphere_refuted.
Print Assumptions C60_stale_memory_partial.

(** A list with a wall event and a sphere event: walls 1, 2, spheres 10, 11. *)
Definition demo_list : elist :=
  add_event 101 2 11 10 (add_event 100 1 10 1 (empty_list 5)).
Example C60_case : let sph := fun c => Z.leb 10 c in
  reachable sph demo_list /\
  In (100%Z, mkEvent 1 1 10) (nodes demo_list) /\ In (101%Z, mkEvent 2 10 11) (nodes demo_list).
Proof.
  assert (L: nodes (add_event 100 1 10 1 (empty_list 5)) = [(100%Z, mkEvent 1 1 10)]).
  { unfold add_event, empty_list. cbn [barrier nodes].
    destruct (rltb_spec 1 0) as [(_ & F)|(-> & _)]; [exfalso; lra|].
    destruct (rltb_spec 5 1) as [(_ & F)|(-> & _)]; [exfalso; lra|]. reflexivity. }
  assert (B: barrier (add_event 100 1 10 1 (empty_list 5)) = 5).
  { unfold add_event, empty_list. cbn [barrier nodes].
    destruct (rltb_spec 1 0) as [(_ & F)|(-> & _)]; [exfalso; lra|].
    destruct (rltb_spec 5 1) as [(_ & F)|(-> & _)]; [exfalso; lra|]. reflexivity. }
  cbv zeta. split.
  - apply reach_add; [apply reach_add; [apply reach_new|discriminate|]|discriminate|].
    + simpl. tauto.
    + rewrite L. simpl. intros [F|[]]. discriminate.
  - assert (E: nodes demo_list = [(100%Z, mkEvent 1 1 10); (101%Z, mkEvent 2 10 11)]).
    { unfold demo_list. unfold add_event at 1. rewrite B, L.
      destruct (rltb_spec 2 0) as [(_ & F)|(-> & _)]; [exfalso; lra|].
      destruct (rltb_spec 5 2) as [(_ & F)|(-> & _)]; [exfalso; lra|]. cbn [orb set_insert snd].
      assert (event_lt (mkEvent 2 10 11) (mkEvent 1 1 10) = false) as ->
        by (apply event_lt_false; cbn [etime]; intros [F|(F & _)]; lra).
      assert (event_lt (mkEvent 1 1 10) (mkEvent 2 10 11) = true) as -> by (apply event_lt_spec; cbn [etime]; lra).
      reflexivity. }
    rewrite E. split; simpl; auto.
Qed.
