(** The event list of the simulation: what CreateEvents and SetTimeBarrier produce. *)
From Coq Require Import Reals ZArith List Bool Lia Lra Psatz.
From Verif Require Import Outcome AdaptiveModel AdaptiveProofs Vec3 CollisionModel CollisionSpec CollisionProofs CollisionProofs2
  PropCollision EventModel EventSpec EventProofs SubBoxModel SubBoxSpec SubBoxProofs SimModel SimSpec SimProofs SimProofs2.
Import ListNotations.
Local Open Scope R_scope.

Lemma insert_in e l x : In x (insert_event e l) -> x = e \/ In x l.
Proof.
  induction l as [|y l IH]; cbn [insert_event]; [intros [->|[]]; auto|].
  destruct (event_lt e y); [intros [->|H]; auto|]. destruct (event_lt y e); [|auto].
  intros [->|H]; [right; left; auto|]. destruct (IH H); [auto|right; right; auto].
Qed.
Lemma insert_keep e l x : In x l -> In x (insert_event e l).
Proof.
  induction l as [|y l IH]; cbn [insert_event]; [intros []|]. intros H.
  destruct (event_lt e y); [right; auto|]. destruct (event_lt y e); [|auto].
  destruct H as [->|H]; [left; auto|right; auto].
Qed.
Lemma same_refl e : same_event e e.
Proof. split; auto. left. auto. Qed.
Lemma insert_has e l : exists x, In x (insert_event e l) /\ same_event x e.
Proof.
  induction l as [|y l IH]; cbn [insert_event]; [exists e; split; [left; auto|apply same_refl]|].
  destruct (event_lt e y) eqn:E1; [exists e; split; [left; auto|apply same_refl]|].
  destruct (event_lt y e) eqn:E2.
  - destruct IH as (x & H1 & H2). exists x. split; [right; auto|auto].
  - exists y. split; [left; auto|]. apply equivalent_spec. unfold equivalent. rewrite E1, E2. reflexivity.
Qed.
Lemma insert_ordered e l : ordered_evs l -> ordered_evs (insert_event e l).
Proof.
  induction l as [|y l IH]; cbn [insert_event ordered_evs]; [intros _; split; [intros ? []|auto]|].
  intros (H1 & H2). destruct (event_lt e y) eqn:E1.
  - cbn [ordered_evs]. split; [|split; auto]. intros z [<-|Hz]; auto. apply (lt_trans e y z); auto.
  - destruct (event_lt y e) eqn:E2; cbn [ordered_evs]; [|split; auto]. split; auto.
    intros z Hz. apply insert_in in Hz. destruct Hz as [->|Hz]; auto.
Qed.
Lemma ordered_filter_evs f l : ordered_evs l -> ordered_evs (filter f l).
Proof.
  induction l as [|y l IH]; cbn [filter ordered_evs]; auto. intros (H1 & H2). destruct (f y); auto.
  cbn [ordered_evs]. split; auto. intros z Hz. apply filter_In in Hz. apply H1, Hz.
Qed.
Lemma ordered_times e l : ordered_evs (e :: l) -> forall x, In x (e :: l) -> etime e <= etime x.
Proof.
  intros (H & _) x [<-|Hx]; [lra|]. apply H in Hx. apply event_lt_spec in Hx. destruct Hx as [|(A & _)]; lra.
Qed.
Lemma same_event_swap x t c d : same_event x (mkEvent t c d) -> same_event x (mkEvent t d c).
Proof. intros (A & B). split; auto. unfold same_pair in *. cbn [efst esnd] in *. tauto. Qed.

Section Lists.
  Variable g : grid.
  Variable what : Z -> object.
  Variable ids : list Z.
  Hypothesis OK : gridok g.
  Hypothesis SPH : forall i, In i ids -> what i = OSphere.

  (** [l'] is [l] with the predicted events of the pairs [Q] *)
  Definition grown (s : sim) (Q : Z -> Z -> Prop) (l l' : list event) : Prop :=
    (ordered_evs l -> ordered_evs l') /\
    (forall x, In x l' -> In x l \/ (Q (esnd x) (efst x) /\ predict what s (esnd x) (efst x) = Ok (etime x) /\ 0 <= etime x <= bar s)) /\
    (forall x, In x l -> In x l') /\
    (forall c d t, Q c d -> predict what s c d = Ok t -> 0 <= t <= bar s -> exists x, In x l' /\ same_event x (mkEvent t d c)).
  Definition fine (s : sim) (Q : Z -> Z -> Prop) : Prop := forall c d, Q c d -> exists t, predict what s c d = Ok t.

  Lemma grown_nil s (Q : Z -> Z -> Prop) l : (forall c d, ~ Q c d) -> grown s Q l l.
  Proof. intros H. split; [auto|]. split; [auto|]. split; [auto|]. intros c d t Hq. destruct (H c d Hq). Qed.
  Lemma grown_app s (Q1 Q2 Q : Z -> Z -> Prop) l l1 l2 : grown s Q1 l l1 -> grown s Q2 l1 l2 ->
    (forall c d, Q c d <-> Q1 c d \/ Q2 c d) -> grown s Q l l2.
  Proof.
    intros (A1 & B1 & C1 & D1) (A2 & B2 & C2 & D2) HQ. split; [auto|]. split; [|split; [auto|]].
    - intros x Hx. destruct (B2 x Hx) as [H|(H & Hr)]; [destruct (B1 x H) as [|(H' & Hr)]; auto|]; right; rewrite HQ; auto.
    - intros c d t Hq. rewrite HQ in Hq. destruct Hq as [Hq|Hq]; intros E Ht; [|eauto].
      destruct (D1 c d t Hq E Ht) as (x & X1 & X2). eauto.
  Qed.

  Lemma create_events_ok s c cs : fine s (fun c' d => c' = c /\ In d cs) -> forall l,
    exists l', create_events what s c cs l = Ok l' /\ grown s (fun c' d => c' = c /\ In d cs) l l'.
  Proof.
    induction cs as [|d cs IH]; intros HF l; cbn [create_events].
    - exists l. split; auto. apply grown_nil. intros c' d (_ & []).
    - destruct (HF c d) as (t & E); [split; [auto|left; auto]|]. rewrite E. cbn [obind].
      set (l1 := if reqb t EVENTNULL then l else add_event_to (bar s) t c d l).
      destruct (IH ltac:(intros c' d' (-> & Hd); apply HF; split; [auto|right; auto]) l1) as (l2 & E2 & G2).
      exists l2. split; [exact E2|].
      apply (grown_app s (fun c' d' => c' = c /\ d' = d) (fun c' d' => c' = c /\ In d' cs) _ l l1 l2); auto.
      2:{ intros c' d'. cbn [In]. split; [intros (-> & [<-|H]); auto|intros [(-> & ->)|(-> & H)]; auto]. }
      unfold l1, add_event_to.
      destruct (reqb_spec t EVENTNULL) as [(-> & Et)|(-> & Et)].
      + split; [auto|]. split; [auto|]. split; [auto|]. intros c' d' t' (-> & ->) E' Ht.
        assert (t' = t) by congruence. unfold EVENTNULL in *. lra.
      + destruct (rltb_spec t 0) as [(-> & L0)|(-> & L0)]; [|destruct (rltb_spec (bar s) t) as [(-> & L1)|(-> & L1)]]; cbn [orb].
        * split; [auto|]. split; [auto|]. split; [auto|]. intros c' d' t' (-> & ->) E' Ht. assert (t' = t) by congruence. lra.
        * split; [auto|]. split; [auto|]. split; [auto|]. intros c' d' t' (-> & ->) E' Ht. assert (t' = t) by congruence. lra.
        * split; [apply insert_ordered|]. split; [|split; [intros; apply insert_keep; auto|]].
          -- intros x Hx. apply insert_in in Hx. destruct Hx as [->|Hx]; [right|left; exact Hx]. cbn [efst esnd etime]. split; [auto|]. split; [auto|lra].
          -- intros c' d' t' (-> & ->) E' Ht. assert (t' = t) by congruence. subst t'. apply insert_has.
  Qed.
  Lemma create_in_boxes_ok s c bs : fine s (fun c' d => c' = c /\ exists b, In b bs /\ In d (content s b)) -> forall l,
    exists l', create_in_boxes what s c bs l = Ok l' /\ grown s (fun c' d => c' = c /\ exists b, In b bs /\ In d (content s b)) l l'.
  Proof.
    induction bs as [|b bs IH]; intros HF l; cbn [create_in_boxes].
    - exists l. split; auto. apply grown_nil. intros c' d (_ & b & [] & _).
    - destruct (create_events_ok s c (content s b)) with (l := l) as (l1 & E1 & G1).
      { intros c' d (-> & Hd). apply HF. split; auto. exists b. split; [left|]; auto. }
      rewrite E1. cbn [obind]. destruct (IH ltac:(intros c' d (-> & b' & Hb & Hd); apply HF; split; [auto|]; exists b'; split; [right|]; auto) l1)
        as (l2 & E2 & G2).
      exists l2. split; [auto|]. apply (grown_app _ _ _ _ _ _ _ G1 G2). intros c' d. cbn [In]. split.
      + intros (-> & b' & [<-|Hb] & Hd); [auto|right; split; eauto].
      + intros [(-> & Hd)|(-> & b' & Hb & Hd)]; (split; [auto|]); [exists b|exists b']; auto.
  Qed.
  Lemma create_all_ok s b cs : fine s (fun c d => In c cs /\ In d (content s b)) -> forall l,
    exists l', create_all what s b cs l = Ok l' /\ grown s (fun c d => In c cs /\ In d (content s b)) l l'.
  Proof.
    induction cs as [|c cs IH]; intros HF l; cbn [create_all].
    - exists l. split; auto. apply grown_nil. intros c' d ([] & _).
    - destruct (create_events_ok s c (content s b)) with (l := l) as (l1 & E1 & G1).
      { intros c' d (-> & Hd). apply HF. split; [left|]; auto. }
      rewrite E1. cbn [obind]. destruct (IH ltac:(intros c' d (Hc & Hd); apply HF; split; [right|]; auto) l1) as (l2 & E2 & G2).
      exists l2. split; [auto|]. apply (grown_app _ _ _ _ _ _ _ G1 G2). intros c' d. cbn [In]. split.
      + intros ([<-|Hc] & Hd); auto.
      + intros [(-> & Hd)|(Hc & Hd)]; auto.
  Qed.
  Lemma rebuild_ok s bs : fine s (fun c d => exists b, In b bs /\ In c (content s b) /\ In d (content s b)) -> forall l,
    exists l', rebuild what s bs l = Ok l' /\ grown s (fun c d => exists b, In b bs /\ In c (content s b) /\ In d (content s b)) l l'.
  Proof.
    induction bs as [|b bs IH]; intros HF l; cbn [rebuild].
    - exists l. split; auto. apply grown_nil. intros c' d (b & [] & _).
    - destruct (create_all_ok s b (content s b)) with (l := l) as (l1 & E1 & G1).
      { intros c' d (Hc & Hd). apply HF. exists b. split; [left|]; auto. }
      rewrite E1. cbn [obind]. destruct (IH ltac:(intros c' d (b' & Hb & Hc); apply HF; exists b'; split; [right|]; auto) l1) as (l2 & E2 & G2).
      exists l2. split; [auto|]. apply (grown_app _ _ _ _ _ _ _ G1 G2). intros c' d. cbn [In]. split.
      + intros (b' & [<-|Hb] & Hd); [auto|right; eauto].
      + intros [Hd|(b' & Hb & Hd)]; eauto.
  Qed.

  Lemma in_range b : In b (zrange 0 (num_boxes g - 1)) <-> exists c, ingrid g c /\ b = idx g c.
  Proof.
    rewrite zrange_In. split.
    - intros H. destruct (idx_surj g b OK ltac:(lia)) as (c & G & E). exists c. auto.
    - intros (c & G & ->). pose proof (idx_range g c G). lia.
  Qed.

  Definition inv (s : sim) (T : R) : Prop :=
    phys g what ids s T /\ complete g what s /\ sound g what s /\ ordered_evs (evs s).

  Lemma phys_with s T b l : phys g what ids s T -> phys g what ids (mkSim (sph s) (content s) (inboxes s) l b) T.
  Proof. intros [A B C D E F G H I J K L]. constructor; auto. Qed.

  Lemma set_barrier_ok s T t : phys g what ids s T ->
    exists s', set_barrier what (num_boxes g) t s = Ok s' /\ inv s' T /\
      sph s' = sph s /\ content s' = content s /\ inboxes s' = inboxes s /\ bar s' = t.
  Proof.
    intros P. unfold set_barrier. set (s0 := mkSim (sph s) (content s) (inboxes s) [] t).
    assert (P0: phys g what ids s0 T) by (apply phys_with; auto).
    assert (Hact: forall c d, (exists b, In b (zrange 0 (num_boxes g - 1)) /\ In c (content s0 b) /\ In d (content s0 b)) <-> active g s0 c d).
    { intros c d. split.
      - intros (b & Hb & H). apply in_range in Hb. destruct Hb as (x & Gx & ->). exists x. auto.
      - intros (x & Gx & H). exists (idx g x). split; auto. apply in_range. eauto. }
    destruct (rebuild_ok s0 (zrange 0 (num_boxes g - 1))) with (l := @nil event) as (l & E & (G1 & G2 & G3 & G4)).
    { intros c d H. apply Hact in H. destruct (predict_ok g what ids SPH s0 T c d (phys_body _ _ _ _ _ P0) H) as (u & Eu & _). eauto. }
    rewrite E. cbn [omap]. eexists. split; [reflexivity|]. split; [|auto].
    split; [apply phys_with; exact P0|]. split; [|split; [|apply G1; exact I]].
    - intros c d u Ha Eu Hu. apply (G4 c d u); auto. apply Hact. exact Ha.
    - intros e He. destruct (G2 e He) as [[]|(H1 & H2 & H3)]. apply Hact in H1. split; [|auto].
      destruct H1 as (x & Gx & X1 & X2). exists x. auto.
  Qed.
End Lists.
