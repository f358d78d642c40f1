(** The clean-up of the triangulation (C79). *)
From Coq Require Import Reals ZArith List Bool Arith Lia Lra Psatz.
From Verif Require Import Outcome AdaptiveModel CollisionModel DelaunayModel DelaunayProofs.
Import ListNotations.
Local Open Scope R_scope.

Lemma edge_contains_spec : forall e p, edge_contains e p = true <-> fst e = p \/ snd e = p.
Proof. intros e p. unfold edge_contains. now rewrite orb_true_iff, !p2_eqb_spec. Qed.
Lemma edge_eqb_spec : forall e f, edge_eqb e f = true <->
  (fst e = fst f /\ snd e = snd f) \/ (fst e = snd f /\ snd e = fst f).
Proof. intros e f. unfold edge_eqb. now rewrite orb_true_iff, !andb_true_iff, !p2_eqb_spec. Qed.
Lemma has_point_spec : forall t p, triangle_has_point t p = true <-> exists e, In e (triangle_edges t) /\ (fst e = p \/ snd e = p).
Proof.
  intros [[e0 e1] e2] p. unfold triangle_has_point, triangle_edges. rewrite !orb_true_iff, !edge_contains_spec. cbn [In]. split.
  - intros [H|[H|H]]; eauto 6.
  - intros (e & [<-|[<-|[<-|[]]]] & H); auto.
Qed.
Lemma has_edge_spec : forall t e, triangle_has_edge t e = true <-> exists f, In f (triangle_edges t) /\ edge_eqb e f = true.
Proof.
  intros [[e0 e1] e2] e. unfold triangle_has_edge, triangle_edges. rewrite !orb_true_iff. cbn [In]. split.
  - intros [H|[H|H]]; eauto 6.
  - intros (f & [<-|[<-|[<-|[]]]] & H); auto.
Qed.
(** a triangle with corners A, B, C *)
Definition proper (t : triangle) : Prop := exists A B C, A <> B /\ C <> A /\ C <> B /\
  (t = ((A, B), (B, C), (C, A)) \/ t = ((A, B), (C, A), (C, B))).
Lemma proper_corners : forall t, proper t -> exists A B C, A <> B /\ C <> A /\ C <> B /\ unique_points t = (A, B, C) /\
  (forall p, triangle_has_point t p = true <-> p = A \/ p = B \/ p = C) /\
  (forall e, In e (triangle_edges t) -> fst e <> snd e) /\
  (forall p q, p <> q -> triangle_has_point t p = true -> triangle_has_point t q = true ->
     exists e, In e (triangle_edges t) /\ ((fst e = p /\ snd e = q) \/ (fst e = q /\ snd e = p))).
Proof.
  intros t (A & B & C & H1 & H2 & H3 & Ht). exists A, B, C. split; [trivial|]. split; [trivial|]. split; [trivial|].
  assert (HP : forall p, triangle_has_point t p = true <-> p = A \/ p = B \/ p = C).
  { intro p. rewrite has_point_spec. split.
    - intros (e & He & Hp). destruct Ht as [->| ->]; destruct He as [<-|[<-|[<-|[]]]]; cbn [fst snd] in Hp; intuition congruence.
    - intro Hp. destruct Ht as [->| ->].
      + destruct Hp as [->|[->| ->]]; [exists (A, B)|exists (A, B)|exists (B, C)]; cbn; auto 6.
      + destruct Hp as [->|[->| ->]]; [exists (A, B)|exists (A, B)|exists (C, A)]; cbn; auto 6. }
  split; [|split; [exact HP|split]].
  - destruct Ht as [->| ->]; unfold unique_points; cbn [fst snd].
    + replace (edge_contains (A, B) B) with true; [reflexivity|]. symmetry. apply edge_contains_spec. now right.
    + destruct (edge_contains (A, B) C) eqn:E; [|reflexivity]. apply edge_contains_spec in E. cbn [fst snd] in E. destruct E; congruence.
  - intros e He. destruct Ht as [->| ->]; destruct He as [<-|[<-|[<-|[]]]]; cbn [fst snd]; congruence.
  - intros p q Hpq Hp Hq. apply HP in Hp. apply HP in Hq.
    destruct Ht as [->| ->]; destruct Hp as [->|[->| ->]], Hq as [->|[->| ->]]; try congruence; cbn [triangle_edges In];
      match goal with |- exists e, _ /\ ((fst e = ?a /\ _) \/ _) => idtac end;
      first [ exists (A, B); cbn [fst snd]; solve [auto 8] | exists (B, C); cbn [fst snd]; solve [auto 8]
            | exists (C, A); cbn [fst snd]; solve [auto 8] | exists (C, B); cbn [fst snd]; solve [auto 8] ].
Qed.
Lemma triangle_eqb_same : forall t u, proper t -> proper u -> triangle_eqb t u = true ->
  forall p, triangle_has_point t p = true <-> triangle_has_point u p = true.
Proof.
  intros t u Ht Hu E p. destruct (proper_corners t Ht) as (A & B & C & N1 & N2 & N3 & _ & HP & _).
  destruct (proper_corners u Hu) as (A' & B' & C' & M1 & M2 & M3 & EU & HQ & _).
  unfold triangle_eqb in E. rewrite EU in E. rewrite !andb_true_iff, !HP in E. rewrite HP, HQ.
  destruct E as (E1 & E2 & E3).
  destruct E1 as [->|[->| ->]], E2 as [->|[->| ->]], E3 as [->|[->| ->]]; try congruence; tauto.
Qed.
Lemma triangle_eqb_refl : forall t, triangle_eqb t t = true.
Proof.
  intros [[e0 e1] e2]. unfold triangle_eqb. destruct (unique_points (e0, e1, e2)) as [[a b] c] eqn:E. unfold unique_points in E.
  injection E as <- <- E. rewrite !andb_true_iff, !has_point_spec. cbn [triangle_edges In].
  split; [exists e0; auto|]. split; [exists e0; auto|]. exists e1. split; [auto|]. destruct (edge_contains e0 (fst e1)); auto.
Qed.
(** same corners: equal *)
Lemma triangle_eqb_intro : forall t u, (forall p, triangle_has_point u p = true -> triangle_has_point t p = true) -> triangle_eqb t u = true.
Proof.
  intros t u H. pose proof (triangle_eqb_refl u) as E. unfold triangle_eqb in *. destruct (unique_points u) as [[a b] c].
  rewrite !andb_true_iff in *. destruct E as (E1 & E2 & E3). auto.
Qed.

(** ** removing *)
Lemma lookup_in : forall l a t, NoDup (map fst l) -> (lookup_node l a = Some t <-> In (a, t) l).
Proof.
  intros l a t ND. unfold lookup_node. induction l as [|[b u] l IH]; cbn [find].
  - split; [discriminate|intros []].
  - cbn [map fst] in ND. apply NoDup_cons_iff in ND. destruct ND as (N1 & N2). cbn [fst snd].
    destruct (Nat.eqb_spec b a) as [->|Hb].
    + cbn [snd]. split; [intro E; injection E as ->; now left|]. intros [E|E]; [now injection E as ->|].
      exfalso. apply N1. apply in_map_iff. now exists (a, t).
    + rewrite IH by trivial. split; [now right|]. intros [E|E]; [congruence|trivial].
Qed.
Lemma lookup_none : forall l a, ~ In a (map fst l) -> lookup_node l a = None.
Proof.
  intros l a H. unfold lookup_node. induction l as [|[b u] l IH]; [reflexivity|]. cbn [find fst]. cbn [map fst In] in H.
  destruct (Nat.eqb_spec b a); [tauto|]. apply IH. tauto.
Qed.
Lemma filter_nodup : forall (l : nodes) f, NoDup (map fst l) -> NoDup (map fst (filter f l)).
Proof.
  intros l f. induction l as [|n l IH]; intro H; [constructor|]. cbn [map] in H. apply NoDup_cons_iff in H. destruct H as (H1 & H2).
  cbn [filter]. destruct (f n); [|now apply IH]. cbn [map]. constructor; [|now apply IH].
  intro H. apply H1. apply in_map_iff in H. destruct H as (m & E & Hm). apply filter_In in Hm. apply in_map_iff. exists m. tauto.
Qed.
Lemma remove_all_dead : forall addrs l a, In a addrs -> ~ In a (map fst l) -> remove_all l addrs = UB.
Proof.
  induction addrs as [|b addrs IH]; intros l a Ha Hl; [destruct Ha|]. cbn [remove_all]. unfold remove_by.
  destruct Ha as [->|Ha]; [now rewrite lookup_none|].
  destruct (lookup_node l b) as [t|]; [|reflexivity]. cbn [obind]. apply (IH _ a Ha).
  intro H. apply Hl. apply in_map_iff in H. destruct H as (m & E & Hm). apply filter_In in Hm. apply in_map_iff. exists m. tauto.
Qed.
Lemma remove_all_spec : forall addrs l l', NoDup (map fst l) -> remove_all l addrs = Ok l' ->
  NoDup (map fst l') /\
  forall n, In n l' <-> In n l /\ forall m, In m l -> In (fst m) addrs -> triangle_eqb (snd n) (snd m) = false.
Proof.
  induction addrs as [|a addrs IH]; intros l l' ND E; cbn [remove_all] in E.
  - injection E as <-. split; trivial. intro n. split; [|tauto]. intro H. split; trivial. intros m _ [].
  - unfold remove_by in E. destruct (lookup_node l a) as [t|] eqn:El; cbn [obind] in E; [|discriminate].
    apply lookup_in in El; trivial.
    destruct (IH _ _ (filter_nodup _ _ ND) E) as (N' & HI). split; trivial. intro n. rewrite HI, filter_In. split.
    + intros ((Hn & Hf) & HA). split; trivial. intros m Hm [Ea|Ha].
      * assert (snd m = t) as ->; [|now apply negb_true_iff in Hf].
        destruct m as [b u]. cbn [fst snd] in *. subst b. apply (lookup_in l a u ND) in Hm. apply (lookup_in l a t ND) in El. congruence.
      * destruct (triangle_eqb (snd m) t) eqn:Em.
        -- (* m was removed too *)
           exfalso. rewrite (remove_all_dead addrs _ (fst m) Ha) in E; [discriminate|].
           intro H. apply in_map_iff in H. destruct H as ([b u] & Eb & Hb). apply filter_In in Hb. destruct Hb as (Hb & Hb').
           cbn [fst snd] in *. subst b. destruct m as [b v]. cbn [fst snd] in *.
           apply (lookup_in l b u ND) in Hb. apply (lookup_in l b v ND) in Hm. assert (u = v) by congruence. subst v.
           rewrite Em in Hb'. discriminate.
        -- apply HA; trivial. apply filter_In. split; trivial. now rewrite Em.
    + intros (Hn & HA). split; [split; trivial|].
      * apply negb_true_iff. apply (HA (a, t)); trivial. now left.
      * intros m Hm Ha. apply filter_In in Hm. apply HA; [tauto|now right].
Qed.

(** an address listed twice *)
Lemma remove_all_twice : forall pre a mid post l, NoDup (map fst l) -> In a (map fst l) ->
  remove_all l (pre ++ a :: mid ++ a :: post) = UB.
Proof.
  induction pre as [|b pre IH]; intros a mid post l ND Ha; cbn [List.app remove_all].
  - unfold remove_by. destruct (lookup_node l a) as [t|] eqn:E; [|reflexivity]. cbn [obind].
    apply (remove_all_dead _ _ a); [apply in_app_iff; right; now left|].
    apply lookup_in in E; trivial. intro H. apply in_map_iff in H. destruct H as ([b u] & Eb & Hb). cbn [fst] in Eb. subst b.
    apply filter_In in Hb. destruct Hb as (Hb & Hb'). apply (lookup_in l a u ND) in Hb. apply (lookup_in l a t ND) in E.
    assert (u = t) by congruence. subst u. cbn [snd] in Hb'. rewrite triangle_eqb_refl in Hb'. discriminate.
  - unfold remove_by. destruct (lookup_node l b) as [t|] eqn:E; [|reflexivity]. cbn [obind].
    destruct (in_dec Nat.eq_dec a (map fst (filter (fun n => negb (triangle_eqb (snd n) t)) l))) as [H|H].
    + apply IH; trivial. now apply filter_nodup.
    + apply (remove_all_dead _ _ a); trivial. apply in_app_iff. right. now left.
Qed.

(** ** the invariant *)
Lemma NoDup_snoc : forall (l : list nat) a, NoDup l -> ~ In a l -> NoDup (l ++ [a]).
Proof.
  induction l as [|x l IH]; intros a ND Ha; cbn [List.app]; [constructor; [intros []|constructor]|].
  apply NoDup_cons_iff in ND. destruct ND as (N1 & N2). constructor.
  - intro H. apply in_app_iff in H. destruct H as [H|[->|[]]]; [contradiction|]. apply Ha. now left.
  - apply IH; trivial. intro H. apply Ha. now right.
Qed.
Section Inv.
Variables (s0 s1 : p2).
Hypothesis H01 : s0 <> s1.
Definition holds (t : triangle) : Prop := triangle_has_point t s0 = true /\ triangle_has_point t s1 = true.
Definition inv (st : nodes * nat) : Prop :=
  NoDup (map fst (fst st)) /\ (forall n, In n (fst st) -> (fst n < snd st)%nat) /\
  (forall n, In n (fst st) -> proper (snd n)) /\
  (exists n, In n (fst st) /\ holds (snd n)) /\
  (forall n m, In n (fst st) -> In m (fst st) -> holds (snd n) -> holds (snd m) ->
     forall p, triangle_has_point (snd n) p = true <-> triangle_has_point (snd m) p = true).

Lemma push_spec : forall es next p l l' next', push_triangles next p es l = (l', next') ->
  NoDup (map fst l) -> (forall n, In n l -> (fst n < next)%nat) ->
  NoDup (map fst l') /\ (forall n, In n l' -> (fst n < next')%nat) /\
  forall n, In n l -> In n l'.
Proof.
  induction es as [|e es IH]; intros next p l l' next' E ND HB; cbn [push_triangles] in E.
  - injection E as <- <-. auto.
  - destruct (IH _ _ _ _ _ E) as (A & B & C).
    + rewrite map_app. cbn [map fst]. apply NoDup_snoc; trivial.
      intro H. apply in_map_iff in H. destruct H as (m & Em & Hm). specialize (HB m Hm). lia.
    + intros n Hn. apply in_app_iff in Hn. destruct Hn as [Hn|[<-|[]]]; [specialize (HB n Hn); lia|cbn [fst]; lia].
    + split; trivial. split; trivial. intros n Hn. apply C. apply in_app_iff. now left.
Qed.
Lemma push_new : forall es next p l l' next', push_triangles next p es l = (l', next') ->
  (forall n, In n l' -> In n l \/ exists e, In e es /\ snd n = (e, (p, fst e), (p, snd e))) /\
  (forall e, In e es -> exists n, In n l' /\ snd n = (e, (p, fst e), (p, snd e))).
Proof.
  induction es as [|e es IH]; intros next p l l' next' E; cbn [push_triangles] in E.
  - injection E as <- <-. split; [auto|intros e []].
  - destruct (IH _ _ _ _ _ E) as (A & B). split.
    + intros n Hn. destruct (A n Hn) as [H|(f & Hf & Ef)].
      * apply in_app_iff in H. destruct H as [H|[<-|[]]]; [now left|]. right. exists e. split; [now left|reflexivity].
      * right. exists f. split; [now right|trivial].
    + intros f [<-|Hf]; [|now apply B].
      assert (Keep : forall es next l l' next', push_triangles next p es l = (l', next') -> forall n, In n l -> In n l').
      { clear. induction es as [|g es IH]; intros next l l' next' E n Hn; cbn [push_triangles] in E; [now injection E as <- <-|].
        apply (IH _ _ _ _ E). apply in_app_iff. now left. }
      exists (next, (e, (p, fst e), (p, snd e))). split; [|reflexivity].
      apply (Keep _ _ _ _ _ E). apply in_app_iff. right. now left.
Qed.
Lemma hole_spec : forall bad e, In e (hole bad) <-> exists t, In t bad /\ In e (triangle_edges t) /\
  forall o, In o bad -> triangle_eqb o t = true \/ triangle_has_edge o e = false.
Proof.
  intros bad e. unfold hole. rewrite in_flat_map. split; intros (t & Ht & H); exists t; split; trivial.
  - apply filter_In in H. destruct H as (He & H). split; trivial. intros o Ho. apply negb_true_iff in H.
    destruct (triangle_eqb o t) eqn:E1; [now left|]. destruct (triangle_has_edge o e) eqn:E2; [|now right].
    exfalso. apply not_true_iff_false in H. apply H. apply existsb_exists. exists o. now rewrite E1, E2.
  - destruct H as (He & H). apply filter_In. split; trivial. apply negb_true_iff. apply not_true_iff_false. intro Hx.
    apply existsb_exists in Hx. destruct Hx as (o & Ho & Hx). apply andb_true_iff in Hx. destruct Hx as (X1 & X2).
    apply negb_true_iff in X1. destruct (H o Ho); congruence.
Qed.
Lemma not_corner : forall t p, proper t -> circle_contains t p = true -> triangle_has_point t p = false.
Proof.
  intros t p Hp HC. destruct (proper_corners t Hp) as (A & B & C & N1 & N2 & N3 & EU & HP & _).
  unfold circle_contains in HC. rewrite EU in HC. apply not_true_iff_false. intro H. apply HP in H.
  destruct (rltb _ 0); destruct H as [->|[->| ->]]; rewrite p2_eqb_refl in HC; rewrite ?orb_true_r in HC; cbn [orb] in HC; discriminate.
Qed.
Lemma new_proper : forall t e p, proper t -> In e (triangle_edges t) -> triangle_has_point t p = false ->
  proper (e, (p, fst e), (p, snd e)).
Proof.
  intros t e p Hp He Hn. destruct (proper_corners t Hp) as (A & B & C & _ & _ & _ & _ & HP & HE & _).
  exists (fst e), (snd e), p. split; [now apply HE|].
  assert (X : triangle_has_point t (fst e) = true) by (apply has_point_spec; eauto).
  assert (Y : triangle_has_point t (snd e) = true) by (apply has_point_spec; eauto).
  split; [congruence|]. split; [congruence|]. right. now destruct e.
Qed.
Lemma new_points : forall e p q, triangle_has_point (e, (p, fst e), (p, snd e)) q = true <-> q = fst e \/ q = snd e \/ q = p.
Proof.
  intros e p q. rewrite has_point_spec. cbn [triangle_edges In]. split.
  - intros (f & [<-|[<-|[<-|[]]]] & H); cbn [fst snd] in H; intuition congruence.
  - intros [->|[->| ->]].
    + exists e. auto.
    + exists e. auto.
    + exists (p, fst e). cbn [fst]. auto.
Qed.
Lemma edge_corners : forall t e, In e (triangle_edges t) -> triangle_has_point t (fst e) = true /\ triangle_has_point t (snd e) = true.
Proof. intros t e He. split; apply has_point_spec; eauto. Qed.
Lemma add_point_inv : forall st p st', p <> s0 -> p <> s1 -> inv st -> add_point st p = Ok st' -> inv st'.
Proof.
  intros [l next] p [l'' next'] P0 P1 (ND & HB & HPr & (n0 & Hn0 & Hh0) & HU) E. cbn [fst snd] in *. unfold add_point in E.
  set (bad := filter (fun n => circle_contains (snd n) p) l) in *.
  destruct (remove_all l (map fst bad)) as [l'| |] eqn:ER; cbn [obind] in E; try discriminate.
  apply (f_equal (fun o => match o with Ok x => x | _ => (l'', next') end)) in E. cbn beta iota in E.
  destruct (remove_all_spec _ _ _ ND ER) as (ND' & HI).
  assert (BadIn : forall m, In m l -> (In (fst m) (map fst bad) <-> circle_contains (snd m) p = true)).
  { intros m Hm. rewrite in_map_iff. split.
    - intros (b & Eb & Hb). apply filter_In in Hb. destruct Hb as (Hb & Hc). replace m with b; trivial.
      destruct b as [x u], m as [y v]. cbn [fst snd] in *. subst y. f_equal.
      apply (lookup_in l x u ND) in Hb. apply (lookup_in l x v ND) in Hm. congruence.
    - intro Hc. exists m. split; trivial. apply filter_In. auto. }
  assert (HB' : forall n, In n l' -> (fst n < next)%nat) by (intros n Hn; apply HB; now apply HI).
  destruct (push_spec _ _ _ _ _ _ E ND' HB') as (ND'' & HB'' & Keep). destruct (push_new _ _ _ _ _ _ E) as (New & Made).
  assert (HoleT : forall e, In e (hole (map snd bad)) -> exists m, In m l /\ circle_contains (snd m) p = true /\ In e (triangle_edges (snd m))).
  { intros e He. apply hole_spec in He. destruct He as (t & Ht & He & _). apply in_map_iff in Ht. destruct Ht as (m & <- & Hm).
    apply filter_In in Hm. exists m. tauto. }
  assert (HPr'' : forall n, In n l'' -> proper (snd n)).
  { intros n Hn. destruct (New n Hn) as [H|(e & He & ->)]; [apply HPr; now apply HI|].
    destruct (HoleT e He) as (m & Hm & Hc & Hem). eapply new_proper; [apply (HPr m Hm)|exact Hem|]. apply not_corner; auto. }
  (* new triangles on s0 s1 come from a bad triangle on s0 s1, and consist of s0, s1, p *)
  assert (NewH : forall e, In e (hole (map snd bad)) -> holds (e, (p, fst e), (p, snd e)) ->
    (exists m, In m l /\ circle_contains (snd m) p = true /\ holds (snd m)) /\
    forall q, triangle_has_point (e, (p, fst e), (p, snd e)) q = true <-> q = s0 \/ q = s1 \/ q = p).
  { intros e He (A & B). rewrite new_points in A, B. destruct (HoleT e He) as (m & Hm & Hc & Hem).
    destruct (edge_corners _ _ Hem) as (C1 & C2).
    assert (Cases : (fst e = s0 /\ snd e = s1) \/ (fst e = s1 /\ snd e = s0)).
    { destruct A as [A|[A|A]], B as [B|[B|B]]; try congruence; [left|right]; split; congruence. }
    split.
    - exists m. split; trivial. split; trivial. destruct Cases as [(X & Y)|(X & Y)]; split; congruence.
    - intro q. rewrite new_points. destruct Cases as [(-> & ->)|(-> & ->)]; tauto. }
  destruct (circle_contains (snd n0) p) eqn:Hc0.
  - (* the triangles on s0 s1 are replaced *)
    assert (Gone : forall n, In n l' -> ~ holds (snd n)).
    { intros n Hn Hh. apply HI in Hn. destruct Hn as (Hn & HA).
      assert (X : triangle_eqb (snd n) (snd n0) = false) by (apply HA; trivial; now apply BadIn).
      rewrite triangle_eqb_intro in X; [discriminate|]. intros q Hq. now apply (HU n n0). }
    destruct (proper_corners (snd n0) (HPr n0 Hn0)) as (A & B & C & _ & _ & _ & _ & _ & _ & HE).
    destruct (HE s0 s1 H01 (proj1 Hh0) (proj2 Hh0)) as (e & He & Ee).
    assert (HeH : In e (hole (map snd bad))).
    { apply hole_spec. exists (snd n0). split; [apply in_map; apply filter_In; auto|]. split; trivial.
      intros o Ho. apply in_map_iff in Ho. destruct Ho as (m & <- & Hm). apply filter_In in Hm. destruct Hm as (Hm & _).
      destruct (triangle_has_edge (snd m) e) eqn:Em; [|now right]. left.
      apply triangle_eqb_intro. apply has_edge_spec in Em. destruct Em as (f & Hf & Ef). apply edge_eqb_spec in Ef.
      destruct (edge_corners _ _ Hf) as (F1 & F2).
      assert (holds (snd m)) as Hhm.
      { destruct Ef as [(X & Y)|(X & Y)], Ee as [(Z1 & Z2)|(Z1 & Z2)]; split; congruence. }
      intros q Hq. now apply (HU m n0). }
    destruct (Made e HeH) as (n1 & Hn1 & En1).
    assert (Hh1 : holds (snd n1)).
    { rewrite En1. split; apply new_points; destruct Ee as [(-> & ->)|(-> & ->)]; auto. }
    split; [exact ND''|]. split; [exact HB''|]. split; [exact HPr''|]. split; [now exists n1|].
    assert (Pts : forall n, In n l'' -> holds (snd n) -> forall q, triangle_has_point (snd n) q = true <-> q = s0 \/ q = s1 \/ q = p).
    { intros n Hn Hh. destruct (New n Hn) as [H|(f & Hf & Ef)]; [now apply Gone in H|]. rewrite Ef in *. now apply NewH. }
    cbn [fst]. intros n m Hn Hm Hhn Hhm q. rewrite (Pts n Hn Hhn q), (Pts m Hm Hhm q). tauto.
  - (* they stay *)
    assert (NoBad : forall m, In m l -> holds (snd m) -> circle_contains (snd m) p = false \/ True) by auto.
    destruct (existsb (fun m => andb (circle_contains (snd m) p) (andb (triangle_has_point (snd m) s0) (triangle_has_point (snd m) s1))) l) eqn:Ex.
    + (* another node with the same corners is bad: as above with that node *)
      apply existsb_exists in Ex. destruct Ex as (n2 & Hn2 & X). rewrite !andb_true_iff in X. destruct X as (Hc2 & Hh2).
      assert (Gone : forall n, In n l' -> ~ holds (snd n)).
      { intros n Hn Hh. apply HI in Hn. destruct Hn as (Hn & HA).
        assert (X : triangle_eqb (snd n) (snd n2) = false) by (apply HA; trivial; now apply BadIn).
        rewrite triangle_eqb_intro in X; [discriminate|]. intros q Hq. now apply (HU n n2). }
      destruct (proper_corners (snd n2) (HPr n2 Hn2)) as (A & B & C & _ & _ & _ & _ & _ & _ & HE).
      destruct (HE s0 s1 H01 (proj1 Hh2) (proj2 Hh2)) as (e & He & Ee).
      assert (HeH : In e (hole (map snd bad))).
      { apply hole_spec. exists (snd n2). split; [apply in_map; apply filter_In; auto|]. split; trivial.
        intros o Ho. apply in_map_iff in Ho. destruct Ho as (m & <- & Hm). apply filter_In in Hm. destruct Hm as (Hm & _).
        destruct (triangle_has_edge (snd m) e) eqn:Em; [|now right]. left.
        apply triangle_eqb_intro. apply has_edge_spec in Em. destruct Em as (f & Hf & Ef). apply edge_eqb_spec in Ef.
        destruct (edge_corners _ _ Hf) as (F1 & F2).
        assert (holds (snd m)) as Hhm.
        { destruct Ef as [(X & Y)|(X & Y)], Ee as [(Z1 & Z2)|(Z1 & Z2)]; split; congruence. }
        intros q Hq. now apply (HU m n2). }
      destruct (Made e HeH) as (n1 & Hn1 & En1).
      assert (Hh1 : holds (snd n1)).
      { rewrite En1. split; apply new_points; destruct Ee as [(-> & ->)|(-> & ->)]; auto. }
      split; [exact ND''|]. split; [exact HB''|]. split; [exact HPr''|]. split; [now exists n1|].
      assert (Pts : forall n, In n l'' -> holds (snd n) -> forall q, triangle_has_point (snd n) q = true <-> q = s0 \/ q = s1 \/ q = p).
      { intros n Hn Hh. destruct (New n Hn) as [H|(f & Hf & Ef)]; [now apply Gone in H|]. rewrite Ef in *. now apply NewH. }
      cbn [fst]. intros n m Hn Hm Hhn Hhm q. rewrite (Pts n Hn Hhn q), (Pts m Hm Hhm q). tauto.
    + assert (Good : forall m, In m l -> circle_contains (snd m) p = true -> ~ holds (snd m)).
      { intros m Hm Hc (X & Y). apply not_true_iff_false in Ex. apply Ex. apply existsb_exists. exists m. split; trivial.
        now rewrite Hc, X, Y. }
      assert (Stay : forall n, In n l -> holds (snd n) -> In n l').
      { intros n Hn Hh. apply HI. split; trivial. intros m Hm Hb. apply BadIn in Hb; trivial.
        apply not_true_iff_false. intro Eq. apply (Good m Hm Hb). destruct Hh as (X & Y).
        pose proof (triangle_eqb_same _ _ (HPr n Hn) (HPr m Hm) Eq) as SP. split; now apply SP. }
      assert (OldH : forall n, In n l'' -> holds (snd n) -> In n l).
      { intros n Hn Hh. destruct (New n Hn) as [H|(f & Hf & Ef)]; [now apply HI|]. exfalso. rewrite Ef in Hh.
        destruct (NewH f Hf Hh) as ((m & Hm & Hc & Hhm) & _). now apply (Good m Hm Hc). }
      split; [exact ND''|]. split; [exact HB''|]. split; [exact HPr''|]. split.
      * exists n0. split; trivial. cbn [fst]. apply Keep. now apply Stay.
      * cbn [fst]. intros n m Hn Hm Hhn Hhm. apply HU; auto.
Qed.
Lemma add_points_inv : forall ps st st', (forall p, In p ps -> p <> s0 /\ p <> s1) -> inv st -> add_points st ps = Ok st' -> inv st'.
Proof.
  induction ps as [|p ps IH]; intros st st' HP HI E; cbn [add_points] in E; [now injection E as <-|].
  destruct (add_point st p) as [st1| |] eqn:E1; cbn [obind] in E; try discriminate.
  destruct (HP p ltac:(now left)). eapply IH; [|eapply add_point_inv; eassumption|exact E]. intros q Hq. apply HP. now right.
Qed.
Lemma cleanup_ub : forall l next s2 s3, inv (l, next) -> remove_all l (to_erase l [s0; s1; s2; s3]) = UB.
Proof.
  intros l next s2 s3 (ND & _ & _ & (n & Hn & (X & Y)) & _). cbn [fst] in *.
  destruct (in_split _ _ Hn) as (l1 & l2 & El).
  assert (E : to_erase l [s0; s1; s2; s3] = to_erase l1 [s0; s1; s2; s3] ++ fst n :: [] ++ fst n ::
     map (fun _ => fst n) (filter (triangle_has_point (snd n)) [s2; s3]) ++ to_erase l2 [s0; s1; s2; s3]).
  { rewrite El. unfold to_erase. rewrite flat_map_app. cbn [flat_map]. f_equal. 
    change (filter (triangle_has_point (snd n)) [s0; s1; s2; s3]) with
      (if triangle_has_point (snd n) s0 then s0 :: (if triangle_has_point (snd n) s1 then s1 :: filter (triangle_has_point (snd n)) [s2; s3]
         else filter (triangle_has_point (snd n)) [s2; s3]) else
       (if triangle_has_point (snd n) s1 then s1 :: filter (triangle_has_point (snd n)) [s2; s3] else filter (triangle_has_point (snd n)) [s2; s3])).
    rewrite X, Y. reflexivity. }
  rewrite E. apply remove_all_twice; trivial. now apply in_map.
Qed.
End Inv.

(** the super quad *)
Lemma fold_min : forall pts (f : p2 -> R) m0 (g : p2 -> p2 -> p2), (forall m p, f (g m p) = Rmin (f m) (f p)) ->
  let m := fold_left g pts m0 in f m <= f m0 /\ forall p, In p pts -> f m <= f p.
Proof.
  intros pts f. induction pts as [|q pts IH]; intros m0 g Hg; cbn [fold_left]; cbv zeta; [split; [lra|intros p []]|].
  destruct (IH (g m0 q) g Hg) as (A & B). cbv zeta in *. rewrite Hg in A. pose proof (Rmin_l (f m0) (f q)). pose proof (Rmin_r (f m0) (f q)).
  split; [lra|]. intros p [<-|Hp]; [lra|auto].
Qed.
Lemma fold_max : forall pts (f : p2 -> R) m0 (g : p2 -> p2 -> p2), (forall m p, f (g m p) = Rmax (f m) (f p)) ->
  let m := fold_left g pts m0 in f m0 <= f m /\ forall p, In p pts -> f p <= f m.
Proof.
  intros pts f. induction pts as [|q pts IH]; intros m0 g Hg; cbn [fold_left]; cbv zeta; [split; [lra|intros p []]|].
  destruct (IH (g m0 q) g Hg) as (A & B). cbv zeta in *. rewrite Hg in A. pose proof (Rmax_l (f m0) (f q)). pose proof (Rmax_r (f m0) (f q)).
  split; [lra|]. intros p [<-|Hp]; [lra|auto].
Qed.
Lemma triangulate_ub : forall pts, (exists p q, In p pts /\ In q pts /\ px p < px q) ->
  (exists p q, In p pts /\ In q pts /\ py p < py q) -> triangulate pts = UB.
Proof.
  intros pts (p & q & Hp & Hq & Hx) (p' & q' & Hp' & Hq' & Hy). destruct pts as [|p0 pts']; [destruct Hp|].
  unfold triangulate. set (pts := p0 :: pts') in *. unfold super_points.
  set (gn := fun m p : p2 => (Rmin (px m) (px p), Rmin (py m) (py p))). set (gx := fun m p : p2 => (Rmax (px m) (px p), Rmax (py m) (py p))).
  set (mn := fold_left gn pts p0). set (mx := fold_left gx pts p0).
  destruct (fold_min pts px p0 gn) as (_ & Nx); [reflexivity|]. destruct (fold_min pts py p0 gn) as (_ & Ny); [reflexivity|].
  destruct (fold_max pts px p0 gx) as (_ & Xx); [reflexivity|]. destruct (fold_max pts py p0 gx) as (_ & Xy); [reflexivity|].
  fold mn in Nx, Ny. fold mx in Xx, Xy.
  pose proof (Nx p Hp). pose proof (Xx q Hq). pose proof (Ny p' Hp'). pose proof (Xy q' Hq').
  assert (Wx : px mn < px mx) by lra. assert (Wy : py mn < py mx) by lra.
  set (s0 := (px mn - 3 * (px mx - px mn), py mn - 3 * (py mx - py mn))).
  set (X := px mx + 3 * (px mx - px s0)). set (Y := py mx + 3 * (py mx - py s0)).
  assert (S0x : px s0 < px mn) by (unfold s0, px at 1; cbn [fst]; lra). assert (S0y : py s0 < py mn) by (unfold s0, py at 1; cbn [snd]; lra).
  assert (HX : px mx < X) by (unfold X; lra). assert (HY : py mx < Y) by (unfold Y; lra).
  change (px (X, Y)) with X. change (py (X, Y)) with Y.
  set (s1 := (X, py s0)). set (s2 := (X, Y)). set (s3 := (px s0, Y)).
  assert (D01 : s0 <> s1) by (intro E; apply (f_equal px) in E; change (px s1) with X in E; lra).
  assert (D02 : s2 <> s0) by (intro E; apply (f_equal px) in E; change (px s2) with X in E; lra).
  assert (D12 : s2 <> s1) by (intro E; apply (f_equal py) in E; change (py s2) with Y in E; change (py s1) with (py s0) in E; lra).
  assert (D03 : s3 <> s0) by (intro E; apply (f_equal py) in E; change (py s3) with Y in E; lra).
  assert (D23 : s3 <> s2) by (intro E; apply (f_equal px) in E; change (px s3) with (px s0) in E; change (px s2) with X in E; lra).
  assert (D13 : s1 <> s3) by (intro E; apply (f_equal px) in E; change (px s3) with (px s0) in E; change (px s1) with X in E; lra).
  destruct (add_points _ pts) as [[l next]| |] eqn:E; cbn [obind fst]; trivial.
  - apply (cleanup_ub s0 s1 l next s2 s3).
    apply (add_points_inv s0 s1 D01 pts _ _) in E; trivial.
    + intros r Hr. split; intros ->.
      * specialize (Nx s0 Hr). lra.
      * specialize (Ny s1 Hr). change (py s1) with (py s0) in Ny. lra.
    + assert (Pr0 : proper ((s0, s1), (s1, s2), (s2, s0))) by (exists s0, s1, s2; auto).
      assert (Pr1 : proper ((s0, s2), (s2, s3), (s3, s0))) by (exists s0, s2, s3; auto).
      assert (HH0 : holds s0 s1 ((s0, s1), (s1, s2), (s2, s0))).
      { split; apply has_point_spec; exists (s0, s1); cbn; auto. }
      assert (HH1 : ~ holds s0 s1 ((s0, s2), (s2, s3), (s3, s0))).
      { intros (_ & Z). apply has_point_spec in Z. destruct Z as (e & [<-|[<-|[<-|[]]]] & Z); cbn [fst snd] in Z; intuition congruence. }
      split; [|split; [|split; [|split]]]; cbn [fst snd].
      * cbn [map fst]. constructor; [intros [|[]]; discriminate|]. constructor; [intros []|constructor].
      * intros n [<-|[<-|[]]]; cbn [fst]; lia.
      * intros n [<-|[<-|[]]]; trivial.
      * eexists. split; [left; reflexivity|exact HH0].
      * intros n m [<-|[<-|[]]] [<-|[<-|[]]] A B; cbn [snd] in *; try contradiction; tauto.
  - exfalso. clear - E. revert E.
    assert (G : forall ps st, add_points st ps <> Throw).
    { induction ps as [|r ps IH]; intros [l next]; cbn [add_points]; [discriminate|].
      unfold add_point.
      assert (R : forall a l, remove_all l a <> Throw).
      { induction a as [|x a IHa]; intro l0; cbn [remove_all]; [discriminate|]. unfold remove_by.
        destruct (lookup_node l0 x); cbn [obind]; [apply IHa|discriminate]. }
      match goal with |- obind (obind (remove_all ?u ?v) _) _ <> _ => specialize (R v u); destruct (remove_all u v) end; cbn [obind];
        [apply IH|congruence|discriminate]. }
    apply G.
Qed.
