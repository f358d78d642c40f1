(** The four kinds of events. *)
From Coq Require Import Reals ZArith List Bool Lia Lra Psatz.
From Verif Require Import Outcome AdaptiveModel AdaptiveProofs Vec3 CollisionModel CollisionSpec CollisionProofs CollisionProofs2
  PropCollision EventModel EventSpec EventProofs SubBoxModel SubBoxSpec SubBoxProofs SimModel SimSpec SimProofs SimProofs2 SimProofs3 SimProofs4.
Import ListNotations.
Local Open Scope R_scope.

Lemma set_sphere_same f i u : set_sphere f i u i = u.
Proof. unfold set_sphere. rewrite Z.eqb_refl. reflexivity. Qed.
Lemma set_sphere_other f i u k : k <> i -> set_sphere f i u k = f k.
Proof. intros H. unfold set_sphere. destruct (Z.eqb_spec k i); [contradiction|reflexivity]. Qed.
Lemma set_list_same f i u : set_list f i u i = u.
Proof. unfold set_list. rewrite Z.eqb_refl. reflexivity. Qed.
Lemma set_list_other f i u k : k <> i -> set_list f i u k = f k.
Proof. intros H. unfold set_list. destruct (Z.eqb_spec k i); [contradiction|reflexivity]. Qed.
Lemma without_In i l k : In k (without i l) <-> In k l /\ k <> i.
Proof. unfold without. rewrite filter_In, negb_true_iff, Z.eqb_neq. tauto. Qed.

Section Events.
  Variable g : grid.
  Variable what : Z -> object.
  Variable ids : list Z.
  Hypothesis OK : gridok g.
  Hypothesis SPH : forall i, In i ids -> what i = OSphere.

  Variables (s : sim) (T T' : R).
  Hypothesis P : phys g what ids s T.
  Hypothesis C : complete g what s.
  Hypothesis Hev : forall e, In e (evs s) -> T' <= etime e.
  Hypothesis HTT : T <= T'.
  Hypothesis Hbar : T' <= bar s.

  Lemma reg_at i c : In i ids -> ingrid g c -> prod g (sph s i) T' c -> In i (content s (idx g c)).
  Proof.
    intros Hi G H. pose proof (p_clock _ _ _ _ _ P i Hi).
    apply (stays_registered g what ids OK SPH s T T' i P C Hev Hbar Hi T' c); auto. lra.
  Qed.
  Lemma grow_moved i : In i ids -> moved_to (sph s i) (move_and_grow (sph s i) T') T'.
  Proof. intros Hi. apply move_and_grow_moved. apply (p_cons _ _ _ _ _ P i Hi). Qed.

  (** only the motion changes *)
  Lemma upd_motion Ch f : incl Ch ids -> (forall k, ~ In k Ch -> f k = sph s k) ->
    (forall k, In k Ch -> moved_to (sph s k) (f k) T') ->
    upd g Ch s (mkSim f (content s) (inboxes s) (evs s) (bar s)) T'.
  Proof.
    intros HC Ho Hm. constructor; cbn [sph content inboxes bar evs]; auto.
    - tauto.
    - intros k c Hk G. apply (p_coh _ _ _ _ _ P k c); auto.
    - intros k b Hk Hb. apply (p_box _ _ _ _ _ P k b); auto.
    - intros k c Hk G H. apply reg_at; auto.
  Qed.

  Lemma upd_enter i c a up : In i ids -> ingrid g c -> (a < 3)%nat -> In i (content s (idx g c)) ->
    ingrid g (next c a up) -> 
    upd g [i] s (add_sphere_to (mkSim (set_sphere (sph s) i (move_and_grow (sph s i) T')) (content s) (inboxes s) (evs s) (bar s))
                   (idx g (next c a up)) i) T'.
  Proof.
    intros Hi G Ha Hr Gn. unfold add_sphere_to. cbn [sph content inboxes bar evs].
    set (b := idx g (next c a up)) in *.
    constructor; cbn [sph content inboxes bar evs]; auto.
    - intros k Hk. assert (k <> i) by (intros ->; apply Hk; left; auto). rewrite set_sphere_other, set_list_other by auto. auto.
    - intros k [<-|[]]. rewrite set_sphere_same. apply grow_moved; auto.
    - intros b' d Hd. assert (d <> i) by (intros ->; apply Hd; left; auto).
      destruct (Z.eq_dec b' b) as [->|N]; [rewrite set_list_same|rewrite set_list_other by auto; tauto].
      rewrite in_app_iff. cbn [In]. split; [intros [|[F|[]]]; [auto|congruence]|auto].
    - intros k x [<-|[]] Gx. rewrite set_list_same, in_app_iff. cbn [In]. rewrite (p_coh _ _ _ _ _ P i x Hi Gx).
      destruct (Z.eq_dec (idx g x) b) as [E|N].
      + rewrite E, set_list_same, in_app_iff. cbn [In]. tauto.
      + rewrite set_list_other by auto. split; [intros [|[F|[]]]; [auto|congruence]|auto].
    - intros k b' [<-|[]]. rewrite set_list_same, in_app_iff. cbn [In]. intros [H|[<-|[]]].
      + apply (p_box _ _ _ _ _ P i b' Hi H).
      + exists (next c a up). auto.
    - intros k x [<-|[]] Gx H. pose proof (reg_at i x Hi Gx H) as R0.
      destruct (Z.eq_dec (idx g x) b) as [E|N]; [rewrite E, set_list_same, in_app_iff; cbn [In]; auto|rewrite set_list_other by auto; auto].
  Qed.

  Lemma some_cell i : In i ids -> exists X, ingrid g X /\ prod g (sph s i) T' X.
  Proof.
    intros Hi. pose proof (p_clock _ _ _ _ _ P i Hi) as Ck.
    assert (I: in_container g (sph s i) T') by (apply (stays_inside g what ids OK SPH s T T' i P C Hev Hbar Hi T'); lra).
    assert (R0: 0 < radius_at (sph s i) T') by (apply (pos_radius g what ids s T i T' P Hi); lra).
    assert (F: forall a, exists k, (a < 3)%nat -> (0 <= k < gn g a)%Z /\ plane g a k < hi (sph s i) T' a /\ lo (sph s i) T' a < plane g a (k + 1)).
    { intros a. destruct (le_lt_dec 3 a) as [L|L]; [exists 0%Z; lia|]. destruct (I a L) as (I1 & I2).
      pose proof (hi_lo (sph s i) T' a). destruct (bottom_cell g a (lo (sph s i) T' a) OK I1 ltac:(lra)) as (k & K1 & K2).
      exists k. intros _. split; [auto|]. lra. }
    destruct (F 0%nat) as (k0 & K0). destruct (F 1%nat) as (k1 & K1). destruct (F 2%nat) as (k2 & K2).
    exists (k0, k1, k2). split; intros a Ha; destruct a as [|[|[|a]]]; try lia; cbn [co]; [apply K0|apply K1|apply K2|apply K0|apply K1|apply K2]; lia.
  Qed.

  Lemma upd_leave i c a up : In i ids -> ingrid g c -> (a < 3)%nat -> In i (content s (idx g c)) ->
    rest g c a up (sph s i) T' = 0 ->
    exists s', remove_sphere_from (mkSim (set_sphere (sph s) i (move_and_grow (sph s i) T')) (content s) (inboxes s) (evs s) (bar s))
                   (idx g c) i = Ok s' /\ upd g [i] s s' T' /\ sph s' = set_sphere (sph s) i (move_and_grow (sph s i) T').
  Proof.
    intros Hi G Ha Hr H0. unfold remove_sphere_from. cbn [sph content inboxes bar evs].
    set (b := idx g c) in *.
    assert (Np: ~ prod g (sph s i) T' c) by (intros F; specialize (F a Ha); unfold rest in H0; destruct up; lra).
    destruct (some_cell i Hi) as (X & GX & PX). pose proof (reg_at i X Hi GX PX) as RX.
    assert (NX: idx g X <> b) by (intros E; apply idx_inj in E; auto; subst X; contradiction).
    assert (Hin: In (idx g X) (without b (inboxes s i))) by (apply without_In; split; [apply (p_coh _ _ _ _ _ P i X Hi GX); auto|auto]).
    destruct (without b (inboxes s i)) as [|b0 l] eqn:El; [destruct Hin|]. rewrite <- El in *. clear El Hin.
    eexists. split; [reflexivity|]. split; [|reflexivity].
    constructor; cbn [sph content inboxes bar evs]; auto.
    - intros k Hk. assert (k <> i) by (intros ->; apply Hk; left; auto). rewrite set_sphere_other, set_list_other by auto. auto.
    - intros k [<-|[]]. rewrite set_sphere_same. apply grow_moved; auto.
    - intros b' d Hd. assert (d <> i) by (intros ->; apply Hd; left; auto).
      destruct (Z.eq_dec b' b) as [->|N]; [rewrite set_list_same, without_In; tauto|rewrite set_list_other by auto; tauto].
    - intros k x [<-|[]] Gx. rewrite set_list_same, without_In, (p_coh _ _ _ _ _ P i x Hi Gx).
      destruct (Z.eq_dec (idx g x) b) as [E|N].
      + rewrite E, set_list_same, without_In. tauto.
      + rewrite set_list_other by auto. tauto.
    - intros k b' [<-|[]]. rewrite set_list_same, without_In. intros (H & _). apply (p_box _ _ _ _ _ P i b' Hi H).
    - intros k x [<-|[]] Gx H. pose proof (reg_at i x Hi Gx H) as R0.
      destruct (Z.eq_dec (idx g x) b) as [E|N]; [|rewrite set_list_other by auto; auto].
      apply idx_inj in E; auto. subst x. contradiction.
  Qed.

  (** a wall event, whichever collidable comes first *)
  Lemma wall_event i c k : In i ids -> ingrid g c -> (k < 6)%nat -> In i (content s (idx g c)) ->
    predict_box_wall s (wallof g c k) i = Ok T' -> 0 <= T' ->
    exists s1, perform_box_wall (mkSim (set_sphere (sph s) i (move_and_grow (sph s i) T')) (content s) (inboxes s) (evs s) (bar s))
                 (wallof g c k) i = Ok s1 /\ upd g [i] s s1 T'.
  Proof.
    intros Hi G Hk Hr E H0. destruct (side_cases k Hk) as (a & up & Ha & ->).
    destruct (wall_links g c a up OK G Ha) as (L1 & L2 & L3). destruct (wall_values g c a up (sph s i) Ha) as (V1 & V2 & V3).
    set (w := wallof g c (side a up)) in *. unfold perform_box_wall, predict_box_wall in *.
    destruct (bw_kind w) eqn:Kw.
    - eexists. split; [reflexivity|]. cbn [sph content inboxes evs bar]. apply upd_motion.
      + intros k [<-|[]]; auto.
      + intros k Hk'. assert (k <> i) by (intros ->; apply Hk'; left; auto). rewrite !set_sphere_other by auto. reflexivity.
      + intros k [<-|[]]. rewrite !set_sphere_same. apply set_velocity_moved. apply grow_moved; auto.
    - assert (Gn: ingrid g (next c a up)).
      { destruct (Z_lt_le_dec (co (next c a up) a) 0) as [Q|Q]; [exfalso|
        destruct (Z_lt_le_dec (co (next c a up) a) (gn g a)) as [Q'|Q']; [|exfalso]].
        - enough (F: Physical = Virtual) by discriminate. rewrite <- L3; [auto|]. intros F. specialize (F a Ha). lia.
        - intros b Hb. destruct (Nat.eq_dec b a) as [->|Ne]; [lia|]. unfold next. rewrite co_setco_other by auto. apply G. auto.
        - enough (F: Physical = Virtual) by discriminate. rewrite <- L3; [auto|]. intros F. specialize (F a Ha). lia. }
      destruct (L2 Gn) as (_ & O).
      change (in_outside (mkSim (set_sphere (sph s) i (move_and_grow (sph s i) T')) (content s) (inboxes s) (evs s) (bar s)) w i)
        with (in_outside s w i).
      destruct (in_outside s w i) eqn:Eo.
      + unfold predict_virtual in E. rewrite V3 in E. cbn [obind] in E. injection E as E.
        destruct (leave_time g c a up (sph s i) T') as (_ & Z0); auto; [apply (p_clock _ _ _ _ _ P i Hi)|].
        rewrite L1. destruct (upd_leave i c a up Hi G Ha Hr Z0) as (s1 & E1 & U1 & _). eauto.
      + rewrite O. eexists. split; [reflexivity|]. apply (upd_enter i c a up); auto.
  Qed.
End Events.

Section Next.
  Variable g : grid.
  Variable what : Z -> object.
  Variable ids : list Z.
  Hypothesis OK : gridok g.
  Hypothesis SPH : forall i, In i ids -> what i = OSphere.

  Lemma perform_update s T e l : inv g what ids s T -> evs s = e :: l ->
    T <= etime e /\ exists Ch s1, incl Ch ids /\ (forall k, In k Ch <-> In k ids /\ (k = efst e \/ k = esnd e)) /\
      perform what (move what (move what s (efst e) (etime e)) (esnd e) (etime e)) (efst e) (esnd e) = Ok s1 /\ upd g Ch s s1 (etime e).
  Proof.
    intros (P & C & So & Or) El.
    assert (Hin: In e (evs s)) by (rewrite El; left; auto).
    destruct (So e Hin) as (Ha & Ep & Hb).
    assert (Hev: forall x, In x (evs s) -> etime e <= etime x) by (rewrite El in *; apply ordered_times; auto).
    assert (HTT: T <= etime e).
    { destruct (p_pred _ _ _ _ _ P (esnd e) (efst e) (etime e)) as [F|F]; auto; [|lra].
      destruct Ha as (c & G & A & B). exists c. auto. }
    split; auto. destruct Ha as (c & G & A & B). set (T' := etime e) in *.
    destruct (p_cont _ _ _ _ _ P c _ G A) as [I1|(k1 & K1 & W1)], (p_cont _ _ _ _ _ P c _ G B) as [I2|(k2 & K2 & W2)];
      unfold predict in Ep; unfold perform, move, is_sphere.
    - rewrite (SPH _ I1), (SPH _ I2) in Ep.
      assert (Nij: efst e <> esnd e).
      { intros F. rewrite F in Ep. unfold predict_spheres in Ep. rewrite Z.eqb_refl in Ep. injection Ep as Ep. unfold EVENTNULL in Ep. lra. }
      exists [efst e; esnd e]. rewrite (SPH _ I1), (SPH _ I2). cbn [sph content inboxes evs bar].
      eexists. split; [intros k [<-|[<-|[]]]; auto|].
      split; [intros k; cbn [In]; split; [intros [<-|[<-|[]]]; auto|intros (_ & [->| ->]); auto]|]. split; [reflexivity|].
      rewrite set_sphere_same, !(set_sphere_other _ (esnd e)), !set_sphere_same by auto.
      rewrite (set_sphere_other _ (efst e) _ (esnd e)) by auto.
      apply (upd_motion g what ids OK SPH s T T' P C Hev HTT (proj2 Hb)).
      + intros k [<-|[<-|[]]]; auto.
      + intros k Hk. assert (k <> efst e /\ k <> esnd e) as (N1 & N2) by (split; intros ->; apply Hk; cbn [In]; auto).
        rewrite !set_sphere_other by auto. reflexivity.
      + intros k [<-|[<-|[]]].
        * rewrite set_sphere_same. unfold perform_spheres. cbn [snd]. apply set_velocity_moved, (grow_moved g what ids s T T' P); auto.
        * rewrite set_sphere_other, set_sphere_same by auto. unfold perform_spheres. cbn [fst]. apply set_velocity_moved, (grow_moved g what ids s T T' P); auto.
    - rewrite (SPH _ I1), W2 in Ep. exists [efst e]. rewrite (SPH _ I1), W2. cbn [sph content inboxes evs bar].
      destruct (wall_event g what ids OK SPH s T T' P C Hev HTT (proj2 Hb) (efst e) c k2) as (s1 & E1 & U1); auto; [lra|].
      exists s1. split; [intros k [<-|[]]; auto|]. split; [|auto].
      intros k. cbn [In]. split; [intros [<-|[]]; auto|]. intros (Hk & [->| ->]); [auto|]. rewrite (SPH _ Hk) in W2. discriminate.
    - rewrite (SPH _ I2), W1 in Ep. exists [esnd e]. rewrite (SPH _ I2), W1. cbn [sph content inboxes evs bar].
      destruct (wall_event g what ids OK SPH s T T' P C Hev HTT (proj2 Hb) (esnd e) c k1) as (s1 & E1 & U1); auto; [lra|].
      exists s1. split; [intros k [<-|[]]; auto|]. split; [|auto].
      intros k. cbn [In]. split; [intros [<-|[]]; auto|]. intros (Hk & [->| ->]); [|auto]. rewrite (SPH _ Hk) in W1. discriminate.
    - rewrite W1, W2 in Ep. injection Ep as Ep. unfold T' in *. lra.
  Qed.

  (** PerformNextEvent succeeds and keeps the invariant; the spheres move as before until the event *)
  Lemma perform_next_ok s T e l : inv g what ids s T -> evs s = e :: l ->
    T <= etime e /\ exists s', perform_next what s = Ok s' /\ inv g what ids s' (etime e) /\
      (forall i, In i ids -> sph s' i = sph s i \/ moved_to (sph s i) (sph s' i) (etime e)) /\ bar s' = bar s.
  Proof.
    intros I El. destruct (perform_update s T e l I El) as (HTT & Ch & s1 & HC & HCe & Ep & U). split; auto.
    pose proof I as (P & C & So & Or).
    assert (Hin: In e (evs s)) by (rewrite El; left; auto). destruct (So e Hin) as (Ha & _ & Hb).
    assert (Hev: forall x, In x (evs s) -> etime e <= etime x) by (rewrite El in *; apply ordered_times; auto).
    destruct (new_events g what ids OK SPH s s1 T (etime e) Ch P C Hev HTT (proj2 Hb) HC U e So Or Ha HCe) as (l1 & l2 & E1 & E2 & I').
    eexists. split; [|split; [exact I'|split]].
    - unfold perform_next. rewrite El, Ep. cbn [obind]. cbn zeta in E1, E2. 
      set (s2 := with_events s1 (erase_events what (efst e) (esnd e) (evs s1))) in *.
      rewrite E1. cbn [obind]. rewrite E2. reflexivity.
    - intros i Hi. cbn [with_events sph]. destruct (in_dec Z.eq_dec i Ch) as [H|H].
      + right. apply (u_changed _ _ _ _ _ U i H).
      + left. apply (u_other _ _ _ _ _ U i H).
    - cbn [with_events bar]. apply (u_bar _ _ _ _ _ U).
  Qed.
End Next.
