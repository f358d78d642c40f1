(** The events and the loop of the simulation in a cylinder specimen. *)
From Coq Require Import Reals ZArith List Bool Lia Lra Psatz.
From Verif Require Import Outcome AdaptiveModel AdaptiveProofs Vec3 CollisionModel CollisionSpec CollisionProofs CollisionProofs2
  PropCollision EventModel EventSpec EventProofs SubBoxModel SubBoxSpec SubBoxProofs SimModel SimSpec SimProofs SimProofs2 SimProofs3 SimProofs4
  SimProofs5 SimProofs6 CylProofs1 CylProofs2 CylProofs3.
Import ListNotations.
Local Open Scope R_scope.

Section CLoop.
  Variable g : grid.
  Variable what : Z -> object.
  Variable ids : list Z.
  Variable p : v3.
  Variable r : R.
  Variable hascyl : Z -> Z -> bool.
  Variable tlim : R.
  Let W := new_cylinder p ez r.
  Hypothesis OK : gridok g.
  Hypothesis SPH : forall i, In i ids -> what i = OSphere.
  Hypothesis GX0 : plane g 0 0 = vx p - r.
  Hypothesis GX1 : plane g 0 (gn g 0) = vx p + r.
  Hypothesis GY0 : plane g 1 0 = vy p - r.
  Hypothesis GY1 : plane g 1 (gn g 1) = vy p + r.
  Hypothesis ENC : forall x y qx qy, (0 <= x < gn g 0)%Z -> (0 <= y < gn g 1)%Z ->
    plane g 0 x < qx < plane g 0 (x + 1) -> plane g 1 y < qy < plane g 1 (y + 1) ->
    (qx - vx p) * (qx - vx p) + (qy - vy p) * (qy - vy p) = r * r -> hascyl x y = true.

  Notation phys := (cphys g what ids p r hascyl tlim).
  Notation inv := (cinv g what ids p r hascyl tlim).

  Section CEvents.
  Variables (s : sim) (T T' : R).
  Hypothesis P : phys s T.
  Hypothesis C : complete g what s.
  Hypothesis Hev : forall e, In e (evs s) -> T' <= etime e.
  Hypothesis HTT : T <= T'.
  Hypothesis Hbar : T' <= bar s.
  Hypothesis Hlim : T' <= tlim.

  Lemma creg_at i c : In i ids -> ingrid g c -> prod g (sph s i) T' c -> In i (content s (idx g c)).
  Proof.
    intros Hi G H. pose proof (c_clock _ _ _ _ _ _ _ _ _ P i Hi).
    apply (cstays_registered g what ids p r hascyl tlim OK SPH s T T' i P C Hev Hbar Hi T' c); auto. lra.
  Qed.
  Lemma cgrow_moved i : In i ids -> moved_to (sph s i) (move_and_grow (sph s i) T') T'.
  Proof. intros Hi. apply move_and_grow_moved. apply (c_cons _ _ _ _ _ _ _ _ _ P i Hi). Qed.

  (** only the motion changes *)
  Lemma cupd_motion Ch f : incl Ch ids -> (forall k, ~ In k Ch -> f k = sph s k) ->
    (forall k, In k Ch -> moved_to (sph s k) (f k) T') ->
    upd g Ch s (mkSim f (content s) (inboxes s) (evs s) (bar s)) T'.
  Proof.
    intros HC Ho Hm. constructor; cbn [sph content inboxes bar evs]; auto.
    - tauto.
    - intros k c Hk G. apply (c_coh _ _ _ _ _ _ _ _ _ P k c); auto.
    - intros k b Hk Hb. apply (c_box _ _ _ _ _ _ _ _ _ P k b); auto.
    - intros k c Hk G H. apply creg_at; auto.
  Qed.

  Lemma cupd_enter i c a up : In i ids -> ingrid g c -> (a < 3)%nat -> In i (content s (idx g c)) ->
    ingrid g (next c a up) -> 
    upd g [i] s (add_sphere_to (mkSim (set_sphere (sph s) i (move_and_grow (sph s i) T')) (content s) (inboxes s) (evs s) (bar s))
                   (idx g (next c a up)) i) T'.
  Proof.
    intros Hi G Ha Hr Gn. unfold add_sphere_to. cbn [sph content inboxes bar evs].
    set (b := idx g (next c a up)) in *.
    constructor; cbn [sph content inboxes bar evs]; auto.
    - intros k Hk. assert (k <> i) by (intros ->; apply Hk; left; auto). rewrite set_sphere_other, set_list_other by auto. auto.
    - intros k [<-|[]]. rewrite set_sphere_same. apply cgrow_moved; auto.
    - intros b' d Hd. assert (d <> i) by (intros ->; apply Hd; left; auto).
      destruct (Z.eq_dec b' b) as [->|N]; [rewrite set_list_same|rewrite set_list_other by auto; tauto].
      rewrite in_app_iff. cbn [In]. split; [intros [|[F|[]]]; [auto|congruence]|auto].
    - intros k x [<-|[]] Gx. rewrite set_list_same, in_app_iff. cbn [In]. rewrite (c_coh _ _ _ _ _ _ _ _ _ P i x Hi Gx).
      destruct (Z.eq_dec (idx g x) b) as [E|N].
      + rewrite E, set_list_same, in_app_iff. cbn [In]. tauto.
      + rewrite set_list_other by auto. split; [intros [|[F|[]]]; [auto|congruence]|auto].
    - intros k b' [<-|[]]. rewrite set_list_same, in_app_iff. cbn [In]. intros [H|[<-|[]]].
      + apply (c_box _ _ _ _ _ _ _ _ _ P i b' Hi H).
      + exists (next c a up). auto.
    - intros k x [<-|[]] Gx H. pose proof (creg_at i x Hi Gx H) as R0.
      destruct (Z.eq_dec (idx g x) b) as [E|N]; [rewrite E, set_list_same, in_app_iff; cbn [In]; auto|rewrite set_list_other by auto; auto].
  Qed.

  Lemma csome_cell i : In i ids -> exists X, ingrid g X /\ prod g (sph s i) T' X.
  Proof.
    intros Hi. pose proof (c_clock _ _ _ _ _ _ _ _ _ P i Hi) as Ck.
    assert (I: in_container g (sph s i) T') by (apply (cstays_inside g what ids p r hascyl tlim OK SPH GX0 GX1 GY0 GY1 ENC s T T' i P C Hev Hbar Hlim Hi T'); lra).
    assert (R0: 0 < radius_at (sph s i) T') by (apply (cpos_radius g what ids p r hascyl tlim s T i T' P Hi); lra).
    assert (F: forall a, exists k, (a < 3)%nat -> (0 <= k < gn g a)%Z /\ plane g a k < hi (sph s i) T' a /\ lo (sph s i) T' a < plane g a (k + 1)).
    { intros a. destruct (le_lt_dec 3 a) as [L|L]; [exists 0%Z; lia|]. destruct (I a L) as (I1 & I2).
      pose proof (hi_lo (sph s i) T' a). destruct (bottom_cell g a (lo (sph s i) T' a) OK I1 ltac:(lra)) as (k & K1 & K2).
      exists k. intros _. split; [auto|]. lra. }
    destruct (F 0%nat) as (k0 & K0). destruct (F 1%nat) as (k1 & K1). destruct (F 2%nat) as (k2 & K2).
    exists (k0, k1, k2). split; intros a Ha; destruct a as [|[|[|a]]]; try lia; cbn [co]; [apply K0|apply K1|apply K2|apply K0|apply K1|apply K2]; lia.
  Qed.

  Lemma cupd_leave i c a up : In i ids -> ingrid g c -> (a < 3)%nat -> In i (content s (idx g c)) ->
    rest g c a up (sph s i) T' = 0 ->
    exists s', remove_sphere_from (mkSim (set_sphere (sph s) i (move_and_grow (sph s i) T')) (content s) (inboxes s) (evs s) (bar s))
                   (idx g c) i = Ok s' /\ upd g [i] s s' T' /\ sph s' = set_sphere (sph s) i (move_and_grow (sph s i) T').
  Proof.
    intros Hi G Ha Hr H0. unfold remove_sphere_from. cbn [sph content inboxes bar evs].
    set (b := idx g c) in *.
    assert (Np: ~ prod g (sph s i) T' c) by (intros F; specialize (F a Ha); unfold rest in H0; destruct up; lra).
    destruct (csome_cell i Hi) as (X & GX & PX). pose proof (creg_at i X Hi GX PX) as RX.
    assert (NX: idx g X <> b) by (intros E; apply idx_inj in E; auto; subst X; contradiction).
    assert (Hin: In (idx g X) (without b (inboxes s i))) by (apply without_In; split; [apply (c_coh _ _ _ _ _ _ _ _ _ P i X Hi GX); auto|auto]).
    destruct (without b (inboxes s i)) as [|b0 l] eqn:El; [destruct Hin|]. rewrite <- El in *. clear El Hin.
    eexists. split; [reflexivity|]. split; [|reflexivity].
    constructor; cbn [sph content inboxes bar evs]; auto.
    - intros k Hk. assert (k <> i) by (intros ->; apply Hk; left; auto). rewrite set_sphere_other, set_list_other by auto. auto.
    - intros k [<-|[]]. rewrite set_sphere_same. apply cgrow_moved; auto.
    - intros b' d Hd. assert (d <> i) by (intros ->; apply Hd; left; auto).
      destruct (Z.eq_dec b' b) as [->|N]; [rewrite set_list_same, without_In; tauto|rewrite set_list_other by auto; tauto].
    - intros k x [<-|[]] Gx. rewrite set_list_same, without_In, (c_coh _ _ _ _ _ _ _ _ _ P i x Hi Gx).
      destruct (Z.eq_dec (idx g x) b) as [E|N].
      + rewrite E, set_list_same, without_In. tauto.
      + rewrite set_list_other by auto. tauto.
    - intros k b' [<-|[]]. rewrite set_list_same, without_In. intros (H & _). apply (c_box _ _ _ _ _ _ _ _ _ P i b' Hi H).
    - intros k x [<-|[]] Gx H. pose proof (creg_at i x Hi Gx H) as R0.
      destruct (Z.eq_dec (idx g x) b) as [E|N]; [|rewrite set_list_other by auto; auto].
      apply idx_inj in E; auto. subst x. contradiction.
  Qed.

  (** a wall event, whichever collidable comes first *)
  Lemma cwall_event i c k : In i ids -> ingrid g c -> (k < 6)%nat -> In i (content s (idx g c)) ->
    predict_box_wall s (wallof g c k) i = Ok T' -> 0 <= T' ->
    exists s1, perform_box_wall (mkSim (set_sphere (sph s) i (move_and_grow (sph s i) T')) (content s) (inboxes s) (evs s) (bar s))
                 (wallof g c k) i = Ok s1 /\ upd g [i] s s1 T'.
  Proof.
    intros Hi G Hk Hr E H0. destruct (side_cases k Hk) as (a & up & Ha & ->).
    destruct (wall_links g c a up OK G Ha) as (L1 & L2 & L3). destruct (wall_values g c a up (sph s i) Ha) as (V1 & V2 & V3).
    set (w := wallof g c (side a up)) in *. unfold perform_box_wall, predict_box_wall in *.
    destruct (bw_kind w) eqn:Kw.
    - eexists. split; [reflexivity|]. cbn [sph content inboxes evs bar]. apply cupd_motion.
      + intros k [<-|[]]; auto.
      + intros k Hk'. assert (k <> i) by (intros ->; apply Hk'; left; auto). rewrite !set_sphere_other by auto. reflexivity.
      + intros k [<-|[]]. rewrite !set_sphere_same. apply set_velocity_moved. apply cgrow_moved; auto.
    - assert (Gn: ingrid g (next c a up)).
      { destruct (Z_lt_le_dec (co (next c a up) a) 0) as [Q|Q]; [exfalso|
        destruct (Z_lt_le_dec (co (next c a up) a) (gn g a)) as [Q'|Q']; [|exfalso]].
        - enough (F: Physical = Virtual) by discriminate. rewrite <- L3; [auto|]. intros F. specialize (F a Ha). lia.
        - intros b Hb. destruct (Nat.eq_dec b a) as [->|Ne]; [lia|]. unfold next. rewrite co_setco_other by auto. apply G. auto.
        - enough (F: Physical = Virtual) by discriminate. rewrite <- L3; [auto|]. intros F. specialize (F a Ha). lia. }
      destruct (L2 Gn) as (_ & O).
      change (in_outside (mkSim (set_sphere (sph s) i (move_and_grow (sph s i) T')) (content s) (inboxes s) (evs s) (bar s)) w i)
        with (in_outside s w i).
      destruct (in_outside s w i) eqn:Eo.
      + unfold predict_virtual in E. rewrite V3 in E. cbn [obind] in E. injection E as E.
        destruct (leave_time g c a up (sph s i) T') as (_ & Z0); auto; [apply (c_clock _ _ _ _ _ _ _ _ _ P i Hi)|].
        rewrite L1. destruct (cupd_leave i c a up Hi G Ha Hr Z0) as (s1 & E1 & U1 & _). eauto.
      + rewrite O. eexists. split; [reflexivity|]. apply (cupd_enter i c a up); auto.
  Qed.

  (** a collision with the cylinder wall *)
  Lemma ccyl_event i : In i ids -> predict_cylinder W (sph s i) = Ok T' -> 0 <= T' ->
    exists s1, perform_cylinder_wall (mkSim (set_sphere (sph s) i (move_and_grow (sph s i) T')) (content s) (inboxes s) (evs s) (bar s)) W i = Ok s1 /\
      upd g [i] s s1 T'.
  Proof.
    intros Hi E H0. pose proof (c_clock _ _ _ _ _ _ _ _ _ P i Hi) as Ck.
    destruct (cyl_predict p r (sph s i)) as (tc & Et & _ & Q).
    { apply (c_proper _ _ _ _ _ _ _ _ _ P i Hi). } { apply Ck. } { apply (c_in _ _ _ _ _ _ _ _ _ P i Hi). }
    assert (tc = T') by (unfold W in E; congruence). subst tc.
    destruct (Q ltac:(unfold EVENTNULL; lra)) as (_ & Q2 & _). clear Q Et.
    pose proof (csmall g what ids p r hascyl tlim s T i T' P Hi Hlim) as Sm.
    unfold perform_cylinder_wall. cbn [sph]. rewrite set_sphere_same. set (u := move_and_grow (sph s i) T').
    pose proof (cgrow_moved i Hi) as M. fold u in M.
    destruct (C58_cylinder_response p ez r u) as (u' & Eu & Ev & _).
    - unfold ez. intros F. injection F as F. lra.
    - destruct M as (_ & _ & _ & R1 & _ & _ & G1). split; [rewrite R1; apply (cpos_radius g what ids p r hascyl tlim s T i T' P Hi); lra|].
      rewrite G1. apply (c_proper _ _ _ _ _ _ _ _ _ P i Hi).
    - rewrite normalize_ez. unfold cgap, cylinder_gap in Q2. destruct M as (_ & _ & -> & _). lra.
    - fold W in Eu. rewrite Eu. cbn [omap content inboxes evs bar]. eexists. split; [reflexivity|]. apply cupd_motion.
      + intros k [<-|[]]; auto.
      + intros k Hk. assert (k <> i) by (intros ->; apply Hk; left; auto). rewrite !set_sphere_other by auto. reflexivity.
      + intros k [<-|[]]. rewrite set_sphere_same, Ev. apply set_velocity_moved. exact M.
  Qed.
  End CEvents.

  Lemma cperform_update s T e l : inv s T -> evs s = e :: l -> etime e <= tlim ->
    T <= etime e /\ exists Ch s1, incl Ch ids /\ (forall k, In k Ch <-> In k ids /\ (k = efst e \/ k = esnd e)) /\
      perform what (move what (move what s (efst e) (etime e)) (esnd e) (etime e)) (efst e) (esnd e) = Ok s1 /\ upd g Ch s s1 (etime e).
  Proof.
    intros (P & C & So & Or) El Hlim.
    assert (Hin: In e (evs s)) by (rewrite El; left; auto).
    destruct (So e Hin) as (Ha & Ep & Hb).
    assert (Hev: forall x, In x (evs s) -> etime e <= etime x) by (rewrite El in *; apply ordered_times; auto).
    assert (HTT: T <= etime e).
    { destruct (c_pred _ _ _ _ _ _ _ _ _ P (esnd e) (efst e) (etime e)) as [F|F]; auto; [|lra].
      destruct Ha as (c & G & A & B). exists c. auto. }
    split; auto. destruct Ha as (c & G & A & B). set (T' := etime e) in *.
    destruct (c_cont _ _ _ _ _ _ _ _ _ P c _ G A) as [I1|[(k1 & K1 & W1)|W1]], (c_cont _ _ _ _ _ _ _ _ _ P c _ G B) as [I2|[(k2 & K2 & W2)|W2]];
      unfold predict in Ep; unfold perform, move, is_sphere.
    - rewrite (SPH _ I1), (SPH _ I2) in Ep.
      assert (Nij: efst e <> esnd e).
      { intros F. rewrite F in Ep. unfold predict_spheres in Ep. rewrite Z.eqb_refl in Ep. injection Ep as Ep. unfold EVENTNULL in Ep. lra. }
      exists [efst e; esnd e]. rewrite (SPH _ I1), (SPH _ I2). cbn [sph content inboxes evs bar].
      eexists. split; [intros k [<-|[<-|[]]]; auto|].
      split; [intros k; cbn [In]; split; [intros [<-|[<-|[]]]; auto|intros (_ & [->| ->]); auto]|]. split; [reflexivity|].
      rewrite set_sphere_same, !(set_sphere_other _ (esnd e)), !set_sphere_same by auto.
      rewrite (set_sphere_other _ (efst e) _ (esnd e)) by auto.
      apply (cupd_motion s T T' P C Hev HTT (proj2 Hb)).
      + intros k [<-|[<-|[]]]; auto.
      + intros k Hk. assert (k <> efst e /\ k <> esnd e) as (N1 & N2) by (split; intros ->; apply Hk; cbn [In]; auto).
        rewrite !set_sphere_other by auto. reflexivity.
      + intros k [<-|[<-|[]]].
        * rewrite set_sphere_same. unfold perform_spheres. cbn [snd]. apply set_velocity_moved, (cgrow_moved s T T' P); auto.
        * rewrite set_sphere_other, set_sphere_same by auto. unfold perform_spheres. cbn [fst]. apply set_velocity_moved, (cgrow_moved s T T' P); auto.
    - rewrite (SPH _ I1), W2 in Ep. exists [efst e]. rewrite (SPH _ I1), W2. cbn [sph content inboxes evs bar].
      destruct (cwall_event s T T' P C Hev HTT (proj2 Hb) Hlim (efst e) c k2) as (s1 & E1 & U1); auto; [lra|].
      exists s1. split; [intros k [<-|[]]; auto|]. split; [|auto].
      intros k. cbn [In]. split; [intros [<-|[]]; auto|]. intros (Hk & [->| ->]); [auto|]. rewrite (SPH _ Hk) in W2. discriminate.
    - rewrite (SPH _ I1), W2 in Ep. exists [efst e]. rewrite (SPH _ I1), W2. cbn [sph content inboxes evs bar].
      destruct (ccyl_event s T T' P C Hev HTT (proj2 Hb) Hlim (efst e)) as (s1 & E1 & U1); auto; [lra|].
      exists s1. split; [intros k [<-|[]]; auto|]. split; [|auto].
      intros k. cbn [In]. split; [intros [<-|[]]; auto|]. intros (Hk & [->| ->]); [auto|]. rewrite (SPH _ Hk) in W2. discriminate.
    - rewrite (SPH _ I2), W1 in Ep. exists [esnd e]. rewrite (SPH _ I2), W1. cbn [sph content inboxes evs bar].
      destruct (cwall_event s T T' P C Hev HTT (proj2 Hb) Hlim (esnd e) c k1) as (s1 & E1 & U1); auto; [lra|].
      exists s1. split; [intros k [<-|[]]; auto|]. split; [|auto].
      intros k. cbn [In]. split; [intros [<-|[]]; auto|]. intros (Hk & [->| ->]); [|auto]. rewrite (SPH _ Hk) in W1. discriminate.
    - rewrite W1, W2 in Ep. injection Ep as Ep. unfold T' in *. lra.
    - rewrite W1, W2 in Ep. injection Ep as Ep. unfold T' in *. lra.
    - rewrite (SPH _ I2), W1 in Ep. exists [esnd e]. rewrite (SPH _ I2), W1. cbn [sph content inboxes evs bar].
      destruct (ccyl_event s T T' P C Hev HTT (proj2 Hb) Hlim (esnd e)) as (s1 & E1 & U1); auto; [lra|].
      exists s1. split; [intros k [<-|[]]; auto|]. split; [|auto].
      intros k. cbn [In]. split; [intros [<-|[]]; auto|]. intros (Hk & [->| ->]); [|auto]. rewrite (SPH _ Hk) in W1. discriminate.
    - rewrite W1, W2 in Ep. injection Ep as Ep. unfold T' in *. lra.
    - rewrite W1, W2 in Ep. injection Ep as Ep. unfold T' in *. lra.
  Qed.

  (** PerformNextEvent succeeds and keeps the invariant; the spheres move as before until the event *)
  Lemma cperform_next_ok s T e l : inv s T -> evs s = e :: l -> etime e <= tlim ->
    T <= etime e /\ exists s', perform_next what s = Ok s' /\ inv s' (etime e) /\
      (forall i, In i ids -> sph s' i = sph s i \/ moved_to (sph s i) (sph s' i) (etime e)) /\ bar s' = bar s.
  Proof.
    intros I El Hlim. destruct (cperform_update s T e l I El Hlim) as (HTT & Ch & s1 & HC & HCe & Ep & U). split; auto.
    pose proof I as (P & C & So & Or).
    assert (Hin: In e (evs s)) by (rewrite El; left; auto). destruct (So e Hin) as (Ha & _ & Hb).
    assert (Hev: forall x, In x (evs s) -> etime e <= etime x) by (rewrite El in *; apply ordered_times; auto).
    destruct (cnew_events g what ids p r hascyl tlim OK SPH GX0 GX1 GY0 GY1 ENC s s1 T (etime e) Ch P C Hev HTT (proj2 Hb) Hlim HC U e So Or Ha HCe) as (l1 & l2 & E1 & E2 & I').
    eexists. split; [|split; [exact I'|split]].
    - unfold perform_next. rewrite El, Ep. cbn [obind]. cbn zeta in E1, E2. 
      set (s2 := with_events s1 (erase_events what (efst e) (esnd e) (evs s1))) in *.
      rewrite E1. cbn [obind]. rewrite E2. reflexivity.
    - intros i Hi. cbn [with_events sph]. destruct (in_dec Z.eq_dec i Ch) as [H|H].
      + right. apply (u_changed _ _ _ _ _ U i H).
      + left. apply (u_other _ _ _ _ _ U i H).
    - cbn [with_events bar]. apply (u_bar _ _ _ _ _ U).
  Qed.
  Variable sph0 : Z -> sphere.
  Variable events_max : Z.
  Variable time_max : R.

  (** the radius law is never changed *)
  Definition ckept (s : sim) : Prop := forall i, In i ids ->
    sradG (sph s i) = sradG (sph0 i) /\ sreset (sph s i) = sreset (sph0 i) /\ sgrow (sph s i) = sgrow (sph0 i).
  Definition clinv (L : loop) : Prop := inv (lsim L) (lglobal L) /\ ckept (lsim L) /\ 0 <= lglobal L <= tlim.
  Definition cfine (s : sim) (t : R) : Prop :=
    (forall i j, In i ids -> In j ids -> i <> j -> ~ overlap_at (sph s i) (sph s j) t) /\
    (forall i, In i ids -> inside g p r (sph s i) t).
  Definition cquiet (L L' : loop) : Prop :=
    lglobal L <= lglobal L' /\ (forall t, lglobal L <= t <= lglobal L' -> cfine (lsim L) t) /\
    (forall i, In i ids -> centre_at (sph (lsim L') i) (lglobal L') = centre_at (sph (lsim L) i) (lglobal L') /\
                           radius_at (sph (lsim L') i) (lglobal L') = radius_at (sph (lsim L) i) (lglobal L')).

  Lemma cinterval s T T' : phys s T -> complete g what s -> (forall e, In e (evs s) -> T' <= etime e) -> T' <= bar s -> T' <= tlim ->
    forall t, T <= t <= T' -> cfine s t.
  Proof.
    intros P C Hev Hb Hl t Ht. split.
    - intros i j Hi Hj Hij. apply (capart_between g what ids p r hascyl tlim OK SPH GX0 GX1 GY0 GY1 ENC s T T' i j); auto. split; [|lra].
      unfold pair_now. pose proof (c_clock _ _ _ _ _ _ _ _ _ P i Hi). pose proof (c_clock _ _ _ _ _ _ _ _ _ P j Hj). apply Rmax_lub; lra.
    - intros i Hi. pose proof (c_clock _ _ _ _ _ _ _ _ _ P i Hi).
      apply (cstays_inside g what ids p r hascyl tlim OK SPH GX0 GX1 GY0 GY1 ENC s T T' i); auto. lra.
  Qed.
  (** the present moment: the list is rebuilt with a barrier at the present time *)
  Lemma cpresent s T : phys s T -> T <= tlim -> cfine s T.
  Proof.
    intros P Hl. destruct (cset_barrier_ok g what ids p r hascyl tlim OK SPH s T T P) as (s' & _ & (P' & C' & So' & _) & E1 & _ & _ & E2).
    assert (Hev: forall e, In e (evs s') -> T <= etime e).
    { intros e He. destruct (So' e He) as (A & B & D). destruct (c_pred _ _ _ _ _ _ _ _ _ P' (esnd e) (efst e) (etime e)) as [F|F]; auto; [|lra].
      destruct A as (c & G & X & Y). exists c. auto. }
    pose proof (cinterval s' T T P' C' Hev ltac:(lra) Hl T ltac:(lra)) as F. unfold cfine in *. rewrite E1 in F. exact F.
  Qed.

  (** the preparation of a pass: the same spheres, a rebuilt list or the old one *)
  Definition cprepared (L L2 : loop) : Prop :=
    inv (lsim L2) (lglobal L) /\ sph (lsim L2) = sph (lsim L) /\ lglobal L2 = next_time (lsim L2).

  Lemma cfetch_ok L : clinv L -> cprepared L (fetch L).
  Proof. intros (I & _). split; [exact I|]. split; reflexivity. Qed.
  Lemma creset_ok f L L1 : cprepared L L1 -> exists L2, reset what (num_boxes g) f L1 = Ok L2 /\ cprepared L L2.
  Proof.
    intros (I & S1 & _). unfold reset. destruct (cset_barrier_ok g what ids p r hascyl tlim OK SPH (lsim L1) (lglobal L) (lold L1 + f * (lold L1 - lreset L1)) (proj1 I))
      as (s' & E & I' & S2 & _). rewrite E. cbn [omap]. eexists. split; [reflexivity|]. split; [exact I'|]. cbn [lsim lglobal].
    split; [congruence|reflexivity].
  Qed.
  Notation cprepare := (prepare g what).
  Lemma cprepare_ok late L : clinv L -> exists L2, cprepare late L = Ok L2 /\ cprepared L L2.
  Proof.
    intros H. unfold prepare. cbn zeta. pose proof (cfetch_ok L H) as P.
    assert (H1: exists L1, (if reqb (lglobal (fetch L)) EVENTNULL then reset what (num_boxes g) 10 (fetch L) else Ok (fetch L)) = Ok L1 /\ cprepared L L1).
    { destruct (reqb _ _); [apply creset_ok; auto|eauto]. }
    destruct H1 as (L1 & -> & P1). cbn [obind]. destruct late; [apply creset_ok; auto|eauto].
  Qed.
  (** one pass: it ends the loop, performs an event, finds no event at all, or its event is beyond [tlim] *)
  Lemma cpass_ok timeout late L : clinv L ->
    (exists st L', pass what (num_boxes g) events_max time_max timeout late L = Ok (st, L') /\ clinv L' /\ cquiet L L') \/
    (pass what (num_boxes g) events_max time_max timeout late L = UB /\
     exists L2, cprepare late L = Ok L2 /\ evs (lsim L2) = []) \/
    ((forall t, lglobal L <= t <= tlim -> cfine (lsim L) t) /\
     forall st L', pass what (num_boxes g) events_max time_max timeout late L = Ok (st, L') -> tlim < lglobal L').
  Proof.
    intros HL. pose proof HL as (I0 & K & H0). rewrite pass_prepare.
    destruct (orb _ _).
    { left. exists Stopped, L. split; auto. split; auto. split; [lra|]. split; [|auto]. intros t Ht. replace t with (lglobal L) by lra.
      apply cpresent; [apply I0|lra]. }
    destruct (cprepare_ok late L HL) as (L2 & E & (I2 & S2 & N2)). rewrite E. cbn [obind].
    destruct (evs (lsim L2)) as [|e l] eqn:El.
    { right. left. split; [unfold perform_next; rewrite El; reflexivity|]. eauto. }
    assert (Nt: lglobal L2 = etime e) by (rewrite N2; unfold next_time; rewrite El; reflexivity).
    pose proof I2 as (P2 & C2 & So2 & Or2).
    assert (Hev: forall x, In x (evs (lsim L2)) -> etime e <= etime x) by (rewrite El in *; apply ordered_times; auto).
    assert (Hb: etime e <= bar (lsim L2)) by (apply (So2 e); rewrite El; left; auto).
    assert (Same: forall t, cfine (lsim L2) t -> cfine (lsim L) t) by (intros t; unfold cfine; rewrite S2; auto).
    destruct (Rle_or_lt (etime e) tlim) as [Hl|Hl].
    2:{ right. right. split.
        - intros t Ht. apply Same. apply (cinterval (lsim L2) (lglobal L) tlim P2 C2); [|lra|lra|lra]. intros x Hx. apply Hev in Hx. lra.
        - intros st L'. destruct (perform_next what (lsim L2)); cbn [obind]; try discriminate. cbv zeta.
          destruct (andb _ _); intros X; injection X as <- <-; cbn [lglobal]; lra. }
    destruct (cperform_next_ok (lsim L2) (lglobal L) e l I2 El Hl) as (HT & s' & E' & I' & M & _). rewrite E'. cbn [obind]. cbn zeta.
    assert (Hk: ckept s').
    { intros i Hi. destruct (K i Hi) as (A & B & D). rewrite S2 in M. destruct (M i Hi) as [->|(_ & _ & _ & _ & -> & -> & ->)]; auto. }
    assert (Hq: forall L', lsim L' = s' -> lglobal L' = lglobal L2 -> clinv L' /\ cquiet L L').
    { intros L' E1 E2. split; [split; [rewrite E1, E2, Nt; auto|split; [rewrite E1; auto|lra]]|].
      unfold cquiet. rewrite E1, E2, Nt. split; auto. split.
      - intros t Ht. apply Same. apply (cinterval (lsim L2) (lglobal L) (etime e) P2 C2 Hev Hb Hl t Ht).
      - rewrite <- S2. intros i Hi. destruct (M i Hi) as [->|Mi]; auto. split; [apply moved_centre|apply moved_radius]; auto. }
    left. destruct (andb _ _); do 2 eexists; (split; [reflexivity|]); eapply Hq; reflexivity.
  Qed.

  (** beyond the time to simulate no further pass is made *)
  Lemma cpasses_ok timeout late L0 : clinv L0 -> time_max <= tlim -> forall n st L,
    passes what (num_boxes g) events_max time_max timeout late n L0 = Ok (st, L) -> clinv L \/ tlim < lglobal L.
  Proof.
    intros H0 Hm. induction n as [|n IH]; intros st L; cbn [passes]; [intros E; injection E as <- <-; auto|].
    destruct (passes what (num_boxes g) events_max time_max timeout late n L0) as [[st1 L1]| |] eqn:E1; cbn [obind]; try discriminate.
    specialize (IH st1 L1 eq_refl). destruct st1; [|intros E; injection E as <- <-; auto|intros E; injection E as <- <-; auto].
    intros E. destruct IH as [HL|HL].
    - destruct (cpass_ok (timeout n) (late n) L1 HL) as [(st2 & L2 & E2 & HL2 & _)|[(E2 & _)|(_ & E2)]].
      + rewrite E2 in E. injection E as <- <-. auto.
      + rewrite E2 in E. discriminate.
      + right. apply (E2 st). exact E.
    - right. unfold pass in E. destruct (rltb_spec (lglobal L1) time_max) as [(_ & F)|(R1 & _)]; [lra|].
      rewrite R1 in E. cbn [negb] in E. rewrite orb_true_r in E. injection E as <- <-. exact HL.
  Qed.
End CLoop.
