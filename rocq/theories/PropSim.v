(** C61: no two spheres overlap during the event-driven simulation.
    C78: the simulation never acts on an empty event list. *)
From Coq Require Import Reals ZArith List Bool Lia Lra Psatz.
From Verif Require Import Outcome AdaptiveModel AdaptiveProofs Vec3 CollisionModel CollisionSpec CollisionProofs CollisionProofs2
  PropCollision EventModel EventSpec EventProofs SubBoxModel SubBoxSpec SubBoxProofs SimModel SimSpec SimProofs SimProofs2 SimProofs3 SimProofs4 SimProofs5 SimProofs6.
Import ListNotations.
Local Open Scope R_scope.

Lemma packing_fits g what walls ids sph0 i : packing g what walls ids sph0 -> In i ids -> 0 <= srad (sph0 i) /\ fits g (sph0 i).
Proof.
  intros PK Hi. destruct (pk_new _ _ _ _ _ PK i Hi) as (p & v & r & gr & E & Hr & Hg).
  assert (I: forall a, (a < 3)%nat -> plane g a 0 <= lo (sph0 i) (stime (sph0 i)) a /\ hi (sph0 i) (stime (sph0 i)) a < plane g a (gn g a)).
  { intros a Ha. replace (stime (sph0 i)) with 0 by (rewrite E; reflexivity). apply (pk_inside _ _ _ _ _ PK i a Hi Ha). }
  split; [rewrite E; cbn [new_sphere srad]; lra|].
  pose proof (I 0%nat ltac:(lia)) as I0. pose proof (I 1%nat ltac:(lia)) as I1. pose proof (I 2%nat ltac:(lia)) as I2.
  rewrite lo_now, hi_now in I0, I1, I2. unfold plane in *. cbn [vnth gh gn] in *. unfold fits, axis_fits. lra.
Qed.
Lemma packing_added g what walls ids sph0 : packing g what walls ids sph0 -> exists b, add_spheres g (map sph0 ids) walls = Ok b.
Proof.
  intros PK. destruct (add_spheres_ok g (map sph0 ids) walls (pk_grid _ _ _ _ _ PK)) as (b & E & _); [| |eauto].
  - intros s Hs. apply in_map_iff in Hs. destruct Hs as (i & <- & Hi). eapply packing_fits; eauto.
  - intros k Hk. destruct (box_index_surj g k (pk_grid _ _ _ _ _ PK) Hk) as (x & y & z & (A & B & C) & <-).
    intros F. pose proof (pk_walls _ _ _ _ _ PK x y z A B C) as E. rewrite F in E. discriminate.
Qed.
Lemma packing_start g what walls ids sph0 b barrier0 : packing g what walls ids sph0 ->
  add_spheres g (map sph0 ids) walls = Ok b ->
  exists L0, start what (num_boxes g) barrier0 (initial_sim (num_boxes g) sph0 b) = Ok L0 /\ linv g what ids sph0 L0 /\
    sph (lsim L0) = sph0 /\ lglobal L0 = 0 /\ lold L0 = 0 /\ lreset L0 = 0 /\ bar (lsim L0) = barrier0.
Proof.
  intros PK AD. pose proof (start_phys g what walls ids sph0 b PK AD) as P.
  destruct (set_barrier_ok g what ids (pk_grid _ _ _ _ _ PK) (pk_sphere _ _ _ _ _ PK) _ 0 barrier0 P) as (s' & E & I & S1 & _ & _ & S2).
  unfold start. rewrite E. cbn [omap]. eexists. split; [reflexivity|]. cbn [lsim lglobal lold lreset]. split; [|auto].
  split; [exact I|]. split; [|cbn [lglobal]; lra]. intros i Hi. cbn [lsim]. rewrite S1. auto.
Qed.

(** * C61 *)
(** For every packing in a box specimen with any number of sub-boxes and spheres: AddSpheresToBoxes and the first
    SetTimeBarrier succeed, no pass through the loop of Simulate throws, and if the pass [n] is defined (C78) then at
    every moment from the event before it up to its own event, both included, no two spheres overlap and all are in the
    specimen; the event moves no sphere and changes no radius; time does not run backwards.
    Partial: exact arithmetic, box specimens (cylinders: PropCylSim.v), no print-outs (rTimePrintOut = 0), and the
    spheres do not touch the upper faces of the specimen at the beginning (C62_registration_refuted). *)
Theorem C61_no_overlap_partial : forall g what walls ids sph0 barrier0 events_max time_max timeout late,
  packing g what walls ids sph0 ->
  exists b L0, add_spheres g (map sph0 ids) walls = Ok b /\
    start what (num_boxes g) barrier0 (initial_sim (num_boxes g) sph0 b) = Ok L0 /\
    sph (lsim L0) = sph0 /\ lglobal L0 = 0 /\
    forall n, let run := fun n => passes what (num_boxes g) events_max time_max timeout late n L0 in
      run n <> Throw /\
      forall st L st' L', run n = Ok (st, L) -> run (S n) = Ok (st', L') ->
        lglobal L <= lglobal L' /\
        (forall t, lglobal L <= t <= lglobal L' ->
           (forall i j, In i ids -> In j ids -> i <> j -> ~ overlap_at (sph (lsim L) i) (sph (lsim L) j) t) /\
           (forall i, In i ids -> in_container g (sph (lsim L) i) t)) /\
        (forall i, In i ids -> centre_at (sph (lsim L') i) (lglobal L') = centre_at (sph (lsim L) i) (lglobal L') /\
                               radius_at (sph (lsim L') i) (lglobal L') = radius_at (sph (lsim L) i) (lglobal L')).
Proof.
  intros g what walls ids sph0 barrier0 events_max time_max timeout late PK.
  destruct (packing_added _ _ _ _ _ PK) as (b & AD). exists b.
  destruct (packing_start _ _ _ _ _ b barrier0 PK AD) as (L0 & E & I & S1 & S2 & _). exists L0.
  split; [auto|]. split; [auto|]. split; [auto|]. split; [auto|]. intros n. cbv zeta.
  pose proof (pk_grid _ _ _ _ _ PK) as OK. pose proof (pk_sphere _ _ _ _ _ PK) as SPH.
  pose proof (passes_ok g what ids OK SPH sph0 events_max time_max timeout late L0 I n) as P.
  split.
  - destruct P as [(st & L & -> & _)| ->]; discriminate.
  - intros st L st' L' E1 E2. rewrite E1 in P. destruct P as [(st1 & L1 & EQ & HL)|F]; [|discriminate]. injection EQ as <- <-.
    cbn [passes] in E2. rewrite E1 in E2. cbn [obind] in E2.
    destruct st.
    + destruct (pass_ok g what ids OK SPH sph0 events_max time_max (timeout n) (late n) L HL) as [(st2 & L2 & E3 & _ & Q)|(E3 & _)];
        rewrite E3 in E2; [|discriminate]. injection E2 as <- <-. exact Q.
    + injection E2 as <- <-. destruct (pass_ok g what ids OK SPH sph0 events_max time_max true false L HL) as [(st2 & L2 & E3 & _ & Q)|(E3 & _)];
        unfold pass in E3; cbn [orb] in E3; [|discriminate]. injection E3 as <- <-. exact Q.
    + injection E2 as <- <-. destruct (pass_ok g what ids OK SPH sph0 events_max time_max true false L HL) as [(st2 & L2 & E3 & _ & Q)|(E3 & _)];
        unfold pass in E3; cbn [orb] in E3; [|discriminate]. injection E3 as <- <-. exact Q.
Qed.
Print Assumptions C61_no_overlap_partial.

Lemma passes_stopped what nb em tm timeout late L0 : forall n L, passes what nb em tm timeout late n L0 = Ok (Stopped, L) ->
  (exists k, (k < n)%nat /\ timeout k = true) \/ tm <= lglobal L.
Proof.
  induction n as [|n IH]; intros L E; cbn [passes] in E; [discriminate|].
  destruct (passes what nb em tm timeout late n L0) as [[st L1]| |] eqn:E1; cbn [obind] in E; try discriminate.
  destruct st.
  - unfold pass in E. destruct (timeout n) eqn:Et; [left; exists n; auto|]. cbn [orb] in E.
    destruct (rltb_spec (lglobal L1) tm) as [(R1 & _)|(R1 & H)]; rewrite R1 in E; cbn [negb] in E.
    + exfalso. revert E.
      match goal with |- obind ?a _ = _ -> _ => destruct a as [L2| |] end; cbn [obind]; try discriminate.
      match goal with |- obind ?a _ = _ -> _ => destruct a as [L3| |] end; cbn [obind]; try discriminate.
      match goal with |- obind ?a _ = _ -> _ => destruct a as [s3| |] end; cbn [obind]; try discriminate.
      cbv zeta. destruct (andb _ _); discriminate.
    + injection E as <-. auto.
  - injection E as <-. destruct (IH L1 eq_refl) as [(k & Hk & K)|H]; [left; exists k; split; [lia|auto]|auto].
  - discriminate.
Qed.

(** The result of Simulate: the clocks of all spheres agree, each radius is the initial radius plus growth rate times
    time, no two spheres overlap and all are in the specimen; a run that ends without the wall clock has reached the
    requested time. *)
Theorem C61_final_packing_partial : forall g what walls ids sph0 b barrier0 events_max time_max timeout late n st s,
  packing g what walls ids sph0 -> add_spheres g (map sph0 ids) walls = Ok b ->
  simulate what (num_boxes g) events_max time_max timeout late n barrier0 ids (initial_sim (num_boxes g) sph0 b) = Ok (st, s) ->
  exists T, 0 <= T /\
    (forall i, In i ids -> stime (sph s i) = T /\ srad (sph s i) = srad (sph0 i) + sgrow (sph0 i) * T) /\
    (forall i j, In i ids -> In j ids -> i <> j -> srad (sph s i) + srad (sph s j) <= distance (spos (sph s i)) (spos (sph s j))) /\
    (forall i a, In i ids -> (a < 3)%nat -> plane g a 0 <= vnth (spos (sph s i)) a - srad (sph s i) /\
                                            vnth (spos (sph s i)) a + srad (sph s i) <= plane g a (gn g a)) /\
    (st = Stopped -> (forall k, timeout k = false) -> time_max <= T).
Proof.
  intros g what walls ids sph0 b barrier0 em tm timeout late n st s PK AD E.
  pose proof (pk_grid _ _ _ _ _ PK) as OK. pose proof (pk_sphere _ _ _ _ _ PK) as SPH.
  destruct (packing_start _ _ _ _ _ b barrier0 PK AD) as (L0 & E0 & I & _). unfold simulate in E. rewrite E0 in E. cbn [obind] in E.
  destruct (passes_ok g what ids OK SPH sph0 em tm timeout late L0 I n) as [(st' & L & E1 & HL)|F]; [|rewrite F in E; discriminate].
  rewrite E1 in E. cbn [omap obind] in E. injection E as -> <-.
  pose proof HL as (Iv & K & Pos). pose proof Iv as (P & _ & _ & _).
  destruct (fold_move what ids SPH (lglobal L) ids (lsim L) (fun i H => H) (pk_ids _ _ _ _ _ PK)) as (M & _).
  fold (sync what ids (lglobal L) (lsim L)) in M.
  assert (Mv: forall i, In i ids -> moved_to (sph (lsim L) i) (sph (sync what ids (lglobal L) (lsim L)) i) (lglobal L)).
  { intros i Hi. rewrite M by auto. apply move_and_grow_moved. apply (p_cons _ _ _ _ _ P i Hi). }
  destruct (pass_ok g what ids OK SPH sph0 em tm true false L HL) as [(st2 & L2 & E3 & _ & Q)|(E3 & _)];
    unfold pass in E3; cbn [orb] in E3; [|discriminate]. injection E3 as <- <-.
  destruct Q as (_ & Q & _). destruct (Q (lglobal L) ltac:(lra)) as (Q1 & Q2).
  exists (lglobal L). split; [auto|]. split; [|split; [|split]].
  - intros i Hi. destruct (Mv i Hi) as (_ & A & _ & B & _). split; [auto|]. rewrite B. unfold radius_at.
    rewrite (p_cons _ _ _ _ _ P i Hi). destruct (K i Hi) as (K1 & K2 & K3). rewrite K1, K2, K3.
    destruct (pk_new _ _ _ _ _ PK i Hi) as (p & v & r & gr & -> & _). cbn [new_sphere sradG sreset sgrow srad]. ring.
  - intros i j Hi Hj Hij. specialize (Q1 i j Hi Hj Hij). unfold overlap_at in Q1.
    destruct (Mv i Hi) as (_ & _ & A & B & _). destruct (Mv j Hj) as (_ & _ & A' & B' & _). rewrite A, A', B, B'. lra.
  - intros i a Hi Ha. destruct (Mv i Hi) as (_ & _ & A & B & _). rewrite A, B. apply (Q2 i Hi a Ha).
  - intros -> Ht. destruct (passes_stopped _ _ _ _ _ _ _ _ _ E1) as [(k & _ & F)|F]; [rewrite Ht in F; discriminate|auto].
Qed.
Print Assumptions C61_final_packing_partial.

(** two sub-boxes, two spheres (one of them in both boxes) with any velocities and growth rates *)
Definition ex_grid : grid := mkGrid 2 1 1 (V3 0 0 0) 4 4 4.
Definition ex_what (d : Z) : object :=
  if Z.ltb d 6 then OWall (build_wall ex_grid 0 0 0 (Z.to_nat d))
  else if Z.ltb d 12 then OWall (build_wall ex_grid 1 0 0 (Z.to_nat (d - 6))) else OSphere.
Definition ex_walls (k : Z) : list Z := if Z.eqb k 0 then [0; 1; 2; 3; 4; 5]%Z else [6; 7; 8; 9; 10; 11]%Z.
Definition ex_spheres (v1 v2 : v3) (g1 g2 : R) (i : Z) : sphere :=
  if Z.eqb i 100 then new_sphere 100 (V3 2 2 2) v1 1 g1 else new_sphere 101 (V3 5 2 2) v2 (3/2) g2.
Example C61_packing_example : forall v1 v2 g1 g2, 0 <= g1 -> 0 <= g2 ->
  packing ex_grid ex_what ex_walls [100; 101]%Z (ex_spheres v1 v2 g1 g2).
Proof.
  intros v1 v2 g1 g2 G1 G2. constructor.
  - cbn [ex_grid gnx gny gnz ghx ghy ghz]. repeat split; try lia; lra.
  - intros x y z Hx Hy Hz. cbn [ex_grid gnx gny gnz] in *. assert (y = 0%Z) by lia. assert (z = 0%Z) by lia. subst.
    assert (x = 0 \/ x = 1)%Z as [-> | ->] by lia; reflexivity.
  - constructor; [intros [H|[]]; discriminate|]. constructor; [intros []|constructor].
  - intros i [<-|[<-|[]]]; reflexivity.
  - intros i [<-|[<-|[]]]; unfold ex_spheres; cbn [Z.eqb Pos.eqb]; do 4 eexists; (split; [reflexivity|lra]).
  - intros i a [<-|[<-|[]]] Ha; unfold ex_spheres; cbn [Z.eqb Pos.eqb]; unfold lo, hi, centre_at, radius_at, plane;
      destruct a as [|[|[|a]]]; try lia; cbn [vnth vadd smul vx vy vz new_sphere spos svel stime srad sgrow gn gh gnx gny gnz ghx ghy ghz gorg ex_grid]; lra.
  - assert (O: ~ overlap_at (ex_spheres v1 v2 g1 g2 100) (ex_spheres v1 v2 g1 g2 101) 0).
    { unfold overlap_at, ex_spheres, centre_at, radius_at, distance. cbn [Z.eqb Pos.eqb new_sphere spos svel stime srad sgrow].
      intros H. rewrite vnorm_lt in H by lra. revert H. unfold dot, vsub, vadd, smul. cbn [vx vy vz]. lra. }
    intros i j [<-|[<-|[]]] [<-|[<-|[]]] Hij; try contradiction; auto. intros F. apply overlap_sym in F. auto.
Qed.

(** * C78 *)
(** As long as some event is predicted for now or later, at most at the time barrier, the next pass finds it. *)
Theorem C78_event_found_partial : forall g what walls ids sph0 b L0 barrier0 events_max time_max timeout late n L box c1 c2 t,
  packing g what walls ids sph0 -> add_spheres g (map sph0 ids) walls = Ok b ->
  start what (num_boxes g) barrier0 (initial_sim (num_boxes g) sph0 b) = Ok L0 ->
  passes what (num_boxes g) events_max time_max timeout late n L0 = Ok (Running, L) ->
  (0 <= box < num_boxes g)%Z -> In c1 (content (lsim L) box) -> In c2 (content (lsim L) box) ->
  predict what (lsim L) c1 c2 = Ok t -> 0 <= t <= bar (lsim L) ->
  exists st L', pass what (num_boxes g) events_max time_max (timeout n) false L = Ok (st, L') /\ lglobal L' <= t.
Proof.
  intros g what walls ids sph0 b L0 barrier0 em tm timeout late n L box c1 c2 t PK AD E0 E Hb H1 H2 Hp Ht.
  pose proof (pk_grid _ _ _ _ _ PK) as OK. pose proof (pk_sphere _ _ _ _ _ PK) as SPH.
  destruct (packing_start _ _ _ _ _ b barrier0 PK AD) as (L1 & E1 & I & _). rewrite E0 in E1. injection E1 as <-.
  destruct (passes_ok g what ids OK SPH sph0 em tm timeout late L0 I n) as [(st1 & L1 & E1 & HL)|F]; [|rewrite F in E; discriminate].
  rewrite E in E1. injection E1 as <- <-.
  pose proof HL as ((P & C & So & Or) & _).
  destruct (idx_surj g box OK Hb) as (c & G & <-).
  assert (A: active g (lsim L) c1 c2) by (exists c; auto).
  destruct (C c1 c2 t A Hp Ht) as (e & He & Ee).
  assert (Le: etime e = t /\ 0 <= lglobal L <= t).
  { assert (Et: etime e = t).
    { destruct Ee as (Ee & _). exact Ee. }
    split; auto. destruct (p_pred _ _ _ _ _ P c1 c2 t A Hp) as [F|F]; [lra|]. destruct HL as (_ & _ & HL). lra. }
  destruct (evs (lsim L)) as [|e0 l] eqn:El; [destruct He|].
  assert (Le0: etime e0 <= etime e) by (apply (ordered_times e0 l Or); auto).
  destruct (pass_ok g what ids OK SPH sph0 em tm (timeout n) false L HL) as [(st & L' & E' & HL' & Q)|(E' & L2 & Ep & F)].
  - exists st, L'. split; auto. revert E'. rewrite pass_prepare.
    destruct (orb _ _); [intros X; injection X as <- <-; lra|].
    unfold prepare, fetch, next_time. rewrite El. cbn [lglobal].
    assert (0 <= etime e0) by (apply (So e0); rewrite El; left; auto).
    destruct (reqb_spec (etime e0) EVENTNULL) as [(_ & F)|(-> & _)]; [unfold EVENTNULL in F; lra|]. cbn [obind lsim lglobal].
    destruct (perform_next what (lsim L)); cbn [obind]; try discriminate. cbv zeta.
    destruct (andb _ _); intros X; injection X as <- <-; cbn [lglobal]; lra.
  - exfalso. revert Ep. unfold prepare, fetch, next_time. rewrite El. cbn [lglobal].
    assert (0 <= etime e0) by (apply (So e0); rewrite El; left; auto).
    destruct (reqb_spec (etime e0) EVENTNULL) as [(_ & F')|(-> & _)]; [unfold EVENTNULL in F'; lra|]. cbn [obind].
    intros X. injection X as <-. cbn [lsim] in F. congruence.
Qed.
Print Assumptions C78_event_found_partial.

(** no event up to the first barrier: the barrier is moved to the time 0, the list stays empty, its first event is
    dereferenced *)
Lemma empty_first_pass g what walls ids sph0 b barrier0 em tm timeout late :
  packing g what walls ids sph0 -> add_spheres g (map sph0 ids) walls = Ok b -> 0 < tm -> timeout O = false ->
  (forall s, sph s = sph0 -> forall c c1 c2 t, ingrid g c ->
     (In c1 ids \/ exists k, (k < 6)%nat /\ what c1 = OWall (wallof g c k)) ->
     (In c2 ids \/ exists k, (k < 6)%nat /\ what c2 = OWall (wallof g c k)) ->
     predict what s c1 c2 = Ok t -> 0 <= t -> barrier0 < t /\ 0 < t /\ (late O = true -> 11 / 10 < t)) ->
  exists L0, start what (num_boxes g) barrier0 (initial_sim (num_boxes g) sph0 b) = Ok L0 /\
    passes what (num_boxes g) em tm timeout late 1 L0 = UB.
Proof.
  intros PK AD Htm Ht H. pose proof (pk_grid _ _ _ _ _ PK) as OK. pose proof (pk_sphere _ _ _ _ _ PK) as SPH.
  destruct (packing_start _ _ _ _ _ b barrier0 PK AD) as (L0 & E & HL & S1 & S2 & S3 & S4 & S5). exists L0. split; auto.
  assert (Nil: forall s T, inv g what ids s T -> sph s = sph0 -> (bar s = barrier0 \/ bar s = 0 \/ late O = true /\ bar s = 11 / 10) -> evs s = []).
  { intros s T (P & _ & So & _) Es Hb. destruct (evs s) as [|e l] eqn:El; auto. exfalso.
    destruct (So e ltac:(rewrite El; left; auto)) as ((c & G & A1 & A2) & Pe & Ge).
    destruct (H s Es c (esnd e) (efst e) (etime e) G) as (X & Y & Z0); auto; try (apply (p_cont _ _ _ _ _ P); auto); try lra.
    destruct Hb as [Hb|[Hb|(Hl & Hb)]]; [lra|lra|]. specialize (Z0 Hl). lra. }
  cbn [passes obind]. rewrite pass_prepare, Ht. cbn [orb]. rewrite S2.
  destruct (rltb_spec 0 tm) as [(-> & _)|(_ & F)]; [|lra]. cbn [negb].
  pose proof HL as (I0 & _). assert (E0: evs (lsim L0) = []) by (apply (Nil _ _ I0 S1); auto).
  assert (Hr: forall f L, prepared g what ids L0 L -> (lold L + f * (lold L - lreset L) = 0 \/ late O = true /\ lold L + f * (lold L - lreset L) = 11 / 10) ->
            exists L2, reset what (num_boxes g) f L = Ok L2 /\
            prepared g what ids L0 L2 /\ evs (lsim L2) = [] /\ lold L2 = lold L /\ lreset L2 = -1).
  { intros f L (I & A & B) C. unfold reset.
    destruct (set_barrier_ok g what ids OK SPH (lsim L) (lglobal L0) (lold L + f * (lold L - lreset L)) (proj1 I)) as (s' & -> & I' & X1 & _ & _ & X2).
    cbn [omap]. eexists. split; [reflexivity|]. cbn [lsim lold lreset lglobal].
    assert (En: evs s' = []) by (apply (Nil _ _ I'); [congruence|rewrite X2; tauto]).
    unfold next_time. rewrite En. split; [split; [exact I'|]; split; [cbn [lsim]; congruence|cbn [lsim lglobal]; unfold next_time; rewrite En; reflexivity]|auto]. }
  unfold prepare. cbv zeta.
  assert (F1: reqb (lglobal (fetch L0)) EVENTNULL = true).
  { unfold fetch, next_time. rewrite E0. cbn [lglobal]. destruct (reqb_spec EVENTNULL EVENTNULL) as [(-> & _)|(_ & F)]; [auto|contradiction]. }
  rewrite F1. destruct (Hr 10 (fetch L0) (fetch_ok _ _ _ _ _ HL)) as (L2 & -> & P2 & N2 & O2 & R2).
  { left. unfold fetch. cbn [lold lreset]. rewrite S3, S4. ring. }
  cbn [obind]. unfold fetch in O2. cbn [lold] in O2.
  assert (Last: exists L3, (if late O then reset what (num_boxes g) (11 / 10) L2 else Ok L2) = Ok L3 /\ evs (lsim L3) = []).
  { destruct (late O) eqn:El; [|eauto]. destruct (Hr (11/10) L2 P2) as (L3 & E3 & _ & N3 & _); [|eauto].
    right. split; [auto|]. rewrite O2, R2, S3. field. }
  destruct Last as (L3 & -> & N3). cbn [obind]. unfold perform_next. rewrite N3. reflexivity.
Qed.

Lemma dgap_rest a up s : svel s = V3 0 0 0 -> sgrow s = 0 -> dgap a up s = 0.
Proof.
  intros E1 E2. unfold dgap. rewrite E1, E2. destruct a as [|[|a]], up; cbn [vnth vx vy vz]; ring.
Qed.
Lemma drest_rest a up s : svel s = V3 0 0 0 -> sgrow s = 0 -> drest a up s = 0.
Proof.
  intros E1 E2. unfold drest. rewrite E1, E2. destruct a as [|[|a]], up; cbn [vnth vx vy vz]; ring.
Qed.
Lemma reqb_same x : reqb x x = true.
Proof. destruct (reqb_spec x x) as [(-> & _)|(_ & F)]; [reflexivity|contradiction]. Qed.

(** Spheres that neither move nor grow: for every packing of such spheres, every barrier and every positive time to
    simulate, the first pass dereferences the first event of an empty list. *)
Theorem C78_resting_spheres_refuted : forall g what walls ids sph0 b barrier0 events_max time_max timeout late,
  packing g what walls ids sph0 -> add_spheres g (map sph0 ids) walls = Ok b -> 0 < time_max -> timeout O = false ->
  (forall i, In i ids -> svel (sph0 i) = V3 0 0 0 /\ sgrow (sph0 i) = 0) ->
  exists L0, start what (num_boxes g) barrier0 (initial_sim (num_boxes g) sph0 b) = Ok L0 /\
    passes what (num_boxes g) events_max time_max timeout late 1 L0 = UB.
Proof.
  intros g what walls ids sph0 b barrier0 em tm timeout late PK AD Htm Ht Rest.
  eapply empty_first_pass; eauto. intros s Es c c1 c2 t G K1 K2 Hp Hge. exfalso.
  pose proof (pk_sphere _ _ _ _ _ PK) as SPH.
  assert (W: forall k i, (k < 6)%nat -> In i ids -> predict_box_wall s (wallof g c k) i = Ok t -> False).
  { intros k i Hk Hi. destruct (side_cases k Hk) as (a & up & Ha & ->). destruct (Rest i Hi) as (Rv & Rg).
    destruct (wall_values g c a up (sph s i) Ha) as (V1 & V2 & V3). unfold predict_box_wall, predict_wall, predict_virtual.
    assert (D1: dgap a up (sph s i) = 0) by (rewrite Es; apply dgap_rest; auto).
    assert (D2: drest a up (sph s i) = 0) by (rewrite Es; apply drest_rest; auto).
    destruct (bw_kind _).
    - rewrite V1. cbn [obind]. unfold wall_time. rewrite D1, reqb_same. destruct (andb _ _); intros X; injection X as <-; unfold EVENTNULL in Hge; lra.
    - destruct (in_outside _ _ _); [rewrite V3, D2|rewrite V2, D1]; cbn [obind]; unfold virtual_time; rewrite reqb_same;
        (destruct (rltb 0 0); intros X; injection X as <-; unfold EVENTNULL in Hge; lra). }
  unfold predict in Hp. destruct K1 as [I1|(k1 & L1 & W1)], K2 as [I2|(k2 & L2 & W2)].
  - rewrite (SPH c1 I1), (SPH c2 I2) in Hp. rewrite Es in Hp.
    destruct (Rest c1 I1) as (Rv1 & Rg1). destruct (Rest c2 I2) as (Rv2 & Rg2).
    destruct (Z.eq_dec (sid (sph0 c2)) (sid (sph0 c1))) as [Eq|Ne].
    { unfold predict_spheres in Hp. rewrite Eq, Z.eqb_refl in Hp. injection Hp as <-. unfold EVENTNULL in Hge. lra. }
    assert (PO: forall x y, svel x = V3 0 0 0 -> svel y = V3 0 0 0 -> sgrow x = 0 -> sgrow y = 0 -> predict_ordered x y = Ok t -> False).
    { intros x y X1 X2 X3 X4. unfold predict_ordered. cbv zeta.
      assert (Qa: qa x y = 0) by (unfold qa; rewrite X1, X2, X3, X4; vec; ring).
      assert (Qb: qb x y = 0) by (unfold qb; rewrite X1, X2, X3, X4; vec; ring).
      rewrite Qa, Qb. destruct (rltb (qc x y) _); [discriminate|]. destruct (rltb _ (- tenm 12)).
      - intros X; injection X as <-; unfold EVENTNULL in Hge; lra.
      - destruct (rltb_spec 0 0) as [(_ & F)|(-> & _)]; [lra|]. intros X; injection X as <-; unfold EVENTNULL in Hge; lra. }
    rewrite predict_is_ordered in Hp by auto. destruct (rltb _ _); eapply PO; [..|exact Hp| | | | |exact Hp]; auto.
  - rewrite (SPH c1 I1), W2 in Hp. eapply W; [..|exact Hp]; auto.
  - rewrite (SPH c2 I2), W1 in Hp. eapply W; [..|exact Hp]; auto.
  - rewrite W1, W2 in Hp. injection Hp as <-. lra.
Qed.
Print Assumptions C78_resting_spheres_refuted.

Example C78_resting_example : forall b0 em tm timeout late, 0 < tm -> timeout O = false -> exists b L0,
  add_spheres ex_grid (map (ex_spheres (V3 0 0 0) (V3 0 0 0) 0 0) [100; 101]%Z) ex_walls = Ok b /\
  start ex_what (num_boxes ex_grid) b0 (initial_sim (num_boxes ex_grid) (ex_spheres (V3 0 0 0) (V3 0 0 0) 0 0) b) = Ok L0 /\
  passes ex_what (num_boxes ex_grid) em tm timeout late 1 L0 = UB.
Proof.
  intros b0 em tm timeout late H1 H2.
  pose proof (C61_packing_example (V3 0 0 0) (V3 0 0 0) 0 0 (Rle_refl 0) (Rle_refl 0)) as PK.
  destruct (packing_added _ _ _ _ _ PK) as (b & AD).
  destruct (C78_resting_spheres_refuted _ _ _ _ _ b b0 em tm timeout late PK AD H1 H2) as (L0 & E1 & E2).
  - intros i [<-|[<-|[]]]; split; reflexivity.
  - exists b, L0. auto.
Qed.

(** A moving sphere and an initial barrier before its first collision: one sphere in one box, speed 1, the wall at the
    distance 1 (a collision at the time 1), the barrier at 1/2. *)
Definition one_grid : grid := mkGrid 1 1 1 (V3 0 0 0) 4 4 4.
Definition one_what (d : Z) : object := if Z.ltb d 6 then OWall (build_wall one_grid 0 0 0 (Z.to_nat d)) else OSphere.
Definition one_walls (k : Z) : list Z := [0; 1; 2; 3; 4; 5]%Z.
Definition one_sphere (i : Z) : sphere := new_sphere 100 (V3 2 2 2) (V3 1 0 0) 1 0.
Lemma one_packing : packing one_grid one_what one_walls [100]%Z one_sphere.
Proof.
  constructor.
  - cbn [one_grid gnx gny gnz ghx ghy ghz]. repeat split; try lia; lra.
  - intros x y z Hx Hy Hz. cbn [one_grid gnx gny gnz] in *. assert (x = 0%Z) by lia. assert (y = 0%Z) by lia. assert (z = 0%Z) by lia. subst. reflexivity.
  - constructor; [intros []|constructor].
  - intros i [<-|[]]; reflexivity.
  - intros i [<-|[]]; unfold one_sphere; do 4 eexists; (split; [reflexivity|lra]).
  - intros i a [<-|[]] Ha; unfold one_sphere, lo, hi, centre_at, radius_at, plane;
      destruct a as [|[|[|a]]]; try lia; cbn [vnth vadd smul vx vy vz new_sphere spos svel stime srad sgrow gn gh gnx gny gnz ghx ghy ghz gorg one_grid]; lra.
  - intros i j [<-|[]] [<-|[]] Hij. contradiction.
Qed.
Theorem C78_early_barrier_refuted : forall events_max time_max timeout late,
  0 < time_max -> timeout O = false -> late O = false ->
  exists b L0, add_spheres one_grid [one_sphere 100] one_walls = Ok b /\
    start one_what (num_boxes one_grid) (1/2) (initial_sim (num_boxes one_grid) one_sphere b) = Ok L0 /\
    predict one_what (lsim L0) 100 1 = Ok 1 /\
    passes one_what (num_boxes one_grid) events_max time_max timeout late 1 L0 = UB.
Proof.
  intros em tm timeout late H1 H2 H3. destruct (packing_added _ _ _ _ _ one_packing) as (b & AD).
  assert (Gap: forall a up, (a < 3)%nat -> gap one_grid (0,0,0)%Z a up (one_sphere 100) 0 = 1).
  { intros a up Ha. unfold gap, lo, hi, centre_at, radius_at, plane, one_sphere. destruct a as [|[|[|a]]], up; try lia;
      cbn [vnth vadd smul vx vy vz new_sphere spos svel stime srad sgrow gh ghx ghy ghz gorg one_grid co Z.add]; lra. }
  assert (Spl: forall s k, sph s = one_sphere -> (k < 6)%nat -> predict_box_wall s (wallof one_grid (0,0,0)%Z k) 100 = Ok (if Nat.eqb k 1 then 1 else -1)).
  { intros s k Es Hk. assert (Kd: bw_kind (wallof one_grid (0,0,0)%Z k) = Physical).
    { destruct k as [|[|[|[|[|[|k]]]]]]; try lia; reflexivity. }
    unfold predict_box_wall. rewrite Kd. destruct (side_cases k Hk) as (a & up & Ha & ->).
    destruct (wall_values one_grid (0,0,0)%Z a up (sph s 100) Ha) as (V1 & _). unfold predict_wall. rewrite V1, Es. cbn [obind].
    change (stime (one_sphere 100)) with 0. rewrite Gap by auto. unfold wall_time. change (stime (one_sphere 100)) with 0.
    destruct (rltb_spec 1 (tenm 15)) as [(_ & F)|(-> & _)].
    { exfalso. revert F. unfold tenm. assert (/ 10 ^ 15 <= / 1); [apply Rinv_le_contravar; [lra|apply pow_R1_Rle; lra]|]. rewrite Rinv_1 in *. lra. }
    cbn [andb]. unfold dgap, one_sphere. destruct a as [|[|[|a]]]; try lia; destruct up; cbn [vnth new_sphere svel sgrow vx vy vz side Nat.mul Nat.add Nat.eqb];
    match goal with |- context [reqb ?u 0] => destruct (reqb_spec u 0) as [(-> & F)|(-> & F)]; try lra end; try reflexivity; cbv zeta.
    - match goal with |- context [rleb 0 ?u] => destruct (rleb_spec 0 u) as [(-> & F')|(-> & F')] end; [f_equal; field|exfalso; replace (- (1) / (- (1) - 0)) with 1 in F' by field; lra].
    - match goal with |- context [rleb 0 ?u] => destruct (rleb_spec 0 u) as [(-> & F')|(-> & F')] end; [exfalso; replace (- (1) / (1 - 0)) with (-1) in F' by field; lra|reflexivity]. }
  destruct (empty_first_pass one_grid one_what one_walls [100]%Z one_sphere b (1/2) em tm timeout late one_packing AD H1 H2) as (L0 & E1 & E2).
  - intros s Es c c1 c2 t G K1 K2 Hp Hge. rewrite H3.
    assert (c = (0,0,0)%Z).
    { destruct c as [[x y] z]. apply ingrid_in_grid in G. destruct G as (A & B & C). cbn [one_grid gnx gny gnz] in *. repeat f_equal; lia. }
    subst c.
    assert (T: t = 1 -> 1 / 2 < t /\ 0 < t /\ (false = true -> 11 / 10 < t)) by (intros ->; split; [lra|]; split; [lra|discriminate]).
    assert (W: forall k, (k < 6)%nat -> Ok (if Nat.eqb k 1 then 1 else -1) = Ok t -> t = 1).
    { intros k _ X. injection X as <-. destruct (Nat.eqb k 1); lra. }
    apply T. unfold predict in Hp.
    destruct K1 as [[<-|[]]|(k1 & L1 & W1)], K2 as [[<-|[]]|(k2 & L2 & W2)].
    + change (one_what 100) with OSphere in Hp. cbn iota in Hp. unfold predict_spheres in Hp. rewrite Z.eqb_refl in Hp. injection Hp as <-. unfold EVENTNULL in Hge. lra.
    + rewrite W2 in Hp. change (one_what 100) with OSphere in Hp. cbn iota in Hp. rewrite Spl in Hp by auto. apply (W k2); auto.
    + rewrite W1 in Hp. change (one_what 100) with OSphere in Hp. cbn iota in Hp. rewrite Spl in Hp by auto. apply (W k1); auto.
    + rewrite W1, W2 in Hp. injection Hp as <-. lra.
  - exists b, L0. split; [exact AD|]. split; [auto|]. split; [|auto].
    destruct (packing_start _ _ _ _ _ b (1/2) one_packing AD) as (L1 & X1 & _ & X2 & _). rewrite E1 in X1. injection X1 as <-.
    unfold predict. change (one_what 100) with OSphere. change (one_what 1) with (OWall (wallof one_grid (0,0,0)%Z 1)). cbn iota.
    rewrite Spl by (auto; lia). reflexivity.
Qed.
Print Assumptions C78_early_barrier_refuted.
