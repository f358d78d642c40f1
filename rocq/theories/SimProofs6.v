(** The loop of Simulate. *)
From Coq Require Import Reals ZArith List Bool Lia Lra Psatz.
From Verif Require Import Outcome AdaptiveModel AdaptiveProofs Vec3 CollisionModel CollisionSpec CollisionProofs CollisionProofs2
  PropCollision EventModel EventSpec EventProofs SubBoxModel SubBoxSpec SubBoxProofs SimModel SimSpec SimProofs SimProofs2 SimProofs3 SimProofs4 SimProofs5.
Import ListNotations.
Local Open Scope R_scope.

Section Start.
  Variables (g : grid) (what : Z -> object) (walls : boxes) (ids : list Z) (sph0 : Z -> sphere) (b : boxes).
  Hypothesis PK : packing g what walls ids sph0.
  Hypothesis AD : add_spheres g (map sph0 ids) walls = Ok b.

  Lemma start_grid : gridok g.
  Proof. exact (pk_grid _ _ _ _ _ PK). Qed.
  Lemma start_walls x y z d : in_grid g x y z -> In d (walls (box_index g x y z)) -> exists k, (k < 6)%nat /\ what d = OWall (build_wall g x y z k).
  Proof.
    intros (A & B & C) H. pose proof (pk_walls _ _ _ _ _ PK x y z A B C) as E. apply (in_map what) in H. rewrite E in H.
    apply in_map_iff in H. destruct H as (w & Ew & Hw). unfold build_walls in Hw. apply in_map_iff in Hw. destruct Hw as (k & <- & Hk).
    apply in_seq in Hk. exists k. split; [lia|auto].
  Qed.
  Lemma start_walls_all x y z k : in_grid g x y z -> (k < 6)%nat -> exists d, In d (walls (box_index g x y z)) /\ what d = OWall (build_wall g x y z k).
  Proof.
    intros (A & B & C) Hk. pose proof (pk_walls _ _ _ _ _ PK x y z A B C) as E.
    assert (H: In (OWall (build_wall g x y z k)) (map what (walls (box_index g x y z)))).
    { rewrite E. apply in_map. unfold build_walls. apply in_map. apply in_seq. lia. }
    apply in_map_iff in H. destruct H as (d & E' & Hd). eauto.
  Qed.

  Lemma start_content x y z d : in_grid g x y z -> (In d (b (box_index g x y z)) <->
    In d (walls (box_index g x y z)) \/ (In d ids /\ meets g (sph0 d) x y z)).
  Proof.
    intros G. destruct (add_spheres_ok g (map sph0 ids) walls start_grid) as (b' & E & _ & H).
    - intros s Hs. apply in_map_iff in Hs. destruct Hs as (i & <- & Hi).
      destruct (pk_new _ _ _ _ _ PK i Hi) as (p & v & r & gr & E & Hr & Hg).
      assert (I: forall a, (a < 3)%nat -> plane g a 0 <= lo (sph0 i) (stime (sph0 i)) a /\ hi (sph0 i) (stime (sph0 i)) a < plane g a (gn g a)).
      { intros a Ha. replace (stime (sph0 i)) with 0 by (rewrite E; reflexivity). apply (pk_inside _ _ _ _ _ PK i a Hi Ha). }
      split; [rewrite E; cbn [new_sphere srad]; lra|].
      pose proof (I 0%nat ltac:(lia)) as I0. pose proof (I 1%nat ltac:(lia)) as I1. pose proof (I 2%nat ltac:(lia)) as I2.
      rewrite lo_now, hi_now in I0, I1, I2. unfold plane in *. cbn [vnth gh gn] in *.
      unfold fits, axis_fits. lra.
    - intros k Hk. destruct (box_index_surj g k start_grid Hk) as (x' & y' & z' & G' & <-).
      destruct (start_walls_all x' y' z' 0%nat G' ltac:(lia)) as (d' & Hd & _). intros F. rewrite F in Hd. destruct Hd.
    - assert (b' = b) by congruence. subst b'. rewrite H by auto. split; intros [K|K]; auto; right.
      + destruct K as (s & Hs & Es & M). apply in_map_iff in Hs. destruct Hs as (i & <- & Hi).
        destruct (pk_new _ _ _ _ _ PK i Hi) as (p & v & r & gr & E' & _).
        assert (Ei: sid (sph0 i) = i) by (rewrite E'; reflexivity). rewrite Ei in Es. subst d. auto.
      + destruct K as (Hd & M). exists (sph0 d). split; [apply in_map; auto|]. split; auto.
        destruct (pk_new _ _ _ _ _ PK d Hd) as (p & v & r & gr & E' & _). rewrite E'. reflexivity.
  Qed.

  Lemma start_phys : phys g what ids (initial_sim (num_boxes g) sph0 b) 0.
  Proof.
    assert (N: forall i, In i ids -> exists p v r gr, sph0 i = new_sphere i p v r gr /\ 0 < r /\ 0 <= gr) by (intros; apply (pk_new _ _ _ _ _ PK); auto).
    assert (T0: forall i, In i ids -> stime (sph0 i) = 0) by (intros i Hi; destruct (N i Hi) as (p & v & r & gr & -> & _); reflexivity).
    unfold initial_sim. constructor; cbn [sph content inboxes].
    - intros i Hi. destruct (N i Hi) as (p & v & r & gr & -> & _). reflexivity.
    - intros i Hi. rewrite T0 by auto. lra.
    - intros i Hi. destruct (N i Hi) as (p & v & r & gr & -> & A & B). split; auto.
    - intros i Hi. destruct (N i Hi) as (p & v & r & gr & -> & A & B). cbn [new_sphere srad sradG sgrow stime sreset]. ring.
    - intros i Hi a Ha. rewrite T0 by auto. destruct (pk_inside _ _ _ _ _ PK i a Hi Ha). lra.
    - intros i c Hi G H. rewrite T0 in H by auto. destruct c as [[x y] z]. cbn [idx]. apply ingrid_in_grid in G.
      apply start_content; auto. right. split; auto.
      assert (H': forall a, (a < 3)%nat -> plane g a (co (x, y, z) a) < vnth (spos (sph0 i)) a + srad (sph0 i) /\
                 vnth (spos (sph0 i)) a - srad (sph0 i) < plane g a (co (x, y, z) a + 1)).
      { intros a Ha. rewrite <- hi_now, <- lo_now, T0 by auto. apply (H a Ha). }
      pose proof (H' 0%nat ltac:(lia)) as I0. pose proof (H' 1%nat ltac:(lia)) as I1. pose proof (H' 2%nat ltac:(lia)) as I2.
      unfold plane in I0, I1, I2. cbn [vnth gh gn co] in I0, I1, I2. rewrite plus_IZR in I0, I1, I2.
      destruct start_grid as (_ & _ & _ & X & Y & Z0).
      assert (R0: 0 <= srad (sph0 i)) by (destruct (N i Hi) as (p & v & r & gr & -> & A & _); cbn [new_sphere srad]; lra).
      destruct (proj1 (cube_axis _ _ _ _ x X R0) (conj (Rlt_le _ _ (proj1 I0)) (proj2 I0))) as (p0 & A0 & B0).
      destruct (proj1 (cube_axis _ _ _ _ y Y R0) (conj (Rlt_le _ _ (proj1 I1)) (proj2 I1))) as (p1 & A1 & B1).
      destruct (proj1 (cube_axis _ _ _ _ z Z0 R0) (conj (Rlt_le _ _ (proj1 I2)) (proj2 I2))) as (p2 & A2 & B2).
      exists (V3 p0 p1 p2). split; [exact (conj A0 (conj A1 A2))|exact (conj B0 (conj B1 B2))].
    - intros i j Hi Hj Hij. unfold pair_now. rewrite !T0, Rmax_left by (auto; lra). apply (pk_apart _ _ _ _ _ PK); auto.
    - intros i c Hi G. unfold boxes_with. rewrite filter_In, existsb_exists, zrange_In. pose proof (idx_range g c G). split.
      + intros (_ & d & Hd & E). apply Z.eqb_eq in E. subst d. auto.
      + intros Hd. split; [lia|]. exists i. split; auto. apply Z.eqb_refl.
    - intros i k Hi Hk. unfold boxes_with in Hk. apply filter_In in Hk. destruct Hk as (Hk & _). apply (in_range g start_grid) in Hk. exact Hk.
    - intros c d G Hd. destruct c as [[x y] z]. apply ingrid_in_grid in G. cbn [idx wallof] in *. apply start_content in Hd; auto.
      destruct Hd as [Hd|(Hd & _)]; [right; apply start_walls; auto|auto].
    - intros c k G Hk. destruct c as [[x y] z]. apply ingrid_in_grid in G. cbn [idx wallof] in *.
      destruct (start_walls_all x y z k G Hk) as (d & Hd & W). exists d. split; auto. apply start_content; auto.
    - intros c1 c2 t _ _. destruct (Rlt_or_le t 0); auto.
  Qed.
End Start.

Section Loop.
  Variable g : grid.
  Variable what : Z -> object.
  Variable ids : list Z.
  Hypothesis OK : gridok g.
  Hypothesis SPH : forall i, In i ids -> what i = OSphere.
  Variable sph0 : Z -> sphere.
  Variable events_max : Z.
  Variable time_max : R.

  (** the radius law is never changed *)
  Definition kept (s : sim) : Prop := forall i, In i ids ->
    sradG (sph s i) = sradG (sph0 i) /\ sreset (sph s i) = sreset (sph0 i) /\ sgrow (sph s i) = sgrow (sph0 i).
  Definition linv (L : loop) : Prop := inv g what ids (lsim L) (lglobal L) /\ kept (lsim L) /\ 0 <= lglobal L.

  Definition quiet (L L' : loop) : Prop :=
    lglobal L <= lglobal L' /\
    (forall t, lglobal L <= t <= lglobal L' ->
       (forall i j, In i ids -> In j ids -> i <> j -> ~ overlap_at (sph (lsim L) i) (sph (lsim L) j) t) /\
       (forall i, In i ids -> in_container g (sph (lsim L) i) t)) /\
    (forall i, In i ids -> centre_at (sph (lsim L') i) (lglobal L') = centre_at (sph (lsim L) i) (lglobal L') /\
                           radius_at (sph (lsim L') i) (lglobal L') = radius_at (sph (lsim L) i) (lglobal L')).

  (** the preparation of a pass: the same spheres, a rebuilt list or the old one *)
  Definition prepared (L L2 : loop) : Prop :=
    inv g what ids (lsim L2) (lglobal L) /\ sph (lsim L2) = sph (lsim L) /\ lglobal L2 = next_time (lsim L2).

  Lemma fetch_ok L : linv L -> prepared L (fetch L).
  Proof. intros (I & _). split; [exact I|]. split; reflexivity. Qed.
  Lemma reset_ok f L L1 : prepared L L1 -> exists L2, reset what (num_boxes g) f L1 = Ok L2 /\ prepared L L2.
  Proof.
    intros (I & S1 & _). unfold reset. destruct (set_barrier_ok g what ids OK SPH (lsim L1) (lglobal L) (lold L1 + f * (lold L1 - lreset L1)) (proj1 I))
      as (s' & E & I' & S2 & _). rewrite E. cbn [omap]. eexists. split; [reflexivity|]. split; [exact I'|]. cbn [lsim lglobal].
    split; [congruence|reflexivity].
  Qed.
  Definition prepare (late : bool) (L : loop) : outcome loop :=
    obind (let L1 := fetch L in if reqb (lglobal L1) EVENTNULL then reset what (num_boxes g) 10 L1 else Ok L1) (fun L1 =>
      if late then reset what (num_boxes g) (11 / 10) L1 else Ok L1).
  Lemma prepare_ok late L : linv L -> exists L2, prepare late L = Ok L2 /\ prepared L L2.
  Proof.
    intros H. unfold prepare. cbn zeta. pose proof (fetch_ok L H) as P.
    assert (H1: exists L1, (if reqb (lglobal (fetch L)) EVENTNULL then reset what (num_boxes g) 10 (fetch L) else Ok (fetch L)) = Ok L1 /\ prepared L L1).
    { destruct (reqb _ _); [apply reset_ok; auto|eauto]. }
    destruct H1 as (L1 & -> & P1). cbn [obind]. destruct late; [apply reset_ok; auto|eauto].
  Qed.
  Lemma pass_prepare timeout late L : pass what (num_boxes g) events_max time_max timeout late L =
    if orb timeout (negb (rltb (lglobal L) time_max)) then Ok (Stopped, L)
    else obind (prepare late L) (fun L2 => obind (perform_next what (lsim L2)) (fun s =>
      let near := rltb (lglobal L2 - lnochange L2) (tenm 6) in
      let count := if near then (lcount L2 + 1)%Z else 0%Z in
      if andb near (Z.ltb events_max count)
      then Ok (Failed, mkLoop s (lglobal L2) (lold L2) (lreset L2) count (lnochange L2))
      else Ok (Running, mkLoop s (lglobal L2) (lglobal L2) (lreset L2) count (if near then lnochange L2 else lglobal L2)))).
  Proof.
    unfold pass, prepare. destruct (orb _ _); [reflexivity|].
    destruct (let L1 := fetch L in if reqb (lglobal L1) EVENTNULL then reset what (num_boxes g) 10 L1 else Ok L1); reflexivity.
  Qed.

  (** one pass: it ends the loop, performs an event, or finds no event at all *)
  Lemma pass_ok timeout late L : linv L ->
    (exists st L', pass what (num_boxes g) events_max time_max timeout late L = Ok (st, L') /\ linv L' /\ quiet L L') \/
    (pass what (num_boxes g) events_max time_max timeout late L = UB /\
     exists L2, prepare late L = Ok L2 /\ evs (lsim L2) = []).
  Proof.
    intros HL. pose proof HL as (I0 & K & H0). rewrite pass_prepare.
    assert (Now: forall t, lglobal L <= t <= lglobal L -> t = lglobal L) by (intros; lra).
    destruct (orb _ _).
    { left. exists Stopped, L. split; auto. split; auto. 
      assert (PC: forall i, In i ids -> stime (sph (lsim L) i) <= lglobal L) by (intros i Hi; apply (p_clock _ _ _ _ _ (proj1 I0) i Hi)).
      (* rebuild the list with a barrier at the present time to use the statements about the next interval *)
      destruct (set_barrier_ok g what ids OK SPH (lsim L) (lglobal L) (lglobal L) (proj1 I0)) as (s' & _ & (P' & C' & So' & _) & E1 & _ & _ & E2).
      assert (Hev: forall e, In e (evs s') -> lglobal L <= etime e).
      { intros e He. destruct (So' e He) as (A & B & D). destruct (p_pred _ _ _ _ _ P' (esnd e) (efst e) (etime e)) as [F|F]; auto; [|lra].
        destruct A as (c & G & X & Y). exists c. auto. }
      split; [lra|]. split; [|auto]. intros t Ht. rewrite (Now t Ht). rewrite <- E1. rewrite <- E1 in PC. split.
      - intros i j Hi Hj Hij. apply (apart_between g what ids OK SPH s' (lglobal L) (lglobal L) i j); auto; [lra|].
        split; [|lra]. unfold pair_now. apply Rmax_lub; auto.
      - intros i Hi. apply (stays_inside g what ids OK SPH s' (lglobal L) (lglobal L) i); auto; [lra|]. split; [auto|lra]. }
    destruct (prepare_ok late L HL) as (L2 & E & (I2 & S2 & N2)). rewrite E. cbn [obind].
    destruct (evs (lsim L2)) as [|e l] eqn:El.
    { right. split; [unfold perform_next; rewrite El; reflexivity|]. eauto. }
    destruct (perform_next_ok g what ids OK SPH (lsim L2) (lglobal L) e l I2 El) as (HT & s' & E' & I' & M & _). rewrite E'. cbn [obind]. cbn zeta.
    assert (Nt: lglobal L2 = etime e) by (rewrite N2; unfold next_time; rewrite El; reflexivity).
    assert (Hk: kept s').
    { intros i Hi. destruct (K i Hi) as (A & B & D). rewrite S2 in M. destruct (M i Hi) as [->|(_ & _ & _ & _ & -> & -> & ->)]; auto. }
    assert (Hq: forall L', lsim L' = s' -> lglobal L' = lglobal L2 -> linv L' /\ quiet L L').
    { intros L' E1 E2. split; [split; [rewrite E1, E2, Nt; auto|split; [rewrite E1; auto|lra]]|].
      unfold quiet. rewrite E1, E2, Nt. split; auto.
      pose proof I2 as (P2 & C2 & So2 & Or2).
      assert (Hev: forall x, In x (evs (lsim L2)) -> etime e <= etime x) by (rewrite El in *; apply ordered_times; auto).
      assert (Hb: etime e <= bar (lsim L2)) by (apply (So2 e); rewrite El; left; auto).
      rewrite <- S2. split.
      - intros t Ht. split.
        + intros i j Hi Hj Hij. apply (apart_between g what ids OK SPH (lsim L2) (lglobal L) (etime e) i j); auto. split; [|lra].
          unfold pair_now. pose proof (p_clock _ _ _ _ _ P2 i Hi). pose proof (p_clock _ _ _ _ _ P2 j Hj). apply Rmax_lub; lra.
        + intros i Hi. pose proof (p_clock _ _ _ _ _ P2 i Hi). apply (stays_inside g what ids OK SPH (lsim L2) (lglobal L) (etime e) i); auto. lra.
      - intros i Hi. destruct (M i Hi) as [->|Mi]; auto. split; [apply moved_centre|apply moved_radius]; auto. }
    left. destruct (andb _ _); do 2 eexists; (split; [reflexivity|]); eapply Hq; reflexivity.
  Qed.

  Lemma passes_ok timeout late L0 : linv L0 -> forall n,
    (exists st L, passes what (num_boxes g) events_max time_max timeout late n L0 = Ok (st, L) /\ linv L) \/
    passes what (num_boxes g) events_max time_max timeout late n L0 = UB.
  Proof.
    intros H0. induction n as [|n IH]; cbn [passes]; [left; eauto|].
    destruct IH as [(st & L & E & HL)|E]; rewrite E; cbn [obind]; [|auto].
    destruct st; [|left; eauto|left; eauto].
    destruct (pass_ok (timeout n) (late n) L HL) as [(st & L' & E' & HL' & _)|(E' & _)]; [left; eauto|auto].
  Qed.

  Lemma fold_move t : forall l (s : sim), (forall i, In i l -> In i ids) -> NoDup l ->
    let s' := fold_left (fun s i => move what s i t) l s in
    (forall i, In i l -> sph s' i = move_and_grow (sph s i) t) /\ (forall i, ~ In i l -> sph s' i = sph s i).
  Proof.
    induction l as [|j l IH]; intros s Hl HN; cbn [fold_left]; [split; [intros i []|auto]|].
    inversion HN as [|? ? Hj HN']; subst. destruct (IH (move what s j t) ltac:(intros; apply Hl; right; auto) HN') as (A & B).
    assert (Em: sph (move what s j t) = set_sphere (sph s) j (move_and_grow (sph s j) t)).
    { unfold move, is_sphere. rewrite SPH by (apply Hl; left; auto). reflexivity. }
    cbn zeta. split.
    - intros i [<-|Hi].
      + rewrite B by auto. rewrite Em. apply set_sphere_same.
      + rewrite A by auto. rewrite Em, set_sphere_other; auto. intros ->. contradiction.
    - intros i Hi. rewrite B by (intros F; apply Hi; right; auto). rewrite Em. apply set_sphere_other. intros ->. apply Hi. left. auto.
  Qed.
End Loop.
