(** The invariant of the simulation and what happens between two events. *)
From Coq Require Import Reals ZArith List Bool Lia Lra Psatz.
From Verif Require Import Outcome AdaptiveModel AdaptiveProofs Vec3 CollisionModel CollisionSpec CollisionProofs CollisionProofs2
  PropCollision EventModel EventSpec SubBoxModel SubBoxSpec SubBoxProofs SimModel SimSpec SimProofs.
Import ListNotations.
Local Open Scope R_scope.

Section Inv.
  Variable g : grid.
  Variable what : Z -> object.
  Variable ids : list Z.

  Definition active (s : sim) (c1 c2 : Z) : Prop :=
    exists c, ingrid g c /\ In c1 (content s (idx g c)) /\ In c2 (content s (idx g c)).

  (** everything except the event list *)
  Record phys (s : sim) (T : R) : Prop := {
    p_sid : forall i, In i ids -> sid (sph s i) = i;
    p_clock : forall i, In i ids -> 0 <= stime (sph s i) <= T;
    p_proper : forall i, In i ids -> proper (sph s i);
    p_cons : forall i, In i ids -> srad (sph s i) = sradG (sph s i) + sgrow (sph s i) * (stime (sph s i) - sreset (sph s i));
    p_in : forall i, In i ids -> in_container g (sph s i) (stime (sph s i));
    p_reg : forall i c, In i ids -> ingrid g c -> prod g (sph s i) (stime (sph s i)) c -> In i (content s (idx g c));
    p_no : forall i j, In i ids -> In j ids -> i <> j -> ~ overlap_at (sph s i) (sph s j) (pair_now (sph s i) (sph s j));
    p_coh : forall i c, In i ids -> ingrid g c -> (In (idx g c) (inboxes s i) <-> In i (content s (idx g c)));
    p_box : forall i b, In i ids -> In b (inboxes s i) -> exists c, ingrid g c /\ b = idx g c;
    p_cont : forall c d, ingrid g c -> In d (content s (idx g c)) ->
      In d ids \/ exists k, (k < 6)%nat /\ what d = OWall (wallof g c k);
    p_walls : forall c k, ingrid g c -> (k < 6)%nat -> exists d, In d (content s (idx g c)) /\ what d = OWall (wallof g c k);
    p_pred : forall c1 c2 t, active s c1 c2 -> predict what s c1 c2 = Ok t -> t < 0 \/ T <= t
  }.
  Fixpoint ordered_evs (l : list event) : Prop :=
    match l with [] => True | e :: l' => (forall e', In e' l' -> event_lt e e' = true) /\ ordered_evs l' end.
  Definition complete (s : sim) : Prop := forall c1 c2 t, active s c1 c2 -> predict what s c1 c2 = Ok t -> 0 <= t <= bar s ->
    exists e, In e (evs s) /\ same_event e (mkEvent t c2 c1).
  Definition sound (s : sim) : Prop := forall e, In e (evs s) ->
    active s (efst e) (esnd e) /\ predict what s (esnd e) (efst e) = Ok (etime e) /\ 0 <= etime e <= bar s.

  Hypothesis OK : gridok g.
  Hypothesis SPH : forall i, In i ids -> what i = OSphere.

  Lemma in_outside_spec s w i : in_outside s w i = true <-> In (bw_outside w) (inboxes s i).
  Proof.
    unfold in_outside. rewrite existsb_exists. split.
    - intros (b & Hb & E). apply Z.eqb_eq in E. rewrite E. auto.
    - intros H. exists (bw_outside w). split; [auto|apply Z.eqb_refl].
  Qed.

  Lemma pos_radius s T i t : phys s T -> In i ids -> stime (sph s i) <= t -> 0 < radius_at (sph s i) t.
  Proof. intros P Hi Ht. apply radius_pos; auto. apply (p_proper s T P i Hi). Qed.

  (** ** between two events *)
  Section Between.
    Variables (s : sim) (T T' : R) (i : Z).
    Hypothesis P : phys s T.
    Hypothesis C : complete s.
    Hypothesis Hev : forall e, In e (evs s) -> T' <= etime e.
    Hypothesis Hbar : T' <= bar s.
    Hypothesis Hi : In i ids.
    Let S := sph s i.
    Let reg (c : cell) := In i (content s (idx g c)).

    Lemma clock0 : 0 <= stime S.
    Proof. apply (p_clock s T P i Hi). Qed.

    (** no prediction before the next event *)
    Lemma no_early d c r : ingrid g c -> reg c -> In d (content s (idx g c)) -> predict what s i d = Ok r ->
      0 <= r -> r < T' -> False.
    Proof.
      intros Hc Hr Hd E H0 H1.
      destruct (C i d r) as (e & He & (Et & _)); auto; [exists c; auto|lra|].
      apply Hev in He. cbn [etime] in Et. lra.
    Qed.

    Lemma wall_step c a up t : ingrid g c -> (a < 3)%nat -> reg c -> stime S <= t <= T' ->
      0 <= gap g c a up S (stime S) -> gap g c a up S t < 0 ->
      ingrid g (next c a up) /\ reg (next c a up).
    Proof.
      intros Hc Ha Hr Ht Hg Hn.
      destruct (wall_links g c a up OK Hc Ha) as (L1 & L2 & L3).
      destruct (wall_values g c a up S Ha) as (V1 & V2 & V3).
      destruct (cross_time g c a up S t clock0 ltac:(lra) Hg Hn) as (r & E1 & E2 & Hr1).
      destruct (p_walls s T P c (side a up) Hc (side_lt a up Ha)) as (d & Hd & Hw).
      set (w := wallof g c (side a up)) in *. pose proof clock0.
      assert (Hp: predict what s i d = predict_box_wall s w i) by (unfold predict; rewrite (SPH i Hi), Hw; reflexivity).
      unfold predict_box_wall in Hp.
      assert (G: ingrid g (next c a up) \/ ~ ingrid g (next c a up)).
      { unfold ingrid.
        destruct (Z_lt_le_dec (co (next c a up) a) 0) as [Q|Q]; [right; intros F; specialize (F a Ha); lia|].
        destruct (Z_lt_le_dec (co (next c a up) a) (gn g a)) as [Q'|Q']; [left|right; intros F; specialize (F a Ha); lia].
        intros a' Ha'. destruct (Nat.eq_dec a' a) as [->|Ne]; [lia|]. unfold next. rewrite co_setco_other by auto. apply Hc. auto. }
      destruct G as [G|G].
      - split; auto. destruct (L2 G) as (K & O).
        destruct (in_dec Z.eq_dec i (content s (idx g (next c a up)))) as [|N]; auto. exfalso.
        rewrite K in Hp.
        assert (Eo: in_outside s w i = false).
        { destruct (in_outside s w i) eqn:E; auto. apply in_outside_spec in E. rewrite O in E.
          apply (p_coh s T P i _ Hi G) in E. contradiction. }
        rewrite Eo in Hp. unfold predict_virtual in Hp. fold S in Hp. rewrite V2 in Hp. cbn [obind] in Hp. rewrite E2 in Hp.
        apply (no_early d c r); auto; lra.
      - exfalso. rewrite (L3 G) in Hp. unfold predict_wall in Hp. fold S in Hp. rewrite V1 in Hp. cbn [obind] in Hp. rewrite E1 in Hp.
        apply (no_early d c r); auto; lra.
    Qed.

    (** along an axis *)
    Lemma walk_up a t : (a < 3)%nat -> stime S <= t <= T' -> forall n c, ingrid g c -> reg c ->
      hi S (stime S) a <= plane g a (co c a + 1) -> plane g a (co c a + Z.of_nat n) < hi S t a \/ n = O ->
      let c' := setco c a (co c a + Z.of_nat n) in ingrid g c' /\ reg c'.
    Proof.
      intros Ha Ht. induction n as [|n IH]; intros c Hc Hr H1 H2 c'; unfold c'.
      - replace (co c a + Z.of_nat 0)%Z with (co c a) by lia. rewrite setco_same by auto. auto.
      - destruct H2 as [H2|H2]; [|discriminate].
        assert (H3: plane g a (co c a + Z.of_nat n) <= plane g a (co c a + Z.of_nat (Datatypes.S n))) by (apply plane_le; [auto|lia]).
        destruct (IH c Hc Hr H1 ltac:(left; lra)) as (G1 & R1). set (d := setco c a (co c a + Z.of_nat n)) in *.
        assert (Ed: co d a = (co c a + Z.of_nat n)%Z) by (unfold d; apply co_setco; auto).
        destruct (wall_step d a true t G1 Ha R1 Ht) as (G2 & R2).
        + unfold gap. rewrite Ed. assert (plane g a (co c a + 1) <= plane g a (co c a + Z.of_nat n + 1)) by (apply plane_le; [auto|lia]). lra.
        + unfold gap. rewrite Ed. replace (co c a + Z.of_nat n + 1)%Z with (co c a + Z.of_nat (Datatypes.S n))%Z by lia. lra.
        + unfold next in G2, R2. rewrite Ed in G2, R2. unfold d in G2, R2. rewrite setco_setco in G2, R2 by auto.
          replace (co c a + Z.of_nat n + 1)%Z with (co c a + Z.of_nat (Datatypes.S n))%Z in G2, R2 by lia. auto.
    Qed.
    Lemma walk_down a t : (a < 3)%nat -> stime S <= t <= T' -> forall n c, ingrid g c -> reg c ->
      plane g a (co c a) <= lo S (stime S) a -> lo S t a < plane g a (co c a - Z.of_nat n + 1) \/ n = O ->
      let c' := setco c a (co c a - Z.of_nat n) in ingrid g c' /\ reg c'.
    Proof.
      intros Ha Ht. induction n as [|n IH]; intros c Hc Hr H1 H2 c'; unfold c'.
      - replace (co c a - Z.of_nat 0)%Z with (co c a) by lia. rewrite setco_same by auto. auto.
      - destruct H2 as [H2|H2]; [|discriminate].
        assert (H3: plane g a (co c a - Z.of_nat (Datatypes.S n) + 1) <= plane g a (co c a - Z.of_nat n + 1)) by (apply plane_le; [auto|lia]).
        destruct (IH c Hc Hr H1 ltac:(left; lra)) as (G1 & R1). set (d := setco c a (co c a - Z.of_nat n)) in *.
        assert (Ed: co d a = (co c a - Z.of_nat n)%Z) by (unfold d; apply co_setco; auto).
        destruct (wall_step d a false t G1 Ha R1 Ht) as (G2 & R2).
        + unfold gap. rewrite Ed. assert (plane g a (co c a - Z.of_nat n) <= plane g a (co c a)) by (apply plane_le; [auto|lia]). lra.
        + unfold gap. rewrite Ed. replace (co c a - Z.of_nat n)%Z with (co c a - Z.of_nat (Datatypes.S n) + 1)%Z by lia. lra.
        + unfold next in G2, R2. rewrite Ed in G2, R2. unfold d in G2, R2. rewrite setco_setco in G2, R2 by auto.
          replace (co c a - Z.of_nat n + -1)%Z with (co c a - Z.of_nat (Datatypes.S n))%Z in G2, R2 by lia. auto.
    Qed.

    Lemma ends : forall a, (a < 3)%nat ->
      (exists k, (0 <= k < gn g a)%Z /\ plane g a k <= lo S (stime S) a < plane g a (k + 1)) /\
      (exists k, (0 <= k < gn g a)%Z /\ plane g a k < hi S (stime S) a <= plane g a (k + 1)).
    Proof.
      intros a Ha. destruct (p_in s T P i Hi a Ha) as (A & B). fold S in A, B.
      pose proof (pos_radius s T i (stime S) P Hi ltac:(unfold S; lra)). fold S in H.
      pose proof (hi_lo S (stime S) a). split; [apply bottom_cell|apply top_cell]; auto; lra.
    Qed.

    (** a cell that the sphere meets now, with a chosen index per axis *)
    Lemma start_cell (f : nat -> Z) : (forall a, (a < 3)%nat -> (0 <= f a < gn g a)%Z /\
        plane g a (f a) < hi S (stime S) a /\ lo S (stime S) a < plane g a (f a + 1)) ->
      let c := (f 0%nat, f 1%nat, f 2%nat) in ingrid g c /\ reg c /\ forall a, (a < 3)%nat -> co c a = f a.
    Proof.
      intros H c. assert (E: forall a, (a < 3)%nat -> co c a = f a) by (intros a Ha; destruct a as [|[|[|a]]]; [| | |lia]; reflexivity).
      assert (G: ingrid g c) by (intros a Ha; rewrite E by auto; apply H; auto).
      split; auto. split; auto. apply (p_reg s T P i c Hi G). intros a Ha. fold S. rewrite E by auto. apply (H a Ha).
    Qed.

    Lemma stays_inside t : stime S <= t <= T' -> in_container g S t.
    Proof.
      intros Ht a Ha.
      pose proof (pos_radius s T i (stime S) P Hi ltac:(unfold S; lra)) as Hr. fold S in Hr.
      destruct (p_in s T P i Hi a Ha) as (A & B). fold S in A, B. pose proof (hi_lo S (stime S) a) as HL.
      assert (F: forall a, exists k, (a < 3)%nat -> (0 <= k < gn g a)%Z /\
         plane g a k < hi S (stime S) a /\ lo S (stime S) a < plane g a (k + 1)).
      { intros b. destruct (le_lt_dec 3 b) as [L|L]; [exists 0%Z; lia|].
        destruct (ends b L) as (_ & (k & K1 & K2)). exists k. intros _. pose proof (hi_lo S (stime S) b). split; auto. lra. }
      pose proof (F 0%nat) as (k0 & K0). pose proof (F 1%nat) as (k1 & K1). pose proof (F 2%nat) as (k2 & K2).
      set (f0 := fun b => match b with 0%nat => k0 | 1%nat => k1 | _ => k2 end).
      assert (F0: forall b, (b < 3)%nat -> (0 <= f0 b < gn g b)%Z /\
         plane g b (f0 b) < hi S (stime S) b /\ lo S (stime S) b < plane g b (f0 b + 1)).
      { intros b Hb. destruct b as [|[|[|b]]]; [apply K0|apply K1|apply K2|]; lia. }
      destruct (ends a Ha) as ((kb & KB1 & KB2) & (kt & KT1 & KT2)). split.
      - destruct (Rle_or_lt (plane g a 0) (lo S t a)) as [|N]; auto. exfalso.
        set (f := fun b => if Nat.eqb b a then kb else f0 b).
        assert (Ef: f a = kb) by (unfold f; rewrite Nat.eqb_refl; auto).
        destruct (start_cell f) as (G & R0 & E).
        { intros b Hb. unfold f. destruct (Nat.eqb_spec b a) as [->|_]; [|apply F0; auto]. split; [auto|]. lra. }
        set (c := (f 0%nat, f 1%nat, f 2%nat)) in *. specialize (E a Ha). rewrite Ef in E.
        destruct (walk_down a t Ha Ht (Z.to_nat kb) c G R0) as (G' & R').
        { rewrite E. lra. }
        { left. rewrite E, Z2Nat.id by lia. replace (kb - kb + 1)%Z with (0 + 1)%Z by lia. rewrite plane_S. pose proof (gh_pos g a OK). lra. }
        rewrite E, Z2Nat.id in G', R' by lia. replace (kb - kb)%Z with 0%Z in * by lia.
        destruct (wall_step _ a false t G' Ha R' Ht) as (G2 & _).
        { unfold gap. rewrite co_setco by auto. lra. }
        { unfold gap. rewrite co_setco by auto. lra. }
        specialize (G2 a Ha). unfold next in G2. rewrite !co_setco in G2 by auto. lia.
      - destruct (Rle_or_lt (hi S t a) (plane g a (gn g a))) as [|N]; auto. exfalso.
        set (f := fun b => if Nat.eqb b a then kt else f0 b).
        assert (Ef: f a = kt) by (unfold f; rewrite Nat.eqb_refl; auto).
        destruct (start_cell f) as (G & R0 & E).
        { intros b Hb. unfold f. destruct (Nat.eqb_spec b a) as [->|_]; [|apply F0; auto]. split; [auto|]. lra. }
        set (c := (f 0%nat, f 1%nat, f 2%nat)) in *. specialize (E a Ha). rewrite Ef in E.
        pose proof (plane_le g a (gn g a - 1) (gn g a) OK ltac:(lia)) as PL.
        destruct (walk_up a t Ha Ht (Z.to_nat (gn g a - 1 - kt)) c G R0) as (G' & R').
        { rewrite E. lra. }
        { left. rewrite E, Z2Nat.id by lia. replace (kt + (gn g a - 1 - kt))%Z with (gn g a - 1)%Z by lia. lra. }
        rewrite E, Z2Nat.id in G', R' by lia. replace (kt + (gn g a - 1 - kt))%Z with (gn g a - 1)%Z in * by lia.
        destruct (wall_step _ a true t G' Ha R' Ht) as (G2 & _).
        { unfold gap. rewrite co_setco by auto. replace (gn g a - 1 + 1)%Z with (gn g a) by lia. lra. }
        { unfold gap. rewrite co_setco by auto. replace (gn g a - 1 + 1)%Z with (gn g a) by lia. lra. }
        specialize (G2 a Ha). unfold next in G2. rewrite !co_setco in G2 by auto. lia.
    Qed.

    (** the sphere reaches only cells in which it is registered *)
    Lemma approach t X : stime S <= t <= T' -> ingrid g X -> prod g S t X -> forall a c, (a < 3)%nat -> ingrid g c -> reg c ->
      (co c a = co X a \/ (hi S (stime S) a <= plane g a (co c a + 1) /\ (co c a <= co X a)%Z) \/
       (plane g a (co c a) <= lo S (stime S) a /\ (co X a <= co c a)%Z)) ->
      ingrid g (setco c a (co X a)) /\ reg (setco c a (co X a)).
    Proof.
      intros Ht GX PX a c Ha G R0 [E|[(E & L)|(E & L)]]; destruct (PX a Ha) as (P1 & P2).
      - rewrite <- E, setco_same by auto. auto.
      - pose proof (walk_up a t Ha Ht (Z.to_nat (co X a - co c a)) c G R0 E) as W. cbn zeta in W.
        rewrite Z2Nat.id in W by lia. replace (co c a + (co X a - co c a))%Z with (co X a) in W by lia. apply W. left. lra.
      - pose proof (walk_down a t Ha Ht (Z.to_nat (co c a - co X a)) c G R0 E) as W. cbn zeta in W.
        rewrite Z2Nat.id in W by lia. replace (co c a - (co c a - co X a))%Z with (co X a) in W by lia. apply W. left. lra.
    Qed.

    Lemma stays_registered t X : stime S <= t <= T' -> ingrid g X -> prod g S t X -> reg X.
    Proof.
      intros Ht GX PX.
      assert (F: forall a, exists k, (a < 3)%nat -> ((0 <= k < gn g a)%Z /\
         plane g a k < hi S (stime S) a /\ lo S (stime S) a < plane g a (k + 1)) /\
         (k = co X a \/ (hi S (stime S) a <= plane g a (k + 1) /\ (k <= co X a)%Z) \/
          (plane g a k <= lo S (stime S) a /\ (co X a <= k)%Z))).
      { intros a. destruct (le_lt_dec 3 a) as [L|Ha]; [exists 0%Z; lia|].
        pose proof (pos_radius s T i (stime S) P Hi ltac:(unfold S; lra)) as Hr. fold S in Hr.
        pose proof (hi_lo S (stime S) a) as HL. destruct (ends a Ha) as ((kb & KB1 & KB2) & (kt & KT1 & KT2)).
        destruct (Rlt_or_le (plane g a (co X a)) (hi S (stime S) a)) as [A|A].
        - destruct (Rlt_or_le (lo S (stime S) a) (plane g a (co X a + 1))) as [B|B].
          + exists (co X a). intros _. split; [split; [apply GX; auto|auto]|auto].
          + exists kb. intros _. split; [split; [auto|lra]|]. right. right. split; [lra|].
            assert (plane g a (co X a + 1) < plane g a (kb + 1)) by lra. apply plane_lt_inv in H; auto. lia.
        - exists kt. intros _. split; [split; [auto|lra]|]. right. left. split; [lra|].
          assert (plane g a kt < plane g a (co X a)) by lra. apply plane_lt_inv in H; auto. lia. }
      destruct (F 0%nat) as (k0 & K0). destruct (F 1%nat) as (k1 & K1). destruct (F 2%nat) as (k2 & K2).
      destruct (K0 ltac:(lia)) as (A0 & B0). destruct (K1 ltac:(lia)) as (A1 & B1). destruct (K2 ltac:(lia)) as (A2 & B2).
      destruct (start_cell (fun b => match b with 0%nat => k0 | 1%nat => k1 | _ => k2 end)) as (G & R0 & _).
      { intros b Hb. destruct b as [|[|[|b]]]; auto. }
      cbn beta iota in G, R0.
      destruct (approach t X Ht GX PX 0%nat _ ltac:(lia) G R0 B0) as (G1 & R1).
      destruct (approach t X Ht GX PX 1%nat _ ltac:(lia) G1 R1 B1) as (G2 & R2).
      destruct (approach t X Ht GX PX 2%nat _ ltac:(lia) G2 R2 B2) as (G3 & R3).
      destruct X as [[x y] z]. exact R3.
    Qed.
  End Between.

  Lemma vnth_abs v a : (a < 3)%nat -> Rabs (vnth v a) <= vnorm v.
  Proof.
    intros Ha. unfold vnorm. rewrite <- (sqrt_Rsqr_abs (vnth v a)). apply sqrt_le_1_alt. unfold Rsqr, dot.
    destruct a as [|[|[|a]]]; [| | |lia]; cbn [vnth]; nra.
  Qed.
  Lemma vnth_sub u v a : vnth (vsub u v) a = vnth u a - vnth v a.
  Proof. destruct a as [|[|a]]; reflexivity. Qed.

  Lemma common_cell s1 s2 t : overlap_at s1 s2 t -> 0 < radius_at s1 t -> 0 < radius_at s2 t ->
    in_container g s1 t -> exists X, ingrid g X /\ prod g s1 t X /\ prod g s2 t X.
  Proof.
    intros Hov R1 R2 I1.
    assert (F: forall a, exists k, (a < 3)%nat -> (0 <= k < gn g a)%Z /\
       (plane g a k < hi s1 t a /\ lo s1 t a < plane g a (k + 1)) /\ (plane g a k < hi s2 t a /\ lo s2 t a < plane g a (k + 1))).
    { intros a. destruct (le_lt_dec 3 a) as [L|Ha]; [exists 0%Z; lia|].
      pose proof (vnth_abs (vsub (centre_at s1 t) (centre_at s2 t)) a Ha) as B. rewrite vnth_sub in B.
      unfold overlap_at, distance in Hov. destruct (I1 a Ha) as (I2 & I3). unfold hi, lo in *.
      set (p1 := vnth (centre_at s1 t) a) in *. set (p2 := vnth (centre_at s2 t) a) in *.
      set (r1 := radius_at s1 t) in *. set (r2 := radius_at s2 t) in *.
      assert (B1: - (r1 + r2) < p1 - p2 < r1 + r2) by (unfold Rabs in B; destruct (Rcase_abs (p1 - p2)); lra).
      assert (Q: exists q, p1 - r1 < q < p1 + r1 /\ p2 - r2 < q < p2 + r2).
      { exists ((r2 * p1 + r1 * p2) / (r1 + r2)).
        assert (E1: (r2 * p1 + r1 * p2) / (r1 + r2) - p1 = - ((p1 - p2) / (r1 + r2)) * r1) by (field; lra).
        assert (E2: (r2 * p1 + r1 * p2) / (r1 + r2) - p2 = (p1 - p2) / (r1 + r2) * r2) by (field; lra).
        assert (U: -1 < (p1 - p2) / (r1 + r2) < 1).
        { split; apply (Rmult_lt_reg_r (r1 + r2)); try lra; unfold Rdiv; rewrite Rmult_assoc, Rinv_l by lra; lra. }
        set (u := (p1 - p2) / (r1 + r2)) in *. set (q := (r2 * p1 + r1 * p2) / (r1 + r2)) in *. clearbody u q. nra. }
      destruct Q as (q & Q1 & Q2).
      destruct (bottom_cell g a q OK ltac:(lra) ltac:(lra)) as (k & K1 & K2). exists k. intros _. split; [auto|]. lra. }
    destruct (F 0%nat) as (k0 & K0). destruct (F 1%nat) as (k1 & K1). destruct (F 2%nat) as (k2 & K2).
    exists (k0, k1, k2). unfold ingrid, prod.
    split; [|split]; intros a Ha; destruct a as [|[|[|a]]]; try lia; cbn [co]; [apply K0|apply K1|apply K2|apply K0|apply K1|apply K2|apply K0|apply K1|apply K2]; lia.
  Qed.

  Lemma apart_between s T T' i j t : phys s T -> complete s -> (forall e, In e (evs s) -> T' <= etime e) -> T' <= bar s ->
    In i ids -> In j ids -> i <> j -> pair_now (sph s i) (sph s j) <= t <= T' -> ~ overlap_at (sph s i) (sph s j) t.
  Proof.
    intros P C Hev Hbar Hi Hj Hij Ht Hov.
    assert (Ti: stime (sph s i) <= t <= T') by (pose proof (Rmax_l (stime (sph s i)) (stime (sph s j))); unfold pair_now in Ht; lra).
    assert (Tj: stime (sph s j) <= t <= T') by (pose proof (Rmax_r (stime (sph s i)) (stime (sph s j))); unfold pair_now in Ht; lra).
    destruct (common_cell _ _ t Hov) as (X & G & X1 & X2).
    { apply (pos_radius s T i t P Hi). lra. } { apply (pos_radius s T j t P Hj). lra. }
    { apply (stays_inside s T T' i P C Hev Hbar Hi t Ti). }
    pose proof (stays_registered s T T' i P C Hev Hbar Hi t X Ti G X1) as RI.
    pose proof (stays_registered s T T' j P C Hev Hbar Hj t X Tj G X2) as RJ.
    destruct (C56_prediction_partial (sph s i) (sph s j)) as (r & E & H1 & H2).
    { rewrite (p_sid s T P i Hi), (p_sid s T P j Hj). auto. }
    { apply (p_proper s T P i Hi). } { apply (p_proper s T P j Hj). }
    { apply (p_clock s T P i Hi). } { apply (p_clock s T P j Hj). } { apply (p_no s T P i j Hi Hj Hij). }
    destruct (Req_dec r EVENTNULL) as [N|N]; [exact (H1 N t ltac:(lra) Hov)|].
    destruct (H2 N) as (A & B & _). destruct (Rle_or_lt t r) as [L|L]; [exact (B t ltac:(lra) Hov)|].
    destruct (C j i r) as (e & He & (Et & _)).
    - exists X. auto.
    - unfold predict. rewrite (SPH i Hi), (SPH j Hj). exact E.
    - pose proof (p_clock s T P i Hi). pose proof (Rmax_l (stime (sph s i)) (stime (sph s j))). unfold pair_now in A. lra.
    - apply Hev in He. cbn [etime] in Et. lra.
  Qed.

  (** ** predictions *)
  Lemma wall_predict s c k i : ingrid g c -> (k < 6)%nat -> exists t, predict_box_wall s (wallof g c k) i = Ok t /\
    (t = EVENTNULL \/ stime (sph s i) <= t).
  Proof.
    intros G Hk. destruct (side_cases k Hk) as (a & up & Ha & ->).
    destruct (wall_values g c a up (sph s i) Ha) as (V1 & V2 & V3). unfold predict_box_wall, predict_wall, predict_virtual.
    destruct (bw_kind _).
    - rewrite V1. cbn [obind]. eexists. split; [reflexivity|apply wall_time_ge].
    - destruct (in_outside _ _ _); [rewrite V3|rewrite V2]; cbn [obind]; eexists; (split; [reflexivity|apply virtual_time_ge]).
  Qed.

  (** [phys] without the statement about the predictions *)
  Definition body (s : sim) (T : R) : Prop :=
    (forall i, In i ids -> sid (sph s i) = i) /\
    (forall i, In i ids -> 0 <= stime (sph s i) <= T) /\
    (forall i, In i ids -> proper (sph s i)) /\
    (forall i j, In i ids -> In j ids -> i <> j -> ~ overlap_at (sph s i) (sph s j) (pair_now (sph s i) (sph s j))) /\
    (forall c d, ingrid g c -> In d (content s (idx g c)) -> In d ids \/ exists k, (k < 6)%nat /\ what d = OWall (wallof g c k)).
  Lemma phys_body s T : phys s T -> body s T.
  Proof. intros [A B C D E F G H I J K L]. unfold body. auto 10. Qed.

  Lemma predict_ok s T c1 c2 : body s T -> active s c1 c2 ->
    exists t, predict what s c1 c2 = Ok t /\ predict what s c2 c1 = Ok t /\
      (t = EVENTNULL \/ (forall i, In i ids -> i = c1 \/ i = c2 -> stime (sph s i) <= t)).
  Proof.
    intros (A & B & C & D & E) (c & G & H1 & H2).
    destruct (E c c1 G H1) as [I1|(k1 & K1 & W1)], (E c c2 G H2) as [I2|(k2 & K2 & W2)]; unfold predict.
    - rewrite (SPH c1 I1), (SPH c2 I2). destruct (Z.eq_dec c1 c2) as [<-|N].
      + exists EVENTNULL. unfold predict_spheres. rewrite Z.eqb_refl. auto.
      + destruct (C56_prediction_partial (sph s c2) (sph s c1)) as (r & Er & _ & Q); auto; try (apply B; auto).
        { rewrite (A c1 I1), (A c2 I2). auto. }
        rewrite (C56_symmetric (sph s c1) (sph s c2)) by auto. exists r. split; [auto|]. split; [auto|].
        destruct (Req_dec r EVENTNULL) as [|Nr]; [auto|right]. destruct (Q Nr) as (Q1 & _). unfold pair_now in Q1.
        pose proof (Rmax_l (stime (sph s c2)) (stime (sph s c1))). pose proof (Rmax_r (stime (sph s c2)) (stime (sph s c1))).
        intros i _ [->| ->]; lra.
    - rewrite (SPH c1 I1), W2. destruct (wall_predict s c k2 c1 G K2) as (t & Et & Q). exists t. split; [auto|]. split; [auto|].
      destruct Q as [|Q]; [auto|right]. intros i Hi [->| ->]; auto. rewrite (SPH c2 Hi) in W2. discriminate.
    - rewrite (SPH c2 I2), W1. destruct (wall_predict s c k1 c2 G K1) as (t & Et & Q). exists t. split; [auto|]. split; [auto|].
      destruct Q as [|Q]; [auto|right]. intros i Hi [->| ->]; auto. rewrite (SPH c1 Hi) in W1. discriminate.
    - rewrite W1, W2. exists (-1). split; [auto|]. split; [auto|]. left. reflexivity.
  Qed.
End Inv.
