(** The invariant of the simulation in a cylinder specimen and what happens between two events. *)
From Coq Require Import Reals ZArith List Bool Lia Lra Psatz.
From Verif Require Import Outcome AdaptiveModel AdaptiveProofs Vec3 CollisionModel CollisionSpec CollisionProofs CollisionProofs2
  PropCollision EventModel EventSpec SubBoxModel SubBoxSpec SubBoxProofs SimModel SimSpec SimProofs SimProofs2 CylProofs1.
Import ListNotations.
Local Open Scope R_scope.

Lemma normalize_ez : normalize ez = ez.
Proof. apply normalize_of_unit. unfold ez, dot. cbn [vx vy vz]. ring. Qed.

Section Cyl.
  Variable g : grid.
  Variable what : Z -> object.
  Variable ids : list Z.
  Variable p : v3.
  Variable r : R.
  Variable hascyl : Z -> Z -> bool.
  Variable tlim : R.
  Let W := new_cylinder p ez r.

  Definition inside (s : sphere) (t : R) : Prop := in_container g s t /\ 0 <= cgap p r s t.

  (** everything except the event list *)
  Record cphys (s : sim) (T : R) : Prop := {
    c_sid : forall i, In i ids -> sid (sph s i) = i;
    c_clock : forall i, In i ids -> 0 <= stime (sph s i) <= T;
    c_proper : forall i, In i ids -> proper (sph s i);
    c_cons : forall i, In i ids -> srad (sph s i) = sradG (sph s i) + sgrow (sph s i) * (stime (sph s i) - sreset (sph s i));
    c_small : forall i, In i ids -> radius_at (sph s i) tlim < r;
    c_in : forall i, In i ids -> inside (sph s i) (stime (sph s i));
    c_reg : forall i c, In i ids -> ingrid g c -> prod g (sph s i) (stime (sph s i)) c -> In i (content s (idx g c));
    c_no : forall i j, In i ids -> In j ids -> i <> j -> ~ overlap_at (sph s i) (sph s j) (pair_now (sph s i) (sph s j));
    c_coh : forall i c, In i ids -> ingrid g c -> (In (idx g c) (inboxes s i) <-> In i (content s (idx g c)));
    c_box : forall i b, In i ids -> In b (inboxes s i) -> exists c, ingrid g c /\ b = idx g c;
    c_cont : forall c d, ingrid g c -> In d (content s (idx g c)) ->
      In d ids \/ (exists k, (k < 6)%nat /\ what d = OWall (wallof g c k)) \/ what d = OCylinder W (idx g c);
    c_walls : forall c a up, ingrid g c -> (a < 3)%nat -> ingrid g (next c a up) \/ a = 2%nat ->
      exists d, In d (content s (idx g c)) /\ what d = OWall (wallof g c (side a up));
    c_cyl : forall c, ingrid g c -> hascyl (co c 0) (co c 1) = true ->
      exists d, In d (content s (idx g c)) /\ what d = OCylinder W (idx g c);
    c_pred : forall c1 c2 t, active g s c1 c2 -> predict what s c1 c2 = Ok t -> t < 0 \/ T <= t
  }.

  Hypothesis OK : gridok g.
  Hypothesis SPH : forall i, In i ids -> what i = OSphere.
  Hypothesis X0 : plane g 0 0 = vx p - r.
  Hypothesis X1 : plane g 0 (gn g 0) = vx p + r.
  Hypothesis Y0 : plane g 1 0 = vy p - r.
  Hypothesis Y1 : plane g 1 (gn g 1) = vy p + r.
  Hypothesis ENC : forall x y qx qy, (0 <= x < gn g 0)%Z -> (0 <= y < gn g 1)%Z ->
    plane g 0 x < qx < plane g 0 (x + 1) -> plane g 1 y < qy < plane g 1 (y + 1) ->
    (qx - vx p) * (qx - vx p) + (qy - vy p) * (qy - vy p) = r * r -> hascyl x y = true.

  Lemma cyl_predict s : proper s -> 0 <= stime s -> 0 <= cgap p r s (stime s) ->
    exists tc, predict_cylinder W s = Ok tc /\
      (tc = EVENTNULL -> forall t, stime s <= t -> radius_at s t <= r -> 0 <= cgap p r s t) /\
      (tc <> EVENTNULL -> stime s <= tc /\ cgap p r s tc = 0 /\ forall t, stime s <= t <= tc -> 0 <= cgap p r s t).
  Proof.
    intros P T H. destruct (C58_cylinder_prediction p ez r s) as (tc & E & A & B); auto.
    - unfold ez. intros F. injection F as F. lra.
    - rewrite normalize_ez. exact H.
    - rewrite normalize_ez in A, B. exists tc. split; [exact E|]. split; [exact A|]. intros N. destruct (B N) as (B1 & B2 & B3 & _). auto.
  Qed.

  Lemma cpos_radius s T i t : cphys s T -> In i ids -> stime (sph s i) <= t -> 0 < radius_at (sph s i) t.
  Proof. intros P Hi Ht. apply radius_pos; auto. apply (c_proper s T P i Hi). Qed.
  Lemma csmall s T i t : cphys s T -> In i ids -> t <= tlim -> radius_at (sph s i) t < r.
  Proof.
    intros P Hi Ht. pose proof (c_small s T P i Hi) as H. destruct (c_proper s T P i Hi) as (_ & G).
    unfold radius_at in *. nra.
  Qed.

  (** ** between two events *)
  Section CBetween.
    Variables (s : sim) (T T' : R) (i : Z).
    Hypothesis P : cphys s T.
    Hypothesis C : complete g what s.
    Hypothesis Hev : forall e, In e (evs s) -> T' <= etime e.
    Hypothesis Hbar : T' <= bar s.
    Hypothesis Hlim : T' <= tlim.
    Hypothesis Hi : In i ids.
    Let S := sph s i.
    Let reg (c : cell) := In i (content s (idx g c)).

    Lemma cclock0 : 0 <= stime S.
    Proof. apply (c_clock s T P i Hi). Qed.

    (** no prediction before the next event *)
    Lemma cno_early d c u : ingrid g c -> reg c -> In d (content s (idx g c)) -> predict what s i d = Ok u ->
      0 <= u -> u < T' -> False.
    Proof.
      intros Hc Hr Hd E H0 H1.
      destruct (C i d u) as (e & He & (Et & _)); auto; [exists c; auto|lra|].
      apply Hev in He. cbn [etime] in Et. lra.
    Qed.

    Lemma cwall_step c a up t : ingrid g c -> (a < 3)%nat -> reg c -> stime S <= t <= T' ->
      0 <= gap g c a up S (stime S) -> gap g c a up S t < 0 ->
      (ingrid g (next c a up) -> reg (next c a up)) /\ (~ ingrid g (next c a up) -> a = 2%nat -> False).
    Proof.
      intros Hc Ha Hr Ht Hg Hn.
      destruct (wall_links g c a up OK Hc Ha) as (L1 & L2 & L3).
      destruct (wall_values g c a up S Ha) as (V1 & V2 & V3).
      destruct (cross_time g c a up S t cclock0 ltac:(lra) Hg Hn) as (u & E1 & E2 & Hr1). pose proof cclock0.
      split; intros G.
      - destruct (c_walls s T P c a up Hc Ha (or_introl G)) as (d & Hd & Hw).
        assert (Hp: predict what s i d = predict_box_wall s (wallof g c (side a up)) i) by (unfold predict; rewrite (SPH i Hi), Hw; reflexivity).
        unfold predict_box_wall in Hp. destruct (L2 G) as (K & O).
        destruct (in_dec Z.eq_dec i (content s (idx g (next c a up)))) as [|N]; auto. exfalso.
        rewrite K in Hp.
        assert (Eo: in_outside s (wallof g c (side a up)) i = false).
        { destruct (in_outside s _ i) eqn:E; auto. apply in_outside_spec in E. rewrite O in E.
          apply (c_coh s T P i _ Hi G) in E. contradiction. }
        rewrite Eo in Hp. unfold predict_virtual in Hp. fold S in Hp. rewrite V2 in Hp. cbn [obind] in Hp. rewrite E2 in Hp.
        apply (cno_early d c u); auto; lra.
      - intros Ea. destruct (c_walls s T P c a up Hc Ha (or_intror Ea)) as (d & Hd & Hw).
        assert (Hp: predict what s i d = predict_box_wall s (wallof g c (side a up)) i) by (unfold predict; rewrite (SPH i Hi), Hw; reflexivity).
        unfold predict_box_wall in Hp. rewrite (L3 G) in Hp. unfold predict_wall in Hp. fold S in Hp. rewrite V1 in Hp. cbn [obind] in Hp. rewrite E1 in Hp.
        apply (cno_early d c u); auto; lra.
    Qed.

    Lemma ingrid_setco c a k : ingrid g c -> (a < 3)%nat -> (0 <= k < gn g a)%Z -> ingrid g (setco c a k).
    Proof.
      intros G Ha Hk b Hb. destruct (Nat.eq_dec b a) as [->|Ne]; [rewrite co_setco; auto|rewrite co_setco_other by auto; apply G; auto].
    Qed.

    (** along an axis, inside the grid *)
    Lemma cwalk_up a t : (a < 3)%nat -> stime S <= t <= T' -> forall n c, ingrid g c -> reg c -> (co c a + Z.of_nat n < gn g a)%Z ->
      hi S (stime S) a <= plane g a (co c a + 1) -> plane g a (co c a + Z.of_nat n) < hi S t a \/ n = O ->
      reg (setco c a (co c a + Z.of_nat n)).
    Proof.
      intros Ha Ht. induction n as [|n IH]; intros c Hc Hr HN H1 H2.
      - replace (co c a + Z.of_nat 0)%Z with (co c a) by lia. rewrite setco_same by auto. auto.
      - destruct H2 as [H2|H2]; [|discriminate].
        assert (H3: plane g a (co c a + Z.of_nat n) <= plane g a (co c a + Z.of_nat (Datatypes.S n))) by (apply plane_le; [auto|lia]).
        pose proof (IH c Hc Hr ltac:(lia) H1 ltac:(left; lra)) as R1. set (d := setco c a (co c a + Z.of_nat n)) in *.
        pose proof (Hc a Ha) as Hca.
        assert (G1: ingrid g d) by (apply ingrid_setco; auto; lia).
        assert (Ed: co d a = (co c a + Z.of_nat n)%Z) by (unfold d; apply co_setco; auto).
        assert (En: next d a true = setco c a (co c a + Z.of_nat (Datatypes.S n))).
        { unfold next. rewrite Ed. unfold d. rewrite setco_setco by auto. f_equal. lia. }
        destruct (cwall_step d a true t G1 Ha R1 Ht) as (R2 & _).
        + unfold gap. rewrite Ed. assert (plane g a (co c a + 1) <= plane g a (co c a + Z.of_nat n + 1)) by (apply plane_le; [auto|lia]). lra.
        + unfold gap. rewrite Ed. replace (co c a + Z.of_nat n + 1)%Z with (co c a + Z.of_nat (Datatypes.S n))%Z by lia. lra.
        + rewrite En in R2. apply R2. apply ingrid_setco; auto. lia.
    Qed.
    Lemma cwalk_down a t : (a < 3)%nat -> stime S <= t <= T' -> forall n c, ingrid g c -> reg c -> (0 <= co c a - Z.of_nat n)%Z ->
      plane g a (co c a) <= lo S (stime S) a -> lo S t a < plane g a (co c a - Z.of_nat n + 1) \/ n = O ->
      reg (setco c a (co c a - Z.of_nat n)).
    Proof.
      intros Ha Ht. induction n as [|n IH]; intros c Hc Hr HN H1 H2.
      - replace (co c a - Z.of_nat 0)%Z with (co c a) by lia. rewrite setco_same by auto. auto.
      - destruct H2 as [H2|H2]; [|discriminate].
        assert (H3: plane g a (co c a - Z.of_nat (Datatypes.S n) + 1) <= plane g a (co c a - Z.of_nat n + 1)) by (apply plane_le; [auto|lia]).
        pose proof (IH c Hc Hr ltac:(lia) H1 ltac:(left; lra)) as R1. set (d := setco c a (co c a - Z.of_nat n)) in *.
        pose proof (Hc a Ha) as Hca.
        assert (G1: ingrid g d) by (apply ingrid_setco; auto; lia).
        assert (Ed: co d a = (co c a - Z.of_nat n)%Z) by (unfold d; apply co_setco; auto).
        assert (En: next d a false = setco c a (co c a - Z.of_nat (Datatypes.S n))).
        { unfold next. rewrite Ed. unfold d. rewrite setco_setco by auto. f_equal. lia. }
        destruct (cwall_step d a false t G1 Ha R1 Ht) as (R2 & _).
        + unfold gap. rewrite Ed. assert (plane g a (co c a - Z.of_nat n) <= plane g a (co c a)) by (apply plane_le; [auto|lia]). lra.
        + unfold gap. rewrite Ed. replace (co c a - Z.of_nat n)%Z with (co c a - Z.of_nat (Datatypes.S n) + 1)%Z by lia. lra.
        + rewrite En in R2. apply R2. apply ingrid_setco; auto. lia.
    Qed.

    Lemma cends : forall a, (a < 3)%nat ->
      (exists k, (0 <= k < gn g a)%Z /\ plane g a k <= lo S (stime S) a < plane g a (k + 1)) /\
      (exists k, (0 <= k < gn g a)%Z /\ plane g a k < hi S (stime S) a <= plane g a (k + 1)).
    Proof.
      intros a Ha. destruct (proj1 (c_in s T P i Hi) a Ha) as (A & B). fold S in A, B.
      pose proof (cpos_radius s T i (stime S) P Hi ltac:(unfold S; lra)). fold S in H.
      pose proof (hi_lo S (stime S) a). split; [apply bottom_cell|apply top_cell]; auto; lra.
    Qed.

    Lemma cstart_cell (f : nat -> Z) : (forall a, (a < 3)%nat -> (0 <= f a < gn g a)%Z /\
        plane g a (f a) < hi S (stime S) a /\ lo S (stime S) a < plane g a (f a + 1)) ->
      let c := (f 0%nat, f 1%nat, f 2%nat) in ingrid g c /\ reg c /\ forall a, (a < 3)%nat -> co c a = f a.
    Proof.
      intros H c. assert (E: forall a, (a < 3)%nat -> co c a = f a) by (intros a Ha; destruct a as [|[|[|a]]]; [| | |lia]; reflexivity).
      assert (G: ingrid g c) by (intros a Ha; rewrite E by auto; apply H; auto).
      split; auto. split; auto. apply (c_reg s T P i c Hi G). intros a Ha. fold S. rewrite E by auto. apply (H a Ha).
    Qed.

    (** top and bottom *)
    Lemma cstays_z t : stime S <= t <= T' -> plane g 2 0 <= lo S t 2 /\ hi S t 2 <= plane g 2 (gn g 2).
    Proof.
      intros Ht. assert (Ha: (2 < 3)%nat) by lia. set (a := 2%nat) in *.
      pose proof (cpos_radius s T i (stime S) P Hi ltac:(unfold S; lra)) as Hr. fold S in Hr.
      destruct (proj1 (c_in s T P i Hi) a Ha) as (A & B). fold S in A, B. pose proof (hi_lo S (stime S) a) as HL.
      assert (F: forall a, exists k, (a < 3)%nat -> (0 <= k < gn g a)%Z /\
         plane g a k < hi S (stime S) a /\ lo S (stime S) a < plane g a (k + 1)).
      { intros b. destruct (le_lt_dec 3 b) as [L|L]; [exists 0%Z; lia|].
        destruct (cends b L) as (_ & (k & K1 & K2)). exists k. intros _. pose proof (hi_lo S (stime S) b). split; auto. lra. }
      pose proof (F 0%nat) as (k0 & K0). pose proof (F 1%nat) as (k1 & K1).
      destruct (cends a Ha) as ((kb & KB1 & KB2) & (kt & KT1 & KT2)).
      pose proof (gn_pos g a OK) as Ng. split.
      - destruct (Rle_or_lt (plane g a 0) (lo S t a)) as [|N]; auto. exfalso.
        destruct (cstart_cell (fun b => match b with 0%nat => k0 | 1%nat => k1 | _ => kb end)) as (G & R0 & E).
        { intros b Hb. destruct b as [|[|[|b]]]; [apply K0|apply K1| |]; try lia. split; [exact KB1|]. fold a. lra. }
        cbn beta iota in G, R0, E. set (c := (k0, k1, kb)) in *.
        assert (Ec: co c a = kb) by reflexivity.
        assert (R': reg (setco c a (co c a - Z.of_nat (Z.to_nat kb)))).
        { apply (cwalk_down a t Ha Ht (Z.to_nat kb) c G R0).
          - rewrite Ec, Z2Nat.id by lia. lia.
          - rewrite Ec. lra.
          - left. rewrite Ec, Z2Nat.id by lia. replace (kb - kb + 1)%Z with (0 + 1)%Z by lia. rewrite plane_S. pose proof (gh_pos g a OK). lra. }
        rewrite Ec, Z2Nat.id in R' by lia. replace (kb - kb)%Z with 0%Z in R' by lia.
        assert (G': ingrid g (setco c a 0)) by (apply ingrid_setco; auto; lia).
        destruct (cwall_step _ a false t G' Ha R' Ht) as (_ & Q).
        { unfold gap. rewrite co_setco by auto. lra. }
        { unfold gap. rewrite co_setco by auto. lra. }
        apply Q; [|reflexivity]. intros G2. specialize (G2 a Ha). unfold next in G2. rewrite !co_setco in G2 by auto. lia.
      - destruct (Rle_or_lt (hi S t a) (plane g a (gn g a))) as [|N]; auto. exfalso.
        destruct (cstart_cell (fun b => match b with 0%nat => k0 | 1%nat => k1 | _ => kt end)) as (G & R0 & E).
        { intros b Hb. destruct b as [|[|[|b]]]; [apply K0|apply K1| |]; try lia. split; [exact KT1|]. fold a. lra. }
        cbn beta iota in G, R0, E. set (c := (k0, k1, kt)) in *.
        assert (Ec: co c a = kt) by reflexivity.
        pose proof (plane_le g a (gn g a - 1) (gn g a) OK ltac:(lia)) as PL.
        assert (R': reg (setco c a (co c a + Z.of_nat (Z.to_nat (gn g a - 1 - kt))))).
        { apply (cwalk_up a t Ha Ht (Z.to_nat (gn g a - 1 - kt)) c G R0).
          - rewrite Ec, Z2Nat.id by lia. lia.
          - rewrite Ec. lra.
          - left. rewrite Ec, Z2Nat.id by lia. replace (kt + (gn g a - 1 - kt))%Z with (gn g a - 1)%Z by lia. lra. }
        rewrite Ec, Z2Nat.id in R' by lia. replace (kt + (gn g a - 1 - kt))%Z with (gn g a - 1)%Z in R' by lia.
        assert (G': ingrid g (setco c a (gn g a - 1))) by (apply ingrid_setco; auto; lia).
        destruct (cwall_step _ a true t G' Ha R' Ht) as (_ & Q).
        { unfold gap. rewrite co_setco by auto. replace (gn g a - 1 + 1)%Z with (gn g a) by lia. lra. }
        { unfold gap. rewrite co_setco by auto. replace (gn g a - 1 + 1)%Z with (gn g a) by lia. lra. }
        apply Q; [|reflexivity]. intros G2. specialize (G2 a Ha). unfold next in G2. rewrite !co_setco in G2 by auto. lia.
    Qed.

    (** the sphere reaches only cells in which it is registered *)
    Lemma capproach t X : stime S <= t <= T' -> ingrid g X -> prod g S t X -> forall a c, (a < 3)%nat -> ingrid g c -> reg c ->
      (co c a = co X a \/ (hi S (stime S) a <= plane g a (co c a + 1) /\ (co c a <= co X a)%Z) \/
       (plane g a (co c a) <= lo S (stime S) a /\ (co X a <= co c a)%Z)) ->
      ingrid g (setco c a (co X a)) /\ reg (setco c a (co X a)).
    Proof.
      intros Ht GX PX a c Ha G R0 H. pose proof (GX a Ha) as GXa. pose proof (G a Ha) as Ga.
      split; [apply ingrid_setco; auto|]. destruct (PX a Ha) as (P1 & P2). destruct H as [E|[(E & L)|(E & L)]].
      - rewrite <- E, setco_same by auto. auto.
      - pose proof (cwalk_up a t Ha Ht (Z.to_nat (co X a - co c a)) c G R0) as Wk.
        rewrite Z2Nat.id in Wk by lia. replace (co c a + (co X a - co c a))%Z with (co X a) in Wk by lia. apply Wk; [lia|auto|]. left. lra.
      - pose proof (cwalk_down a t Ha Ht (Z.to_nat (co c a - co X a)) c G R0) as Wk.
        rewrite Z2Nat.id in Wk by lia. replace (co c a - (co c a - co X a))%Z with (co X a) in Wk by lia. apply Wk; [lia|auto|]. left. lra.
    Qed.

    Lemma cstays_registered t X : stime S <= t <= T' -> ingrid g X -> prod g S t X -> reg X.
    Proof.
      intros Ht GX PX.
      assert (F: forall a, exists k, (a < 3)%nat -> ((0 <= k < gn g a)%Z /\
         plane g a k < hi S (stime S) a /\ lo S (stime S) a < plane g a (k + 1)) /\
         (k = co X a \/ (hi S (stime S) a <= plane g a (k + 1) /\ (k <= co X a)%Z) \/
          (plane g a k <= lo S (stime S) a /\ (co X a <= k)%Z))).
      { intros a. destruct (le_lt_dec 3 a) as [L|Ha]; [exists 0%Z; lia|].
        pose proof (cpos_radius s T i (stime S) P Hi ltac:(unfold S; lra)) as Hr. fold S in Hr.
        pose proof (hi_lo S (stime S) a) as HL. destruct (cends a Ha) as ((kb & KB1 & KB2) & (kt & KT1 & KT2)).
        destruct (Rlt_or_le (plane g a (co X a)) (hi S (stime S) a)) as [A|A].
        - destruct (Rlt_or_le (lo S (stime S) a) (plane g a (co X a + 1))) as [B|B].
          + exists (co X a). intros _. split; [split; [apply GX; auto|auto]|auto].
          + exists kb. intros _. split; [split; [auto|lra]|]. right. right. split; [lra|].
            assert (plane g a (co X a + 1) < plane g a (kb + 1)) by lra. apply plane_lt_inv in H; auto. lia.
        - exists kt. intros _. split; [split; [auto|lra]|]. right. left. split; [lra|].
          assert (plane g a kt < plane g a (co X a)) by lra. apply plane_lt_inv in H; auto. lia. }
      destruct (F 0%nat) as (k0 & K0). destruct (F 1%nat) as (k1 & K1). destruct (F 2%nat) as (k2 & K2).
      destruct (K0 ltac:(lia)) as (A0 & B0). destruct (K1 ltac:(lia)) as (A1 & B1). destruct (K2 ltac:(lia)) as (A2 & B2).
      destruct (cstart_cell (fun b => match b with 0%nat => k0 | 1%nat => k1 | _ => k2 end)) as (G & R0 & _).
      { intros b Hb. destruct b as [|[|[|b]]]; auto. }
      cbn beta iota in G, R0.
      destruct (capproach t X Ht GX PX 0%nat _ ltac:(lia) G R0 B0) as (G1 & R1).
      destruct (capproach t X Ht GX PX 1%nat _ ltac:(lia) G1 R1 B1) as (G2 & R2).
      destruct (capproach t X Ht GX PX 2%nat _ ltac:(lia) G2 R2 B2) as (G3 & R3).
      destruct X as [[x y] z]. exact R3.
    Qed.

    (** the lateral surface *)
    Lemma cstays_cyl t : stime S <= t <= T' -> 0 <= cgap p r S t.
    Proof.
      intros Ht. destruct (cyl_predict S) as (tc & E & N & Q).
      { apply (c_proper s T P i Hi). } { apply cclock0. } { apply (c_in s T P i Hi). }
      pose proof cclock0 as Cl.
      destruct (Req_dec tc EVENTNULL) as [En|En].
      - apply (N En); [lra|]. left. apply (csmall s T i t P Hi). lra.
      - destruct (Q En) as (Q1 & Q2 & Q3). destruct (Rle_or_lt t tc) as [L|L]; [apply Q3; lra|]. exfalso.
        destruct (cstays_z tc ltac:(lra)) as (Z1 & Z2).
        destruct (touch_cell g p r hascyl OK X0 X1 Y0 Y1 ENC S tc) as (X & GX & PX & HX); auto.
        { split; [apply (cpos_radius s T i tc P Hi); auto|apply (csmall s T i tc P Hi); lra]. }
        pose proof (cstays_registered tc X ltac:(lra) GX PX) as RX.
        destruct (c_cyl s T P X GX HX) as (d & Hd & Hw).
        apply (cno_early d X tc); auto; try lra. unfold predict. rewrite (SPH i Hi), Hw. exact E.
    Qed.

    Lemma cstays_inside t : stime S <= t <= T' -> inside S t.
    Proof.
      intros Ht. pose proof (cstays_cyl t Ht) as H. split; [|exact H]. intros a Ha.
      destruct (Nat.eq_dec a 2) as [->|Ne]; [apply cstays_z; auto|].
      apply (cgap_lateral g p r X0 X1 Y0 Y1 S t a H). lia.
    Qed.
  End CBetween.

  Lemma capart_between s T T' i j t : cphys s T -> complete g what s -> (forall e, In e (evs s) -> T' <= etime e) -> T' <= bar s -> T' <= tlim ->
    In i ids -> In j ids -> i <> j -> pair_now (sph s i) (sph s j) <= t <= T' -> ~ overlap_at (sph s i) (sph s j) t.
  Proof.
    intros P C Hev Hbar Hlim Hi Hj Hij Ht Hov.
    assert (Ti: stime (sph s i) <= t <= T') by (pose proof (Rmax_l (stime (sph s i)) (stime (sph s j))); unfold pair_now in Ht; lra).
    assert (Tj: stime (sph s j) <= t <= T') by (pose proof (Rmax_r (stime (sph s i)) (stime (sph s j))); unfold pair_now in Ht; lra).
    destruct (common_cell g OK _ _ t Hov) as (X & G & X1' & X2').
    { apply (cpos_radius s T i t P Hi). lra. } { apply (cpos_radius s T j t P Hj). lra. }
    { apply (cstays_inside s T T' i P C Hev Hbar Hlim Hi t Ti). }
    pose proof (cstays_registered s T T' i P C Hev Hbar Hi t X Ti G X1') as RI.
    pose proof (cstays_registered s T T' j P C Hev Hbar Hj t X Tj G X2') as RJ.
    destruct (C56_prediction_partial (sph s i) (sph s j)) as (u & E & H1 & H2).
    { rewrite (c_sid s T P i Hi), (c_sid s T P j Hj). auto. }
    { apply (c_proper s T P i Hi). } { apply (c_proper s T P j Hj). }
    { apply (c_clock s T P i Hi). } { apply (c_clock s T P j Hj). } { apply (c_no s T P i j Hi Hj Hij). }
    destruct (Req_dec u EVENTNULL) as [N|N]; [exact (H1 N t ltac:(lra) Hov)|].
    destruct (H2 N) as (A & B & _). destruct (Rle_or_lt t u) as [L|L]; [exact (B t ltac:(lra) Hov)|].
    destruct (C j i u) as (e & He & (Et & _)).
    - exists X. auto.
    - unfold predict. rewrite (SPH i Hi), (SPH j Hj). exact E.
    - pose proof (c_clock s T P i Hi). pose proof (Rmax_l (stime (sph s i)) (stime (sph s j))). unfold pair_now in A. lra.
    - apply Hev in He. cbn [etime] in Et. lra.
  Qed.

  (** [cphys] without the statement about the predictions *)
  Definition cbody (s : sim) (T : R) : Prop :=
    (forall i, In i ids -> sid (sph s i) = i) /\
    (forall i, In i ids -> 0 <= stime (sph s i) <= T) /\
    (forall i, In i ids -> proper (sph s i)) /\
    (forall i, In i ids -> 0 <= cgap p r (sph s i) (stime (sph s i))) /\
    (forall i j, In i ids -> In j ids -> i <> j -> ~ overlap_at (sph s i) (sph s j) (pair_now (sph s i) (sph s j))) /\
    (forall c d, ingrid g c -> In d (content s (idx g c)) ->
      In d ids \/ (exists k, (k < 6)%nat /\ what d = OWall (wallof g c k)) \/ what d = OCylinder W (idx g c)).
  Lemma cphys_body s T : cphys s T -> cbody s T.
  Proof.
    intros P. unfold cbody. split; [apply (c_sid _ _ P)|]. split; [apply (c_clock _ _ P)|]. split; [apply (c_proper _ _ P)|].
    split; [intros i Hi; apply (c_in _ _ P i Hi)|]. split; [apply (c_no _ _ P)|apply (c_cont _ _ P)].
  Qed.

  Lemma cpredict_ok s T c1 c2 : cbody s T -> active g s c1 c2 ->
    exists t, predict what s c1 c2 = Ok t /\ predict what s c2 c1 = Ok t /\
      (t = EVENTNULL \/ (forall i, In i ids -> i = c1 \/ i = c2 -> stime (sph s i) <= t)).
  Proof.
    intros (A & B & C & I & D & E) (c & G & H1 & H2).
    assert (Cy: forall i, In i ids -> exists t, predict_cylinder W (sph s i) = Ok t /\ (t = EVENTNULL \/ stime (sph s i) <= t)).
    { intros i Hi. destruct (cyl_predict (sph s i) (C i Hi) (proj1 (B i Hi)) (I i Hi)) as (tc & Et & _ & Q). exists tc. split; [auto|].
      destruct (Req_dec tc EVENTNULL) as [|N]; [auto|right; apply (Q N)]. }
    assert (Fin: forall i d t, In i ids -> ~ In d ids -> t = EVENTNULL \/ stime (sph s i) <= t ->
       t = EVENTNULL \/ (forall j, In j ids -> j = i \/ j = d -> stime (sph s j) <= t)).
    { intros i d t Hi Nd [|Q]; [auto|right]. intros j Hj [->| ->]; [auto|contradiction]. }
    assert (NW: forall d o, what d = o -> o <> OSphere -> ~ In d ids) by (intros d o Hd No F; apply No; rewrite <- Hd; apply SPH; auto).
    destruct (E c c1 G H1) as [I1|[(k1 & K1 & W1)|W1]], (E c c2 G H2) as [I2|[(k2 & K2 & W2)|W2]]; unfold predict.
    - rewrite (SPH c1 I1), (SPH c2 I2). destruct (Z.eq_dec c1 c2) as [<-|N].
      + exists EVENTNULL. unfold predict_spheres. rewrite Z.eqb_refl. auto.
      + destruct (C56_prediction_partial (sph s c2) (sph s c1)) as (u & Er & _ & Q); auto; try (apply B; auto).
        { rewrite (A c1 I1), (A c2 I2). auto. }
        rewrite (C56_symmetric (sph s c1) (sph s c2)) by auto. exists u. split; [auto|]. split; [auto|].
        destruct (Req_dec u EVENTNULL) as [|Nr]; [auto|right]. destruct (Q Nr) as (Q1 & _). unfold pair_now in Q1.
        pose proof (Rmax_l (stime (sph s c2)) (stime (sph s c1))). pose proof (Rmax_r (stime (sph s c2)) (stime (sph s c1))).
        intros i _ [->| ->]; lra.
    - pose proof (NW _ _ W2 ltac:(discriminate)) as N2. rewrite (SPH c1 I1), W2.
      destruct (wall_predict g s c k2 c1 G K2) as (t & Et & Q). exists t. split; [auto|]. split; [auto|]. apply Fin; auto.
    - pose proof (NW _ _ W2 ltac:(discriminate)) as N2. rewrite (SPH c1 I1), W2.
      destruct (Cy c1 I1) as (t & Et & Q). exists t. split; [auto|]. split; [auto|]. apply Fin; auto.
    - pose proof (NW _ _ W1 ltac:(discriminate)) as N1. rewrite (SPH c2 I2), W1.
      destruct (wall_predict g s c k1 c2 G K1) as (t & Et & Q). exists t. split; [auto|]. split; [auto|].
      destruct (Fin c2 c1 t I2 N1 Q) as [|F]; [auto|right]. intros i Hi [->| ->]; apply F; auto.
    - rewrite W1, W2. exists (-1). split; [auto|]. split; [auto|]. left. reflexivity.
    - rewrite W1, W2. exists (-1). split; [auto|]. split; [auto|]. left. reflexivity.
    - pose proof (NW _ _ W1 ltac:(discriminate)) as N1. rewrite (SPH c2 I2), W1.
      destruct (Cy c2 I2) as (t & Et & Q). exists t. split; [auto|]. split; [auto|].
      destruct (Fin c2 c1 t I2 N1 Q) as [|F]; [auto|right]. intros i Hi [->| ->]; apply F; auto.
    - rewrite W1, W2. exists (-1). split; [auto|]. split; [auto|]. left. reflexivity.
    - rewrite W1, W2. exists (-1). split; [auto|]. split; [auto|]. left. reflexivity.
  Qed.
End Cyl.
