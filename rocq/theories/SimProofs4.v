(** One event preserves the invariant. *)
From Coq Require Import Reals ZArith List Bool Lia Lra Psatz.
From Verif Require Import Outcome AdaptiveModel AdaptiveProofs Vec3 CollisionModel CollisionSpec CollisionProofs CollisionProofs2
  PropCollision EventModel EventSpec EventProofs SubBoxModel SubBoxSpec SubBoxProofs SimModel SimSpec SimProofs SimProofs2 SimProofs3.
Import ListNotations.
Local Open Scope R_scope.

(** [u] is [s] moved to the time [t], with any velocity *)
Definition moved_to (s u : sphere) (t : R) : Prop :=
  sid u = sid s /\ stime u = t /\ spos u = centre_at s t /\ srad u = radius_at s t /\
  sradG u = sradG s /\ sreset u = sreset s /\ sgrow u = sgrow s.

Lemma moved_centre s u t : moved_to s u t -> centre_at u t = centre_at s t.
Proof.
  intros (_ & A & B & _). unfold centre_at at 1. rewrite A, B. replace (t - t) with 0 by ring.
  apply v3_eq; cbn [vadd smul vx vy vz]; ring.
Qed.
Lemma moved_radius s u t : moved_to s u t -> radius_at u t = radius_at s t.
Proof. intros (_ & A & _ & B & _). unfold radius_at at 1. rewrite A, B. ring. Qed.
Lemma move_and_grow_moved s t : srad s = sradG s + sgrow s * (stime s - sreset s) -> moved_to s (move_and_grow s t) t.
Proof.
  intros H. unfold moved_to, move_and_grow. cbn [sid stime spos srad sradG sreset sgrow].
  do 2 (split; [reflexivity|]). split; [reflexivity|]. split; [|auto]. unfold radius_at. rewrite H. ring.
Qed.
Lemma set_velocity_moved s u v t : moved_to s u t -> moved_to s (set_velocity u v) t.
Proof. intros H. exact H. Qed.

Section Step.
  Variable g : grid.
  Variable what : Z -> object.
  Variable ids : list Z.
  Hypothesis OK : gridok g.
  Hypothesis SPH : forall i, In i ids -> what i = OSphere.

  Record upd (Ch : list Z) (s s1 : sim) (T' : R) : Prop := {
    u_other : forall k, ~ In k Ch -> sph s1 k = sph s k /\ inboxes s1 k = inboxes s k;
    u_changed : forall k, In k Ch -> moved_to (sph s k) (sph s1 k) T';
    u_content : forall b d, ~ In d Ch -> (In d (content s1 b) <-> In d (content s b));
    u_coh : forall k c, In k Ch -> ingrid g c -> (In (idx g c) (inboxes s1 k) <-> In k (content s1 (idx g c)));
    u_box : forall k b, In k Ch -> In b (inboxes s1 k) -> exists c, ingrid g c /\ b = idx g c;
    u_reg : forall k c, In k Ch -> ingrid g c -> prod g (sph s k) T' c -> In k (content s1 (idx g c));
    u_bar : bar s1 = bar s;
    u_evs : evs s1 = evs s
  }.

  Section Update.
    Variables (s s1 : sim) (T T' : R) (Ch : list Z).
    Hypothesis P : phys g what ids s T.
    Hypothesis C : complete g what s.
    Hypothesis Hev : forall e, In e (evs s) -> T' <= etime e.
    Hypothesis HTT : T <= T'.
    Hypothesis Hbar : T' <= bar s.
    Hypothesis HCh : incl Ch ids.
    Hypothesis U : upd Ch s s1 T'.

    Lemma unchanged_pair c1 c2 : active g s1 c1 c2 -> ~ In c1 Ch -> ~ In c2 Ch ->
      active g s c1 c2 /\ predict what s1 c1 c2 = predict what s c1 c2.
    Proof.
      intros (c & G & H1 & H2) N1 N2. apply (u_content _ _ _ _ U) in H1, H2; auto. split; [exists c; auto|].
      destruct (u_other _ _ _ _ U c1 N1) as (A1 & B1). destruct (u_other _ _ _ _ U c2 N2) as (A2 & B2).
      unfold predict, predict_box_wall, in_outside. rewrite A1, A2, B1, B2. reflexivity.
    Qed.

    Lemma upd_phys : phys g what ids s1 T'.
    Proof.
      assert (D: forall k, In k Ch \/ ~ In k Ch) by (intros k; destruct (in_dec Z.eq_dec k Ch); auto).
      assert (A_sid: forall i, In i ids -> sid (sph s1 i) = i).
      { intros i Hi. destruct (D i) as [H|H].
        - destruct (u_changed _ _ _ _ U i H) as (E & _). rewrite E. apply (p_sid _ _ _ _ _ P i Hi).
        - destruct (u_other _ _ _ _ U i H) as (-> & _). apply (p_sid _ _ _ _ _ P i Hi). }
      assert (A_clock: forall i, In i ids -> 0 <= stime (sph s1 i) <= T').
      { intros i Hi. pose proof (p_clock _ _ _ _ _ P i Hi). destruct (D i) as [H'|H'].
        - destruct (u_changed _ _ _ _ U i H') as (_ & E & _). lra.
        - destruct (u_other _ _ _ _ U i H') as (-> & _). lra. }
      assert (A_prop: forall i, In i ids -> proper (sph s1 i)).
      { intros i Hi. pose proof (p_proper _ _ _ _ _ P i Hi) as (R0 & G0). destruct (D i) as [H'|H'].
        - destruct (u_changed _ _ _ _ U i H') as (_ & _ & _ & E & _ & _ & Eg). unfold proper. rewrite E, Eg. split; auto.
          apply radius_pos; [split; auto|]. pose proof (p_clock _ _ _ _ _ P i Hi). lra.
        - destruct (u_other _ _ _ _ U i H') as (-> & _). split; auto. }
      assert (A_at: forall i, In i ids -> centre_at (sph s1 i) T' = centre_at (sph s i) T' /\ radius_at (sph s1 i) T' = radius_at (sph s i) T').
      { intros i Hi. destruct (D i) as [H'|H'].
        - pose proof (u_changed _ _ _ _ U i H') as M. split; [apply moved_centre|apply moved_radius]; auto.
        - destruct (u_other _ _ _ _ U i H') as (-> & _). auto. }
      assert (A_no: forall i j, In i ids -> In j ids -> i <> j -> ~ overlap_at (sph s1 i) (sph s1 j) (pair_now (sph s1 i) (sph s1 j))).
      { intros i j Hi Hj Hij.
        pose proof (A_clock i Hi) as Ci. pose proof (A_clock j Hj) as Cj.
        assert (M: In i Ch \/ In j Ch -> ~ overlap_at (sph s1 i) (sph s1 j) (pair_now (sph s1 i) (sph s1 j))).
        { intros HH. assert (E: pair_now (sph s1 i) (sph s1 j) = T').
          { unfold pair_now. destruct HH as [HH|HH]; destruct (u_changed _ _ _ _ U _ HH) as (_ & E & _); rewrite E; [apply Rmax_left|apply Rmax_right]; lra. }
          rewrite E. unfold overlap_at. destruct (A_at i Hi) as (-> & ->). destruct (A_at j Hj) as (-> & ->).
          apply (apart_between g what ids OK SPH s T T' i j T' P C Hev Hbar Hi Hj Hij). unfold pair_now.
          pose proof (p_clock _ _ _ _ _ P i Hi). pose proof (p_clock _ _ _ _ _ P j Hj).
          split; [apply Rmax_lub; lra|lra]. }
        destruct (D i) as [Hi'|Hi']; [apply M; auto|]. destruct (D j) as [Hj'|Hj']; [apply M; auto|].
        destruct (u_other _ _ _ _ U i Hi') as (-> & _). destruct (u_other _ _ _ _ U j Hj') as (-> & _).
        apply (p_no _ _ _ _ _ P i j); auto. }
      assert (A_cont: forall c d, ingrid g c -> In d (content s1 (idx g c)) ->
        In d ids \/ exists k, (k < 6)%nat /\ what d = OWall (wallof g c k)).
      { intros c d G H. destruct (D d) as [H'|H']; [left; auto|]. apply (u_content _ _ _ _ U) in H; auto.
        apply (p_cont _ _ _ _ _ P c d G H). }
      assert (A_body: body g what ids s1 T') by (unfold body; auto 10).
      constructor; auto.
      - intros i Hi. pose proof (p_cons _ _ _ _ _ P i Hi) as E0. destruct (D i) as [H'|H'].
        + destruct (u_changed _ _ _ _ U i H') as (_ & E1 & _ & E2 & E3 & E4 & E5). rewrite E1, E2, E3, E4, E5.
          unfold radius_at. rewrite E0. ring.
        + destruct (u_other _ _ _ _ U i H') as (-> & _). auto.
      - intros i Hi. destruct (D i) as [H'|H'].
        + pose proof (u_changed _ _ _ _ U i H') as M. assert (Et: stime (sph s1 i) = T') by apply M. rewrite Et.
          intros a Ha. unfold lo, hi. rewrite (moved_centre _ _ _ M), (moved_radius _ _ _ M).
          pose proof (p_clock _ _ _ _ _ P i Hi).
          apply (stays_inside g what ids OK SPH s T T' i P C Hev Hbar Hi T'); auto. lra.
        + destruct (u_other _ _ _ _ U i H') as (-> & _). apply (p_in _ _ _ _ _ P i Hi).
      - intros i c Hi G Hp. destruct (D i) as [H'|H'].
        + apply (u_reg _ _ _ _ U i c H' G). pose proof (u_changed _ _ _ _ U i H') as M.
          assert (Et: stime (sph s1 i) = T') by apply M. rewrite Et in Hp.
          intros a Ha. specialize (Hp a Ha). unfold lo, hi in *. rewrite (moved_centre _ _ _ M), (moved_radius _ _ _ M) in Hp. auto.
        + destruct (u_other _ _ _ _ U i H') as (E & _). rewrite E in Hp. apply (u_content _ _ _ _ U); auto.
          apply (p_reg _ _ _ _ _ P i c); auto.
      - intros i c Hi G. destruct (D i) as [H'|H']; [apply (u_coh _ _ _ _ U); auto|].
        destruct (u_other _ _ _ _ U i H') as (_ & ->). rewrite (u_content _ _ _ _ U) by auto. apply (p_coh _ _ _ _ _ P i c Hi G).
      - intros i b Hi Hb. destruct (D i) as [H'|H']; [apply (u_box _ _ _ _ U i b H' Hb)|].
        destruct (u_other _ _ _ _ U i H') as (_ & E). rewrite E in Hb. apply (p_box _ _ _ _ _ P i b Hi Hb).
      - intros c k G Hk. destruct (p_walls _ _ _ _ _ P c k G Hk) as (d & Hd & Hw). exists d. split; auto.
        apply (u_content _ _ _ _ U); auto. intros F. apply HCh in F. rewrite (SPH d F) in Hw. discriminate.
      - intros c1 c2 t Ha E.
        assert (M: In c1 Ch \/ In c2 Ch -> t < 0 \/ T' <= t).
        { intros HH. destruct (predict_ok g what ids SPH s1 T' c1 c2 A_body Ha) as (t' & E' & _ & Q).
          assert (t' = t) by congruence. subst t'. destruct Q as [->|Q]; [left; unfold EVENTNULL; lra|right].
          destruct HH as [HH|HH]; destruct (u_changed _ _ _ _ U _ HH) as (_ & <- & _); apply Q; auto. }
        destruct (D c1) as [N1|N1]; [auto|]. destruct (D c2) as [N2|N2]; [auto|].
        destruct (unchanged_pair c1 c2 Ha N1 N2) as (Ha' & E'). rewrite E' in E.
        destruct (p_pred _ _ _ _ _ P c1 c2 t Ha' E) as [|Ht]; [auto|]. destruct (Rlt_or_le t 0) as [|H0]; [auto|]. right.
        destruct (Rle_or_lt t (bar s)) as [L|L]; [|lra].
        destruct (C c1 c2 t Ha' E ltac:(lra)) as (e & He & (Et & _)). apply Hev in He. cbn [etime] in Et. lra.
    Qed.

    (** the events that are left and the new ones *)
    Variable e : event.
    Hypothesis Hs : sound g what s.
    Hypothesis Ho : ordered_evs (evs s).
    Hypothesis He : active g s (efst e) (esnd e).
    Hypothesis HCe : forall k, In k Ch <-> In k ids /\ (k = efst e \/ k = esnd e).
    Let s2 := with_events s1 (erase_events what (efst e) (esnd e) (evs s1)).

    Lemma erased x : In x (erase_events what (efst e) (esnd e) (evs s1)) <->
      In x (evs s) /\ forall k, In k Ch -> efst x <> k /\ esnd x <> k.
    Proof.
      unfold erase_events. rewrite filter_In, (u_evs _ _ _ _ U), negb_true_iff, orb_false_iff. unfold concerns, is_sphere.
      destruct He as (c & Gc & H1 & H2).
      assert (Q: forall d, In d (content s (idx g c)) -> (d = efst e \/ d = esnd e) ->
        ((match what d with OSphere => true | _ => false end && (Z.eqb (efst x) d || Z.eqb (esnd x) d))%bool = false <->
         (In d Ch -> efst x <> d /\ esnd x <> d))).
      { intros d Hd Hde. destruct (p_cont _ _ _ _ _ P c d Gc Hd) as [I|(k & _ & W)].
        - rewrite (SPH d I). cbn [andb]. rewrite orb_false_iff, !Z.eqb_neq. split; auto. intros F. apply F, HCe. auto.
        - rewrite W. cbn [andb]. split; auto. intros _ F. apply HCh in F. rewrite (SPH d F) in W. discriminate. }
      rewrite (Q (efst e) H1) by auto. rewrite (Q (esnd e) H2) by auto. split.
      - intros (X & A & B). split; auto. intros k Hk. pose proof Hk as Hk'. apply HCe in Hk'. destruct Hk' as (_ & [->| ->]); auto.
      - intros (X & A). split; auto.
    Qed.

    Lemma member_active c d b : (c = efst e \/ c = esnd e) -> In b (boxes_of what s2 c) -> In d (content s2 b) -> active g s1 c d.
    Proof.
      intros Hc Hb Hd. unfold boxes_of in Hb. destruct He as (x & Gx & H1 & H2).
      assert (Hcx: In c (content s (idx g x))) by (destruct Hc as [->| ->]; auto).
      destruct (p_cont _ _ _ _ _ P x c Gx Hcx) as [I|(k & Hk & W)].
      - rewrite (SPH c I) in Hb. assert (HcC: In c Ch) by (apply HCe; auto).
        destruct (u_box _ _ _ _ U c b HcC Hb) as (y & Gy & ->). exists y. split; auto. split; [|exact Hd].
        apply (u_coh _ _ _ _ U c y HcC Gy). exact Hb.
      - rewrite W in Hb. destruct Hb as [<-|[]]. destruct (side_cases k Hk) as (a & up & Ha & ->).
        destruct (wall_links g x a up OK Gx Ha) as (L & _). rewrite L in Hd. exists x. split; auto. split; [|exact Hd].
        apply (u_content _ _ _ _ U); auto. intros F. apply HCh in F. rewrite (SPH c F) in W. discriminate.
    Qed.

    Lemma new_events : exists l1 l2,
      create_in_boxes what s2 (efst e) (boxes_of what s2 (efst e)) (evs s2) = Ok l1 /\
      create_in_boxes what s2 (esnd e) (boxes_of what s2 (esnd e)) l1 = Ok l2 /\ inv g what ids (with_events s2 l2) T'.
    Proof.
      pose proof upd_phys as P1. pose proof (phys_body _ _ _ _ _ P1) as B1.
      assert (F: forall c, (c = efst e \/ c = esnd e) -> fine what s2 (fun c' d => c' = c /\ exists b, In b (boxes_of what s2 c) /\ In d (content s2 b))).
      { intros c Hc c' d (-> & b & Hb & Hd). destruct (predict_ok g what ids SPH s1 T' c d B1 (member_active c d b Hc Hb Hd)) as (t & Et & _).
        exists t. exact Et. }
      destruct (create_in_boxes_ok what s2 (efst e) _ (F (efst e) ltac:(auto)) (evs s2)) as (l1 & E1 & G1).
      destruct (create_in_boxes_ok what s2 (esnd e) _ (F (esnd e) ltac:(auto)) l1) as (l2 & E2 & G2).
      exists l1, l2. split; [exact E1|]. split; [exact E2|].
      set (Q := fun c d => (c = efst e \/ c = esnd e) /\ exists b, In b (boxes_of what s2 c) /\ In d (content s2 b)).
      assert (G: grown what s2 Q (evs s2) l2).
      { apply (grown_app what s2 _ _ Q _ _ _ G1 G2). intros c d. unfold Q. split.
        - intros ([->| ->] & H); auto.
        - intros [(-> & H)|(-> & H)]; auto. }
      destruct G as (GA & GB & GC & GD).
      assert (D: forall k, In k Ch \/ ~ In k Ch) by (intros k; destruct (in_dec Z.eq_dec k Ch); auto).
      assert (HB: bar s2 = bar s) by apply (u_bar _ _ _ _ U).
      split; [apply (phys_with g what ids s1 T' (bar s1) l2 P1)|]. split; [|split].
      - intros c1 c2 t Ha Et Ht.
        change (predict what s1 c1 c2 = Ok t) in Et. change (active g s1 c1 c2) in Ha. change (0 <= t <= bar s2) in Ht.
        change (exists x, In x l2 /\ same_event x (mkEvent t c2 c1)).
        assert (HQ: forall c d, active g s1 c d -> In c Ch -> Q c d).
        { intros c d (x & Gx & X1 & X2) Hc. split; [apply HCe; auto|]. exists (idx g x). split; [|exact X2].
          unfold boxes_of. rewrite (SPH c (HCh c Hc)). apply (u_coh _ _ _ _ U c x Hc Gx). exact X1. }
        destruct (D c1) as [N1|N1]; [apply (GD c1 c2 t); auto|].
        destruct (D c2) as [N2|N2].
        + destruct (predict_ok g what ids SPH s1 T' c1 c2 B1 Ha) as (t' & A1 & A2 & _). assert (t' = t) by congruence. subst t'.
          destruct (GD c2 c1 t) as (x & X1 & X2); auto.
          { apply HQ; auto. destruct Ha as (x & Gx & X1 & X2). exists x. auto. }
          exists x. split; auto. apply same_event_swap; auto.
        + destruct (unchanged_pair c1 c2 Ha N1 N2) as (Ha' & E'). rewrite E' in Et. rewrite HB in Ht.
          destruct (C c1 c2 t Ha' Et Ht) as (x & X1 & X2). exists x. split; auto. apply GC. apply erased. split; auto.
          intros k Hk. destruct X2 as (_ & [(Y1 & Y2)|(Y1 & Y2)]); cbn [efst esnd] in Y1, Y2; rewrite Y1, Y2; split; intros ->; contradiction.
      - intros x Hx. change (In x l2) in Hx.
        change (active g s1 (efst x) (esnd x) /\ predict what s1 (esnd x) (efst x) = Ok (etime x) /\ 0 <= etime x <= bar s2).
        destruct (GB x Hx) as [H|((Hc & b & Hb & Hd) & H2 & H3)].
        + apply erased in H. destruct H as (H & Hn). destruct (Hs x H) as (S1 & S2 & S3). rewrite HB. 
          assert (N1: ~ In (efst x) Ch) by (intros F'; apply Hn in F'; tauto).
          assert (N2: ~ In (esnd x) Ch) by (intros F'; apply Hn in F'; tauto).
          assert (Ha: active g s1 (esnd x) (efst x)).
          { destruct S1 as (y & Gy & Y1 & Y2). exists y. rewrite !(u_content _ _ _ _ U) by auto. auto. }
          destruct (unchanged_pair (esnd x) (efst x) Ha N2 N1) as (_ & ->). split; [|auto].
          destruct Ha as (y & Gy & Y1 & Y2). exists y. auto.
        + split; [|auto]. destruct (member_active _ _ b Hc Hb Hd) as (y & Gy & Y1 & Y2). exists y. auto.
      - apply GA. change (evs s2) with (erase_events what (efst e) (esnd e) (evs s1)). unfold erase_events.
        apply ordered_filter_evs. rewrite (u_evs _ _ _ _ U). exact Ho.
    Qed.
  End Update.
End Step.
