(** One event preserves the invariant of the simulation in a cylinder specimen. *)
From Coq Require Import Reals ZArith List Bool Lia Lra Psatz.
From Verif Require Import Outcome AdaptiveModel AdaptiveProofs Vec3 CollisionModel CollisionSpec CollisionProofs CollisionProofs2
  PropCollision EventModel EventSpec EventProofs SubBoxModel SubBoxSpec SubBoxProofs SimModel SimSpec SimProofs SimProofs2 SimProofs3 SimProofs4
  SimProofs5 CylProofs1 CylProofs2.
Import ListNotations.
Local Open Scope R_scope.

Section CStep.
  Variable g : grid.
  Variable what : Z -> object.
  Variable ids : list Z.
  Variable p : v3.
  Variable r : R.
  Variable hascyl : Z -> Z -> bool.
  Variable tlim : R.
  Let W := new_cylinder p ez r.
  Hypothesis OK : gridok g.
  Hypothesis SPH : forall i, In i ids -> what i = OSphere.
  Hypothesis GX0 : plane g 0 0 = vx p - r.
  Hypothesis GX1 : plane g 0 (gn g 0) = vx p + r.
  Hypothesis GY0 : plane g 1 0 = vy p - r.
  Hypothesis GY1 : plane g 1 (gn g 1) = vy p + r.
  Hypothesis ENC : forall x y qx qy, (0 <= x < gn g 0)%Z -> (0 <= y < gn g 1)%Z ->
    plane g 0 x < qx < plane g 0 (x + 1) -> plane g 1 y < qy < plane g 1 (y + 1) ->
    (qx - vx p) * (qx - vx p) + (qy - vy p) * (qy - vy p) = r * r -> hascyl x y = true.

  Notation phys := (cphys g what ids p r hascyl tlim).
  Notation body := (cbody g what ids p r).
  Definition cinv (s : sim) (T : R) : Prop :=
    phys s T /\ complete g what s /\ sound g what s /\ ordered_evs (evs s).

  Lemma cphys_with s T b l : phys s T -> phys (mkSim (sph s) (content s) (inboxes s) l b) T.
  Proof. intros [A B C D E F G H I J K L M N]. constructor; auto. Qed.

  Lemma cset_barrier_ok s T t : phys s T ->
    exists s', set_barrier what (num_boxes g) t s = Ok s' /\ cinv s' T /\
      sph s' = sph s /\ content s' = content s /\ inboxes s' = inboxes s /\ bar s' = t.
  Proof.
    intros P. unfold set_barrier. set (s0 := mkSim (sph s) (content s) (inboxes s) [] t).
    assert (P0: phys s0 T) by (apply cphys_with; auto).
    assert (Hact: forall c d, (exists b, In b (zrange 0 (num_boxes g - 1)) /\ In c (content s0 b) /\ In d (content s0 b)) <-> active g s0 c d).
    { intros c d. split.
      - intros (b & Hb & H). apply (in_range g OK) in Hb. destruct Hb as (x & Gx & ->). exists x. auto.
      - intros (x & Gx & H). exists (idx g x). split; auto. apply (in_range g OK). eauto. }
    destruct (rebuild_ok what s0 (zrange 0 (num_boxes g - 1))) with (l := @nil event) as (l & E & (G1 & G2 & G3 & G4)).
    { intros c d H. apply Hact in H. destruct (cpredict_ok g what ids p r SPH s0 T c d (cphys_body _ _ _ _ _ _ _ _ _ P0) H) as (u & Eu & _). eauto. }
    rewrite E. cbn [omap]. eexists. split; [reflexivity|]. split; [|auto].
    split; [apply cphys_with; exact P0|]. split; [|split; [|apply G1; exact I]].
    - intros c d u Ha Eu Hu. apply (G4 c d u); auto. apply Hact. exact Ha.
    - intros e He. destruct (G2 e He) as [[]|(H1 & H2 & H3)]. apply Hact in H1. split; [|auto].
      destruct H1 as (x & Gx & X1 & X2). exists x. auto.
  Qed.
  Section CUpdate.
    Variables (s s1 : sim) (T T' : R) (Ch : list Z).
    Hypothesis P : phys s T.
    Hypothesis C : complete g what s.
    Hypothesis Hev : forall e, In e (evs s) -> T' <= etime e.
    Hypothesis HTT : T <= T'.
    Hypothesis Hbar : T' <= bar s.
    Hypothesis Hlim : T' <= tlim.
    Hypothesis HCh : incl Ch ids.
    Hypothesis U : upd g Ch s s1 T'.

    Lemma cunchanged_pair c1 c2 : active g s1 c1 c2 -> ~ In c1 Ch -> ~ In c2 Ch ->
      active g s c1 c2 /\ predict what s1 c1 c2 = predict what s c1 c2.
    Proof.
      intros (c & G & H1 & H2) N1 N2. apply (u_content _ _ _ _ _ U) in H1, H2; auto. split; [exists c; auto|].
      destruct (u_other _ _ _ _ _ U c1 N1) as (A1 & B1). destruct (u_other _ _ _ _ _ U c2 N2) as (A2 & B2).
      unfold predict, predict_box_wall, in_outside. rewrite A1, A2, B1, B2. reflexivity.
    Qed.

    Lemma cupd_phys : phys s1 T'.
    Proof.
      assert (D: forall k, In k Ch \/ ~ In k Ch) by (intros k; destruct (in_dec Z.eq_dec k Ch); auto).
      assert (A_sid: forall i, In i ids -> sid (sph s1 i) = i).
      { intros i Hi. destruct (D i) as [H|H].
        - destruct (u_changed _ _ _ _ _ U i H) as (E & _). rewrite E. apply (c_sid _ _ _ _ _ _ _ _ _ P i Hi).
        - destruct (u_other _ _ _ _ _ U i H) as (-> & _). apply (c_sid _ _ _ _ _ _ _ _ _ P i Hi). }
      assert (A_clock: forall i, In i ids -> 0 <= stime (sph s1 i) <= T').
      { intros i Hi. pose proof (c_clock _ _ _ _ _ _ _ _ _ P i Hi). destruct (D i) as [H'|H'].
        - destruct (u_changed _ _ _ _ _ U i H') as (_ & E & _). lra.
        - destruct (u_other _ _ _ _ _ U i H') as (-> & _). lra. }
      assert (A_prop: forall i, In i ids -> proper (sph s1 i)).
      { intros i Hi. pose proof (c_proper _ _ _ _ _ _ _ _ _ P i Hi) as (R0 & G0). destruct (D i) as [H'|H'].
        - destruct (u_changed _ _ _ _ _ U i H') as (_ & _ & _ & E & _ & _ & Eg). unfold proper. rewrite E, Eg. split; auto.
          apply radius_pos; [split; auto|]. pose proof (c_clock _ _ _ _ _ _ _ _ _ P i Hi). lra.
        - destruct (u_other _ _ _ _ _ U i H') as (-> & _). split; auto. }
      assert (A_at: forall i, In i ids -> centre_at (sph s1 i) T' = centre_at (sph s i) T' /\ radius_at (sph s1 i) T' = radius_at (sph s i) T').
      { intros i Hi. destruct (D i) as [H'|H'].
        - pose proof (u_changed _ _ _ _ _ U i H') as M. split; [apply moved_centre|apply moved_radius]; auto.
        - destruct (u_other _ _ _ _ _ U i H') as (-> & _). auto. }
      assert (A_no: forall i j, In i ids -> In j ids -> i <> j -> ~ overlap_at (sph s1 i) (sph s1 j) (pair_now (sph s1 i) (sph s1 j))).
      { intros i j Hi Hj Hij.
        pose proof (A_clock i Hi) as Ci. pose proof (A_clock j Hj) as Cj.
        assert (M: In i Ch \/ In j Ch -> ~ overlap_at (sph s1 i) (sph s1 j) (pair_now (sph s1 i) (sph s1 j))).
        { intros HH. assert (E: pair_now (sph s1 i) (sph s1 j) = T').
          { unfold pair_now. destruct HH as [HH|HH]; destruct (u_changed _ _ _ _ _ U _ HH) as (_ & E & _); rewrite E; [apply Rmax_left|apply Rmax_right]; lra. }
          rewrite E. unfold overlap_at. destruct (A_at i Hi) as (-> & ->). destruct (A_at j Hj) as (-> & ->).
          apply (capart_between g what ids p r hascyl tlim OK SPH GX0 GX1 GY0 GY1 ENC s T T' i j T' P C Hev Hbar Hlim Hi Hj Hij). unfold pair_now.
          pose proof (c_clock _ _ _ _ _ _ _ _ _ P i Hi). pose proof (c_clock _ _ _ _ _ _ _ _ _ P j Hj).
          split; [apply Rmax_lub; lra|lra]. }
        destruct (D i) as [Hi'|Hi']; [apply M; auto|]. destruct (D j) as [Hj'|Hj']; [apply M; auto|].
        destruct (u_other _ _ _ _ _ U i Hi') as (-> & _). destruct (u_other _ _ _ _ _ U j Hj') as (-> & _).
        apply (c_no _ _ _ _ _ _ _ _ _ P i j); auto. }
      assert (A_cont: forall c d, ingrid g c -> In d (content s1 (idx g c)) ->
        In d ids \/ (exists k, (k < 6)%nat /\ what d = OWall (wallof g c k)) \/ what d = OCylinder W (idx g c)).
      { intros c d G H. destruct (D d) as [H'|H']; [left; auto|]. apply (u_content _ _ _ _ _ U) in H; auto.
        apply (c_cont _ _ _ _ _ _ _ _ _ P c d G H). }
      assert (A_in: forall i, In i ids -> inside g p r (sph s1 i) (stime (sph s1 i))).
      { intros i Hi. destruct (D i) as [H'|H'].
        - pose proof (u_changed _ _ _ _ _ U i H') as M. assert (Et: stime (sph s1 i) = T') by apply M. rewrite Et.
          pose proof (c_clock _ _ _ _ _ _ _ _ _ P i Hi).
          destruct (cstays_inside g what ids p r hascyl tlim OK SPH GX0 GX1 GY0 GY1 ENC s T T' i P C Hev Hbar Hlim Hi T') as (Q1 & Q2); [lra|]. split.
          + intros a Ha. unfold lo, hi. rewrite (moved_centre _ _ _ M), (moved_radius _ _ _ M). apply Q1; auto.
          + unfold cgap, cylinder_gap in *. rewrite (moved_centre _ _ _ M), (moved_radius _ _ _ M). exact Q2.
        - destruct (u_other _ _ _ _ _ U i H') as (-> & _). apply (c_in _ _ _ _ _ _ _ _ _ P i Hi). }
      assert (A_gap: forall i, In i ids -> 0 <= cgap p r (sph s1 i) (stime (sph s1 i))) by (intros i Hi; apply (A_in i Hi)).
      assert (A_body: body s1 T').
      { unfold cbody. split; [exact A_sid|]. split; [exact A_clock|]. split; [exact A_prop|]. split; [exact A_gap|]. split; [exact A_no|exact A_cont]. }
      constructor; auto.
      - intros i Hi. pose proof (c_cons _ _ _ _ _ _ _ _ _ P i Hi) as E0. destruct (D i) as [H'|H'].
        + destruct (u_changed _ _ _ _ _ U i H') as (_ & E1 & _ & E2 & E3 & E4 & E5). rewrite E1, E2, E3, E4, E5.
          unfold radius_at. rewrite E0. ring.
        + destruct (u_other _ _ _ _ _ U i H') as (-> & _). auto.
      - intros i Hi. pose proof (c_small _ _ _ _ _ _ _ _ _ P i Hi) as E0. destruct (D i) as [H'|H'].
        + destruct (u_changed _ _ _ _ _ U i H') as (_ & E1 & _ & E2 & _ & _ & E5). unfold radius_at in *. rewrite E1, E2, E5. lra.
        + destruct (u_other _ _ _ _ _ U i H') as (-> & _). auto.
      - intros i c Hi G Hp. destruct (D i) as [H'|H'].
        + apply (u_reg _ _ _ _ _ U i c H' G). pose proof (u_changed _ _ _ _ _ U i H') as M.
          assert (Et: stime (sph s1 i) = T') by apply M. rewrite Et in Hp.
          intros a Ha. specialize (Hp a Ha). unfold lo, hi in *. rewrite (moved_centre _ _ _ M), (moved_radius _ _ _ M) in Hp. auto.
        + destruct (u_other _ _ _ _ _ U i H') as (E & _). rewrite E in Hp. apply (u_content _ _ _ _ _ U); auto.
          apply (c_reg _ _ _ _ _ _ _ _ _ P i c); auto.
      - intros i c Hi G. destruct (D i) as [H'|H']; [apply (u_coh _ _ _ _ _ U); auto|].
        destruct (u_other _ _ _ _ _ U i H') as (_ & ->). rewrite (u_content _ _ _ _ _ U) by auto. apply (c_coh _ _ _ _ _ _ _ _ _ P i c Hi G).
      - intros i b Hi Hb. destruct (D i) as [H'|H']; [apply (u_box _ _ _ _ _ U i b H' Hb)|].
        destruct (u_other _ _ _ _ _ U i H') as (_ & E). rewrite E in Hb. apply (c_box _ _ _ _ _ _ _ _ _ P i b Hi Hb).
      - intros c a up G Ha Hn. destruct (c_walls _ _ _ _ _ _ _ _ _ P c a up G Ha Hn) as (d & Hd & Hw). exists d. split; auto.
        apply (u_content _ _ _ _ _ U); auto. intros F. apply HCh in F. rewrite (SPH d F) in Hw. discriminate.
      - intros c G Hc. destruct (c_cyl _ _ _ _ _ _ _ _ _ P c G Hc) as (d & Hd & Hw). exists d. split; auto.
        apply (u_content _ _ _ _ _ U); auto. intros F. apply HCh in F. rewrite (SPH d F) in Hw. discriminate.
      - intros c1 c2 t Ha E.
        assert (M: In c1 Ch \/ In c2 Ch -> t < 0 \/ T' <= t).
        { intros HH. destruct (cpredict_ok g what ids p r SPH s1 T' c1 c2 A_body Ha) as (t' & E' & _ & Q).
          assert (t' = t) by congruence. subst t'. destruct Q as [->|Q]; [left; unfold EVENTNULL; lra|right].
          destruct HH as [HH|HH]; destruct (u_changed _ _ _ _ _ U _ HH) as (_ & <- & _); apply Q; auto. }
        destruct (D c1) as [N1|N1]; [auto|]. destruct (D c2) as [N2|N2]; [auto|].
        destruct (cunchanged_pair c1 c2 Ha N1 N2) as (Ha' & E'). rewrite E' in E.
        destruct (c_pred _ _ _ _ _ _ _ _ _ P c1 c2 t Ha' E) as [|Ht]; [auto|]. destruct (Rlt_or_le t 0) as [|H0]; [auto|]. right.
        destruct (Rle_or_lt t (bar s)) as [L|L]; [|lra].
        destruct (C c1 c2 t Ha' E ltac:(lra)) as (e & He & (Et & _)). apply Hev in He. cbn [etime] in Et. lra.
    Qed.

    (** the events that are left and the new ones *)
    Variable e : event.
    Hypothesis Hs : sound g what s.
    Hypothesis Ho : ordered_evs (evs s).
    Hypothesis He : active g s (efst e) (esnd e).
    Hypothesis HCe : forall k, In k Ch <-> In k ids /\ (k = efst e \/ k = esnd e).
    Let s2 := with_events s1 (erase_events what (efst e) (esnd e) (evs s1)).

    Lemma cerased x : In x (erase_events what (efst e) (esnd e) (evs s1)) <->
      In x (evs s) /\ forall k, In k Ch -> efst x <> k /\ esnd x <> k.
    Proof.
      unfold erase_events. rewrite filter_In, (u_evs _ _ _ _ _ U), negb_true_iff, orb_false_iff. unfold concerns, is_sphere.
      destruct He as (c & Gc & H1 & H2).
      assert (Q: forall d, In d (content s (idx g c)) -> (d = efst e \/ d = esnd e) ->
        ((match what d with OSphere => true | _ => false end && (Z.eqb (efst x) d || Z.eqb (esnd x) d))%bool = false <->
         (In d Ch -> efst x <> d /\ esnd x <> d))).
      { intros d Hd Hde. destruct (c_cont _ _ _ _ _ _ _ _ _ P c d Gc Hd) as [I|[(k & _ & Wd)|Wd]].
        - rewrite (SPH d I). cbn [andb]. rewrite orb_false_iff, !Z.eqb_neq. split; auto. intros F. apply F, HCe. auto.
        - rewrite Wd. cbn [andb]. split; auto. intros _ F. apply HCh in F. rewrite (SPH d F) in Wd. discriminate.
        - rewrite Wd. cbn [andb]. split; auto. intros _ F. apply HCh in F. rewrite (SPH d F) in Wd. discriminate. }
      rewrite (Q (efst e) H1) by auto. rewrite (Q (esnd e) H2) by auto. split.
      - intros (X & A & B). split; auto. intros k Hk. pose proof Hk as Hk'. apply HCe in Hk'. destruct Hk' as (_ & [->| ->]); auto.
      - intros (X & A). split; auto.
    Qed.

    Lemma cmember_active c d b : (c = efst e \/ c = esnd e) -> In b (boxes_of what s2 c) -> In d (content s2 b) -> active g s1 c d.
    Proof.
      intros Hc Hb Hd. unfold boxes_of in Hb. destruct He as (x & Gx & H1 & H2).
      assert (Hcx: In c (content s (idx g x))) by (destruct Hc as [->| ->]; auto).
      destruct (c_cont _ _ _ _ _ _ _ _ _ P x c Gx Hcx) as [I|[(k & Hk & Wd)|Wd]].
      - rewrite (SPH c I) in Hb. assert (HcC: In c Ch) by (apply HCe; auto).
        destruct (u_box _ _ _ _ _ U c b HcC Hb) as (y & Gy & ->). exists y. split; auto. split; [|exact Hd].
        apply (u_coh _ _ _ _ _ U c y HcC Gy). exact Hb.
      - rewrite Wd in Hb. destruct Hb as [<-|[]]. destruct (side_cases k Hk) as (a & up & Ha & ->).
        destruct (wall_links g x a up OK Gx Ha) as (L & _). rewrite L in Hd. exists x. split; auto. split; [|exact Hd].
        apply (u_content _ _ _ _ _ U); auto. intros F. apply HCh in F. rewrite (SPH c F) in Wd. discriminate.
      - rewrite Wd in Hb. destruct Hb as [<-|[]]. exists x. split; auto. split; [|exact Hd].
        apply (u_content _ _ _ _ _ U); auto. intros F. apply HCh in F. rewrite (SPH c F) in Wd. discriminate.
    Qed.

    Lemma cnew_events : exists l1 l2,
      create_in_boxes what s2 (efst e) (boxes_of what s2 (efst e)) (evs s2) = Ok l1 /\
      create_in_boxes what s2 (esnd e) (boxes_of what s2 (esnd e)) l1 = Ok l2 /\ cinv (with_events s2 l2) T'.
    Proof.
      pose proof cupd_phys as P1. pose proof (cphys_body _ _ _ _ _ _ _ _ _ P1) as B1.
      assert (F: forall c, (c = efst e \/ c = esnd e) -> fine what s2 (fun c' d => c' = c /\ exists b, In b (boxes_of what s2 c) /\ In d (content s2 b))).
      { intros c Hc c' d (-> & b & Hb & Hd). destruct (cpredict_ok g what ids p r SPH s1 T' c d B1 (cmember_active c d b Hc Hb Hd)) as (t & Et & _).
        exists t. exact Et. }
      destruct (create_in_boxes_ok what s2 (efst e) _ (F (efst e) ltac:(auto)) (evs s2)) as (l1 & E1 & G1).
      destruct (create_in_boxes_ok what s2 (esnd e) _ (F (esnd e) ltac:(auto)) l1) as (l2 & E2 & G2).
      exists l1, l2. split; [exact E1|]. split; [exact E2|].
      set (Q := fun c d => (c = efst e \/ c = esnd e) /\ exists b, In b (boxes_of what s2 c) /\ In d (content s2 b)).
      assert (G: grown what s2 Q (evs s2) l2).
      { apply (grown_app what s2 _ _ Q _ _ _ G1 G2). intros c d. unfold Q. split.
        - intros ([->| ->] & H); auto.
        - intros [(-> & H)|(-> & H)]; auto. }
      destruct G as (GA & GB & GC & GD).
      assert (D: forall k, In k Ch \/ ~ In k Ch) by (intros k; destruct (in_dec Z.eq_dec k Ch); auto).
      assert (HB: bar s2 = bar s) by apply (u_bar _ _ _ _ _ U).
      split; [apply (cphys_with s1 T' (bar s1) l2 P1)|]. split; [|split].
      - intros c1 c2 t Ha Et Ht.
        change (predict what s1 c1 c2 = Ok t) in Et. change (active g s1 c1 c2) in Ha. change (0 <= t <= bar s2) in Ht.
        change (exists x, In x l2 /\ same_event x (mkEvent t c2 c1)).
        assert (HQ: forall c d, active g s1 c d -> In c Ch -> Q c d).
        { intros c d (x & Gx & X1 & X2) Hc. split; [apply HCe; auto|]. exists (idx g x). split; [|exact X2].
          unfold boxes_of. rewrite (SPH c (HCh c Hc)). apply (u_coh _ _ _ _ _ U c x Hc Gx). exact X1. }
        destruct (D c1) as [N1|N1]; [apply (GD c1 c2 t); auto|].
        destruct (D c2) as [N2|N2].
        + destruct (cpredict_ok g what ids p r SPH s1 T' c1 c2 B1 Ha) as (t' & A1 & A2 & _). assert (t' = t) by congruence. subst t'.
          destruct (GD c2 c1 t) as (x & X1 & X2); auto.
          { apply HQ; auto. destruct Ha as (x & Gx & X1 & X2). exists x. auto. }
          exists x. split; auto. apply same_event_swap; auto.
        + destruct (cunchanged_pair c1 c2 Ha N1 N2) as (Ha' & E'). rewrite E' in Et. rewrite HB in Ht.
          destruct (C c1 c2 t Ha' Et Ht) as (x & X1 & X2). exists x. split; auto. apply GC. apply cerased. split; auto.
          intros k Hk. destruct X2 as (_ & [(Y1 & Y2)|(Y1 & Y2)]); cbn [efst esnd] in Y1, Y2; rewrite Y1, Y2; split; intros ->; contradiction.
      - intros x Hx. change (In x l2) in Hx.
        change (active g s1 (efst x) (esnd x) /\ predict what s1 (esnd x) (efst x) = Ok (etime x) /\ 0 <= etime x <= bar s2).
        destruct (GB x Hx) as [H|((Hc & b & Hb & Hd) & H2 & H3)].
        + apply cerased in H. destruct H as (H & Hn). destruct (Hs x H) as (S1 & S2 & S3). rewrite HB. 
          assert (N1: ~ In (efst x) Ch) by (intros F'; apply Hn in F'; tauto).
          assert (N2: ~ In (esnd x) Ch) by (intros F'; apply Hn in F'; tauto).
          assert (Ha: active g s1 (esnd x) (efst x)).
          { destruct S1 as (y & Gy & Y1 & Y2). exists y. rewrite !(u_content _ _ _ _ _ U) by auto. auto. }
          destruct (cunchanged_pair (esnd x) (efst x) Ha N2 N1) as (_ & ->). split; [|auto].
          destruct Ha as (y & Gy & Y1 & Y2). exists y. auto.
        + split; [|auto]. destruct (cmember_active _ _ b Hc Hb Hd) as (y & Gy & Y1 & Y2). exists y. auto.
      - apply GA. change (evs s2) with (erase_events what (efst e) (esnd e) (evs s1)). unfold erase_events.
        apply ordered_filter_evs. rewrite (u_evs _ _ _ _ _ U). exact Ho.
    Qed.
  End CUpdate.
End CStep.
