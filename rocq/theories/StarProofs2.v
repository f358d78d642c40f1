(** * Point in polygon for star-shaped polygons: points at the height of the center, both directions *)
From Coq Require Import Reals ZArith List Bool Arith Lia Lra Psatz Permutation.
From Verif Require Import Outcome AdaptiveModel AdaptiveProofs CollisionModel CollisionProofs2 DelaunayModel DelaunaySpec DelaunayProofs DelaunayProofs2 StarProofs.
Import ListNotations.
Local Open Scope R_scope.

(** ** small steps up *)
Definition up (P : p2) (e : R) : p2 := (px P, py P + e).
Definition soon (Q : R -> Prop) : Prop := exists d, 0 < d /\ forall e, 0 < e < d -> Q e.
Lemma soon_and Q Q' : soon Q -> soon Q' -> soon (fun e => Q e /\ Q' e).
Proof.
  intros (d & D & H) (d' & D' & H'). destruct (min_pos d d' D D') as (m & M & L & L'). exists m. split; [exact M|].
  intros e He. split; [apply H|apply H']; lra.
Qed.
Lemma soon_imp (Q Q' : R -> Prop) : (forall e, 0 < e -> Q e -> Q' e) -> soon Q -> soon Q'.
Proof. intros HQ (d & D & H). exists d. split; [exact D|]. intros e He. apply HQ; [lra|]. now apply H. Qed.
Lemma soon_true (Q : R -> Prop) : (forall e, 0 < e -> Q e) -> soon Q.
Proof. intro H. exists 1. split; [lra|]. intros e He. apply H. lra. Qed.
Lemma soon_all {A : Type} (Q : A -> R -> Prop) l : (forall x, In x l -> soon (Q x)) -> soon (fun e => forall x, In x l -> Q x e).
Proof.
  induction l as [|x l IH]; intro H; [apply soon_true; intros e _ y []|].
  eapply soon_imp; [|apply soon_and; [apply (H x); now left|apply IH; intros; apply H; now right]].
  intros e _ (H1 & H2) y [<-|Hy]; auto.
Qed.
Lemma soon_ex Q : soon Q -> exists e, 0 < e /\ Q e.
Proof. intros (d & D & H). exists (d / 2). split; [lra|]. apply H. lra. Qed.
Lemma soon_pos x k : 0 < x -> soon (fun e => 0 < x + k * e).
Proof.
  intro H. exists (x / (Rabs k + 1)). pose proof (Rabs_pos k). split; [apply Rdiv_lt_0_compat; lra|].
  intros e (E0 & E1). apply (Rmult_lt_compat_r (Rabs k + 1)) in E1; [|lra]. unfold Rdiv in E1. rewrite Rmult_assoc, Rinv_l in E1 by lra.
  pose proof (Rle_abs (- k)). rewrite Rabs_Ropp in *. nra.
Qed.
Lemma orient_up A B P e : orient A B (up P e) = orient A B P + (px B - px A) * e.
Proof. unfold orient, up, px, py. cbn [fst snd]. ring. Qed.
Lemma soon_up A B P : 0 < orient A B P -> soon (fun e => 0 < orient A B (up P e)).
Proof. intro H. eapply soon_imp; [|exact (soon_pos _ (px B - px A) H)]. intros e _ X. rewrite orient_up. exact X. Qed.
Lemma soon_up_neg A B P : orient A B P < 0 -> soon (fun e => orient A B (up P e) < 0).
Proof.
  intro H. eapply soon_imp; [|apply (soon_pos (- orient A B P) (- (px B - px A))); lra]. intros e _ X. rewrite orient_up. lra.
Qed.
Lemma soon_below A P : generic P A -> soon (fun e => generic (up P e) A /\ below A (up P e) = below A P).
Proof.
  intro G. destruct (below_cases A P G) as [(-> & L)|(-> & L)].
  - apply soon_true. intros e He. unfold generic, below, up, py in *. cbn [snd]. split; [lra|]. destruct (rltb_spec (snd A) (snd P + e)) as [(-> & _)|(_ & X)]; [reflexivity|lra].
  - eapply soon_imp; [|exact (soon_pos _ (-1) L)]. cbv beta. intros e He X. unfold generic, below, up, py in *. cbn [snd]. split; [lra|].
    destruct (rltb_spec (snd A) (snd P + e)) as [(_ & Y)|(-> & _)]; [lra|reflexivity].
Qed.
Lemma soon_hits A B P : generic P A -> generic P B -> (xorb (below A P) (below B P) = true -> orient A B P <> 0) ->
  soon (fun e => hits (up P e) (A, B) = hits P (A, B)).
Proof.
  intros GA GB HE. pose proof (soon_and _ _ (soon_below A P GA) (soon_below B P GB)) as SB.
  destruct (xorb (below A P) (below B P)) eqn:EX.
  - specialize (HE eq_refl). destruct (Rtotal_order (orient A B P) 0) as [L|[L|L]]; [|contradiction|].
    + eapply soon_imp; [|exact (soon_and _ _ SB (soon_up_neg A B P L))]. intros e _ (((G1 & B1) & G2 & B2) & O).
      rewrite !hits_generic by assumption. rewrite B1, B2, (lft_neg A B _ O), (lft_neg A B P L). reflexivity.
    + eapply soon_imp; [|exact (soon_and _ _ SB (soon_up A B P L))]. intros e _ (((G1 & B1) & G2 & B2) & O).
      rewrite !hits_generic by assumption. rewrite B1, B2, (lft_pos A B _ O), (lft_pos A B P L). reflexivity.
  - eapply soon_imp; [|exact SB]. intros e _ ((G1 & B1) & G2 & B2). rewrite !hits_generic by assumption. rewrite B1, B2, EX. reflexivity.
Qed.
(** a point on a side *)
Lemma on_side c A B P : generic P A -> generic P B -> xorb (below A P) (below B P) = true -> orient A B P = 0 -> 0 < orient c A B ->
  0 < orient c A P /\ 0 < orient B c P.
Proof.
  intros GA GB HX HZ HT.
  assert (I1 : orient c A P * (py B - py A) = (py P - py A) * orient c A B + orient A B P * (py A - py c)) by (unfold orient, py; ring).
  assert (I2 : orient B c P * (py B - py A) = (py B - py P) * orient c A B - orient A B P * (py B - py c)) by (unfold orient, py; ring).
  rewrite HZ in I1, I2.
  destruct (below_cases A P GA) as [(EA & LA)|(EA & LA)], (below_cases B P GB) as [(EB & LB)|(EB & LB)]; rewrite EA, EB in HX; try discriminate HX.
  - assert (0 < (py P - py A) * orient c A B) by (apply Rmult_lt_0_compat; lra). assert (0 < (py B - py P) * orient c A B) by (apply Rmult_lt_0_compat; lra).
    split; nra.
  - assert (0 < - (py P - py A) * orient c A B) by (apply Rmult_lt_0_compat; lra). assert (0 < - (py B - py P) * orient c A B) by (apply Rmult_lt_0_compat; lra).
    split; nra.
Qed.

Section Star2.
Variables (c : p2) (ps : list p2).
Hypotheses (HN : ps <> []) (ND : NoDup ps) (HO : forall A B, In (A, B) (cyclic_edges ps) -> 0 < orient c A B)
  (HD : forall A B A' B' Q, In (A, B) (cyclic_edges ps) -> In (A', B') (cyclic_edges ps) ->
     in_open_triangle 1 c A B Q -> in_open_triangle 1 c A' B' Q -> A = A').

Lemma soon_parity P : (forall A, In A ps -> generic P A) ->
  (forall A B, In (A, B) (cyclic_edges ps) -> xorb (below A P) (below B P) = true -> orient A B P <> 0) ->
  soon (fun e => (forall A, In A ps -> generic (up P e) A) /\ parity (hits (up P e)) (cyclic_edges ps) = parity (hits P) (cyclic_edges ps)).
Proof.
  intros HG HS. apply soon_and.
  - apply soon_all. intros A HA. eapply soon_imp; [|exact (soon_below A P (HG A HA))]. intros e _ (X & _). exact X.
  - eapply soon_imp; [|apply (soon_all (fun x e => hits (up P e) x = hits P x) (cyclic_edges ps))].
    + intros e _ H. apply parity_ext. exact H.
    + intros [A B] He. destruct (cyclic_in _ _ _ He). apply soon_hits; auto.
Qed.

Lemma inside_not_on_side P A B A' B' : (forall A, In A ps -> generic P A) -> In (A, B) (cyclic_edges ps) ->
  0 < orient c A P -> 0 < orient B c P -> 0 < orient A B P -> In (A', B') (cyclic_edges ps) ->
  xorb (below A' P) (below B' P) = true -> orient A' B' P <> 0.
Proof.
  intros HG He H1 H2 H3 He' HX HZ. destruct (cyclic_in _ _ _ He') as (I1 & I2). pose proof (HO _ _ He') as HT.
  destruct (on_side c A' B' P (HG _ I1) (HG _ I2) HX HZ HT) as (Q1 & Q2).
  set (q := fun e => (px P + e * (px c - px P), py P + e * (py c - py P)) : p2).
  assert (OQ : forall X Y e, orient X Y (q e) = orient X Y P + (orient X Y c - orient X Y P) * e) by (intros X Y e; unfold orient, q, px, py; cbn [fst snd]; ring).
  assert (T : forall X Y, 0 < orient X Y P -> soon (fun e => 0 < orient X Y (q e))).
  { intros X Y HXY. eapply soon_imp; [|exact (soon_pos _ (orient X Y c - orient X Y P) HXY)]. intros e _ Z. rewrite OQ. exact Z. }
  assert (T' : soon (fun e => 0 < orient A' B' (q e))).
  { apply soon_true. intros e E0. rewrite OQ, HZ. rewrite <- (orient_cycle c A' B'). nra. }
  destruct (soon_ex _ (soon_and _ _ (soon_and _ _ (soon_and _ _ (T _ _ H1) (T _ _ H2)) (T _ _ H3)) (soon_and _ _ T' (soon_and _ _ (T _ _ Q1) (T _ _ Q2)))))
    as (e & _ & ((X1 & X2) & X3) & X4 & X5 & X6).
  assert (A = A') as <- by (apply (HD A B A' B' (q e) He He'); unfold in_open_triangle; lra).
  assert (B = B') as <- by (eapply cyclic_fst; eassumption). lra.
Qed.

(** ** the center itself *)
Lemma path_stays : forall (g : p2 -> bool) l a, (forall b d, In (b, d) (path a l) -> g b = true -> g d = true) -> g a = true ->
  forall b, In b (a :: l) -> g b = true.
Proof.
  intros g l. induction l as [|x l IH]; intros a H Ha b Hb.
  - destruct Hb as [<-|[]]. exact Ha.
  - destruct Hb as [<-|Hb]; [exact Ha|]. apply (IH x); auto.
    + intros b' d' Hbd. apply H. now right.
    + apply (H a x); auto. now left.
Qed.
Lemma path_decreasing : forall (f : p2 -> R) l a, (forall b d, In (b, d) (path a l) -> f d < f b) -> l <> [] -> f (last l a) < f a.
Proof.
  intros f l. induction l as [|x l IH]; intros a H Hl; [congruence|]. rewrite last_cons. pose proof (H a x (or_introl eq_refl)) as H0.
  destruct l as [|y l]; [exact H0|]. assert (f (last (y :: l) x) < f x) by (apply IH; [intros b d Hbd; apply H; now right|discriminate]). lra.
Qed.
Lemma center_hits A B : generic c A -> generic c B -> In (A, B) (cyclic_edges ps) -> hits c (A, B) = andb (below A c) (negb (below B c)).
Proof.
  intros GA GB He. rewrite hits_generic by assumption. rewrite (lft_pos A B c) by (rewrite <- (orient_cycle c A B); auto).
  destruct (below A c), (below B c); reflexivity.
Qed.
Lemma same_side_impossible (sg : R) : (forall A, In A ps -> 0 < sg * (py A - py c)) -> False.
Proof.
  intro H. destruct ps as [|p l] eqn:E; [congruence|]. set (f := fun A : p2 => (px A - px c) / (py A - py c)).
  assert (HH : f (last (l ++ [p]) p) < f p).
  { apply path_decreasing; [|destruct l; discriminate]. intros A B HAB. rewrite <- cyclic_path in HAB. destruct (cyclic_in _ _ _ HAB) as (IA & IB).
    pose proof (HO _ _ HAB) as HT. pose proof (H _ IA) as HA. pose proof (H _ IB) as HB. unfold f.
    assert (NA : py A - py c <> 0) by (intro Z; rewrite Z in HA; lra). assert (NB : py B - py c <> 0) by (intro Z; rewrite Z in HB; lra).
    assert (PP : 0 < (py A - py c) * (py B - py c)).
    { assert (0 < (sg * (py A - py c)) * (sg * (py B - py c))) by (apply Rmult_lt_0_compat; assumption).
      assert (0 < sg * sg) by (destruct (Req_dec sg 0) as [->|]; nra). nra. }
    apply (Rmult_lt_reg_r ((py A - py c) * (py B - py c))); [exact PP|].
    replace ((px B - px c) / (py B - py c) * ((py A - py c) * (py B - py c))) with ((px B - px c) * (py A - py c)) by (field; exact NB).
    replace ((px A - px c) / (py A - py c) * ((py A - py c) * (py B - py c))) with ((px A - px c) * (py B - py c)) by (field; exact NA).
    unfold orient, px, py in *. lra. }
  rewrite last_snoc in HH. lra.
Qed.
Lemma center_true : (forall A, In A ps -> generic c A) -> parity (hits c) (cyclic_edges ps) = true.
Proof.
  intro HG.
  assert (EX : exists A B, In (A, B) (cyclic_edges ps) /\ below A c = true /\ below B c = false).
  { destruct (existsb (fun e => andb (below (fst e) c) (negb (below (snd e) c))) (cyclic_edges ps)) eqn:EE.
    - apply existsb_exists in EE. destruct EE as ([A B] & He & HB). cbn [fst snd] in HB. apply andb_true_iff in HB. destruct HB as (H1 & H2).
      exists A, B. split; [exact He|]. split; [exact H1|]. now apply negb_true_iff.
    - exfalso.
      assert (NO : forall A B, In (A, B) (cyclic_edges ps) -> below A c = true -> below B c = true).
      { intros A B He HB. destruct (below B c) eqn:EB; trivial. exfalso.
        assert (X : existsb (fun e => andb (below (fst e) c) (negb (below (snd e) c))) (cyclic_edges ps) = true); [|congruence].
        apply existsb_exists. exists (A, B). split; [exact He|]. cbn [fst snd]. rewrite HB, EB. reflexivity. }
      destruct (existsb (fun A => below A c) ps) eqn:EA.
      + apply existsb_exists in EA. destruct EA as (A & HA & BA).
        apply (same_side_impossible (-1)). intros B HB.
        assert (BB : below B c = true).
        { destruct (in_split _ _ HA) as (l1 & l2 & EP).
          assert (Perm : Permutation (cyclic_edges ps) (cyclic_edges ((A :: l2) ++ l1))) by (rewrite EP; apply rotate_many).
          cbn [List.app] in Perm. rewrite cyclic_path in Perm.
          apply (path_stays (fun A => below A c) ((l2 ++ l1) ++ [A]) A); [|exact BA|].
          - intros b d Hbd. apply NO. eapply Permutation_in; [apply Permutation_sym; exact Perm|exact Hbd].
          - rewrite EP in HB. apply in_app_or in HB. destruct HB as [HB|[<-|HB]]; [right|now left|right]; apply in_or_app; left; apply in_or_app; auto. }
        destruct (below_cases B c (HG B HB)) as [(_ & L)|(E' & _)]; [lra|congruence].
      + apply (same_side_impossible 1). intros B HB. destruct (below_cases B c (HG B HB)) as [(E' & _)|(_ & L)]; [|lra].
        assert (X : existsb (fun A => below A c) ps = true) by (apply existsb_exists; exists B; auto). congruence. }
  destruct EX as (A & B & He & BA & BB).
  assert (HH : forall X Y, In (X, Y) (cyclic_edges ps) -> hits c (X, Y) = andb (below X c) (negb (below Y c))).
  { intros X Y HXY. destruct (cyclic_in _ _ _ HXY). apply center_hits; auto. }
  assert (OP : forall X Y, In (X, Y) (cyclic_edges ps) -> below X c = true -> below Y c = false -> soon (fun e => in_open_triangle 1 c X Y (shift c e))).
  { intros X Y HXY BX BY. destruct (cyclic_in _ _ _ HXY) as (IX & IY).
    destruct (below_cases X c (HG X IX)) as [(_ & LX)|(E' & _)]; [|congruence]. destruct (below_cases Y c (HG Y IY)) as [(E' & _)|(_ & LY)]; [congruence|].
    pose proof (HO _ _ HXY) as HT. eapply soon_imp; [|exact (soon_pos _ (- (py Y - py X)) HT)]. cbv beta. intros e E0 HS. unfold in_open_triangle.
    rewrite !orient_shift. rewrite <- (orient_cycle c X Y).
    replace (orient c X c) with 0 by (unfold orient; ring). replace (orient Y c c) with 0 by (unfold orient; ring). nra. }
  apply (parity_one _ _ _ (A, B)); auto using cyclic_nodup.
  - rewrite HH, BA, BB by exact He. reflexivity.
  - intros [A' B'] He' H'. rewrite HH in H' by exact He'. apply andb_true_iff in H'. destruct H' as (BA' & BB'). apply negb_true_iff in BB'.
    destruct (soon_ex _ (soon_and _ _ (OP _ _ He BA BB) (OP _ _ He' BA' BB'))) as (e & _ & X & Y).
    assert (A = A') as <- by (apply (HD A B A' B' (shift c e) He He'); assumption).
    f_equal. eapply cyclic_fst; eassumption.
Qed.

Lemma star_ccw P : (forall A, In A ps -> generic P A) ->
  (forall A B, In (A, B) (cyclic_edges ps) -> 0 <= orient c A P -> 0 <= orient B c P -> 0 < orient A B P -> parity (hits P) (cyclic_edges ps) = true) /\
  ((forall A B, In (A, B) (cyclic_edges ps) -> orient c A P < 0 \/ orient B c P < 0 \/ orient A B P < 0) -> parity (hits P) (cyclic_edges ps) = false).
Proof.
  intro HG. destruct (Req_dec (py c) (py P)) as [EY|GY].
  2:{ split; [intros A B He; apply (star_true c P ps) with (A := A) (B := B); assumption|apply (star_false c P ps); assumption]. }
  assert (GU : forall e, 0 < e -> generic (up P e) c) by (intros e E0; unfold generic, up, py in *; cbn [snd]; lra).
  split.
  - intros A B He H1 H2 H3. destruct (p2_dec P c) as [->|NP]; [now apply center_true|].
    destruct (cyclic_in _ _ _ He) as (IA & IB).
    assert (S1 : 0 < orient c A P).
    { destruct H1 as [H1|H1]; [exact H1|]. exfalso. apply NP. pose proof (HG A IA) as GA. destruct P as [x y], c as [cx cy], A as [ax ay].
      unfold generic, orient, py in *. cbn [fst snd] in *. subst cy. f_equal. assert ((ay - y) * (x - cx) = 0) as Z by lra.
      apply Rmult_integral in Z. lra. }
    assert (S2 : 0 < orient B c P).
    { destruct H2 as [H2|H2]; [exact H2|]. exfalso. apply NP. pose proof (HG B IB) as GB. destruct P as [x y], c as [cx cy], B as [bx by_].
      unfold generic, orient, py in *. cbn [fst snd] in *. subst cy. f_equal. assert ((y - by_) * (x - cx) = 0) as Z by nra.
      apply Rmult_integral in Z. lra. }
    destruct (soon_ex _ (soon_and _ _ (soon_parity P HG ltac:(intros A' B' He' HX; eapply inside_not_on_side with (A := A) (B := B); eassumption))
       (soon_and _ _ (soon_up _ _ _ S1) (soon_and _ _ (soon_up _ _ _ S2) (soon_up _ _ _ H3))))) as (e & E0 & (G' & EP) & X1 & X2 & X3).
    rewrite <- EP. apply (star_true c (up P e) ps ND HO HD G' A B); auto; lra.
  - intro H.
    assert (NS : forall A B, In (A, B) (cyclic_edges ps) -> xorb (below A P) (below B P) = true -> orient A B P <> 0).
    { intros A B He HX HZ. destruct (cyclic_in _ _ _ He) as (IA & IB).
      destruct (on_side c A B P (HG _ IA) (HG _ IB) HX HZ (HO _ _ He)). specialize (H _ _ He). lra. }
    assert (SO : soon (fun e => forall x, In x (cyclic_edges ps) -> orient c (fst x) (up P e) < 0 \/ orient (snd x) c (up P e) < 0 \/ orient (fst x) (snd x) (up P e) < 0)).
    { apply (soon_all (fun x e => orient c (fst x) (up P e) < 0 \/ orient (snd x) c (up P e) < 0 \/ orient (fst x) (snd x) (up P e) < 0)).
      intros [A B] He. cbn [fst snd]. destruct (H _ _ He) as [L|[L|L]]; (eapply soon_imp; [|exact (soon_up_neg _ _ _ L)]); intros e _ Z; auto. }
    destruct (soon_ex _ (soon_and _ _ (soon_parity P HG NS) SO)) as (e & E0 & (G' & EP) & X).
    rewrite <- EP. apply (star_false c (up P e) ps); auto. intros A B He. exact (X (A, B) He).
Qed.
End Star2.

(** ** both directions *)
Lemma star_theorem s c ps P : s = 1 \/ s = -1 -> star_shaped s c ps -> (forall A, In A ps -> snd A <> snd P) ->
  (star_inside s c ps P -> point_is_inside ps P = true) /\ (star_outside s c ps P -> point_is_inside ps P = false).
Proof.
  intros Hs (HN & ND & HO & HD) HG. unfold point_is_inside. rewrite parity_count.
  assert (HG' : forall b, In b ps -> generic P b) by exact HG.
  destruct Hs as [->| ->].
  - destruct (star_ccw c ps HN ND) with (P := P) as (X & Y); auto.
    + intros A B He. apply side_of_edges in He. apply HO in He. lra.
    + intros A B A' B' Q He He'. apply side_of_edges in He, He'. eauto.
    + split.
      * intros (A & B & He & H1 & H2 & H3). apply side_of_edges in He. apply (X A B); auto; lra.
      * intros H. apply Y. intros A B He. apply side_of_edges in He. specialize (H A B He). lra.
  - assert (Inj : forall a b, mirror a = mirror b -> a = b) by (intros a b H; rewrite <- (mirror_mirror a), H; apply mirror_mirror).
    assert (L2 : (2 <= length ps)%nat).
    { destruct ps as [|p [|q l]]; [congruence| |cbn; lia]. exfalso. specialize (HO p p (ex_intro _ 0%nat (conj eq_refl (or_intror (conj eq_refl eq_refl))))).
      unfold orient in HO. lra. }
    assert (E : parity (hits P) (cyclic_edges ps) = parity (hits (mirror P)) (cyclic_edges (map mirror ps))).
    { rewrite cyclic_map, parity_map. apply parity_ext. intros [A B] HAB. cbn [fst snd]. symmetry.
      destruct (cyclic_in _ _ _ HAB). apply hits_mirror; auto. eapply cyclic_neq; [exact ND|exact L2|exact HAB]. }
    rewrite E.
    assert (ME : forall A B, In (A, B) (cyclic_edges (map mirror ps)) -> side_of ps (mirror A) (mirror B)).
    { intros A B HAB. rewrite cyclic_map in HAB. apply in_map_iff in HAB. destruct HAB as ([A0 B0] & EE & HAB). cbn [fst snd] in EE.
      injection EE as <- <-. rewrite !mirror_mirror. now apply side_of_edges. }
    assert (OM : forall A B C, orient A B C = - orient (mirror A) (mirror B) (mirror C)) by (intros; rewrite orient_mirror; ring).
    destruct (star_ccw (mirror c) (map mirror ps)) with (P := mirror P) as (X & Y).
    + destruct ps; [congruence|discriminate].
    + apply FinFun.Injective_map_NoDup; [exact Inj|exact ND].
    + intros A B He. apply ME in He. apply HO in He. rewrite OM, mirror_mirror. lra.
    + intros A B A' B' Q He He' (X1 & X2 & X3) (X4 & X5 & X6). apply Inj. apply (HD (mirror A) (mirror B) (mirror A') (mirror B') (mirror Q)); auto.
      * unfold in_open_triangle. rewrite (OM (mirror c)) in X1. rewrite (OM A B) in X2. rewrite (OM B) in X3. rewrite !mirror_mirror in *. lra.
      * unfold in_open_triangle. rewrite (OM (mirror c)) in X4. rewrite (OM A' B') in X5. rewrite (OM B') in X6. rewrite !mirror_mirror in *. lra.
    + intros A HA. apply in_map_iff in HA. destruct HA as (A0 & <- & HA). pose proof (HG' A0 HA). unfold generic, mirror, py in *. cbn [snd]. lra.
    + split.
      * intros (A & B & He & H1 & H2 & H3). apply side_of_edges in He. apply (X (mirror A) (mirror B)); rewrite ?orient_mirror; try lra.
        rewrite cyclic_map. apply in_map_iff. exists (A, B). auto.
      * intros H. apply Y. intros A B He. apply ME in He. specialize (H _ _ He).
        rewrite (OM (mirror c)), (OM B), (OM A B), !mirror_mirror. lra.
Qed.
