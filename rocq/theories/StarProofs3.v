(** * The constructor of Polygon makes a star-shaped polygon *)
From Coq Require Import Reals ZArith List Bool Arith Lia Lra Psatz Permutation Sorted.
From Verif Require Import Outcome AdaptiveModel AdaptiveProofs CollisionModel CollisionProofs2 DelaunayModel DelaunaySpec DelaunayProofs DelaunayProofs2 StarProofs StarProofs2.
Import ListNotations.
Local Open Scope R_scope.

(** ** angles *)
Lemma atan2_polar y x : x <> 0 \/ y <> 0 ->
  - PI < atan2 y x <= PI /\ exists r, 0 < r /\ y = r * sin (atan2 y x) /\ x = r * cos (atan2 y x).
Proof.
  intro H. pose proof PI_RGT_0 as HP. unfold atan2.
  assert (SQ : forall t, 0 < sqrt (1 + t²)) by (intro t; apply sqrt_lt_R0; pose proof (Rle_0_sqr t); lra).
  destruct (rltb_spec 0 x) as [(-> & L)|(-> & L)].
  - pose proof (atan_bound (y / x)) as B. split; [lra|]. exists (x * sqrt (1 + (y / x)²)). pose proof (SQ (y / x)).
    split; [apply Rmult_lt_0_compat; auto|]. rewrite sin_atan, cos_atan. split; field; repeat split; lra.
  - destruct (rltb_spec x 0) as [(-> & L')|(-> & L')].
    + pose proof (atan_bound (y / x)) as B. pose proof (SQ (y / x)) as S.
      destruct (rltb_spec y 0) as [(-> & Ly)|(-> & Ly)].
      * assert (0 < atan (y / x)).
        { rewrite <- atan_0. apply atan_increasing. replace (y / x) with ((- y) * / (- x)) by (field; lra).
          apply Rmult_lt_0_compat; [lra|]. apply Rinv_0_lt_compat. lra. }
        split; [lra|]. exists (- x * sqrt (1 + (y / x)²)). split; [apply Rmult_lt_0_compat; lra|].
        replace (atan (y / x) - PI) with (- (PI - atan (y / x))) by ring. rewrite sin_neg, cos_neg, sin_PI_x, Rtrigo_facts.cos_pi_minus, sin_atan, cos_atan.
        split; field; repeat split; lra.
      * assert (atan (y / x) <= 0).
        { rewrite <- atan_0. destruct (Rle_lt_or_eq_dec 0 y ltac:(lra)) as [L0|L0].
          - left. apply atan_increasing. replace (y / x) with (- (y * / (- x))) by (field; lra).
            assert (0 < y * / - x) by (apply Rmult_lt_0_compat; [lra|apply Rinv_0_lt_compat; lra]). lra.
          - right. f_equal. rewrite <- L0. unfold Rdiv. ring. }
        split; [lra|]. exists (- x * sqrt (1 + (y / x)²)). split; [apply Rmult_lt_0_compat; lra|].
        rewrite neg_sin, neg_cos, sin_atan, cos_atan. split; field; repeat split; lra.
    + assert (x = 0) by lra. subst x. destruct (rltb_spec 0 y) as [(-> & Ly)|(-> & Ly)].
      * split; [lra|]. exists y. rewrite sin_PI2, cos_PI2. split; [lra|]. split; ring.
      * destruct (rltb_spec y 0) as [(-> & Ly')|(-> & Ly')].
        -- split; [lra|]. exists (- y). rewrite sin_neg, cos_neg, sin_PI2, cos_PI2. split; [lra|]. split; ring.
        -- exfalso. destruct H; lra.
Qed.
Lemma sin_pos_cases x : - 2 * PI < x < 2 * PI -> 0 < sin x -> 0 < x < PI \/ - 2 * PI < x < - PI.
Proof.
  intros Hx Hs. pose proof PI_RGT_0. destruct (Rle_or_lt x (- PI)) as [L|L].
  - destruct L as [L|L]; [right; lra|]. subst x. rewrite sin_neg, sin_PI in Hs. lra.
  - destruct (Rle_or_lt x 0) as [L0|L0].
    + assert (0 <= sin (- x)) by (apply sin_ge_0; lra). rewrite sin_neg in *. lra.
    + destruct (Rle_or_lt PI x) as [L1|L1]; [|left; lra]. assert (sin x <= 0) by (apply sin_le_0; lra). lra.
Qed.
Lemma sin_nonpos x : - PI <= x <= 0 \/ PI <= x <= 2 * PI -> sin x <= 0.
Proof.
  intros [H|H]; [|apply sin_le_0; lra]. assert (0 <= sin (- x)) by (apply sin_ge_0; lra). rewrite sin_neg in *. lra.
Qed.
Lemma sin_pos x : 0 < x < PI \/ - 2 * PI < x < - PI -> 0 < sin x.
Proof.
  intros [H|H]; [apply sin_gt_0; lra|]. rewrite <- (sin_period x 1). change (INR 1) with 1; apply sin_gt_0; lra.
Qed.

(** ** the map *)
Section Map.
Variables (ang : p2 -> R) (pts : list p2).
Hypothesis (Hang : forall p q, In p pts -> In q pts -> ang p = ang q -> p = q).

Definition map_ok (seen : list p2) (m : list (R * p2)) : Prop :=
  StronglySorted (fun a b => fst a < fst b) m /\ (forall k v, In (k, v) m -> k = ang v /\ In v seen) /\ (forall p, In p seen -> In (ang p, p) m).
Lemma put_ok seen p m : incl seen pts -> In p pts -> map_ok seen m -> map_ok (seen ++ [p]) (angle_put (ang p) p m).
Proof.
  intros HI Hp (HS & HK & HA).
  assert (W : StronglySorted (fun a b => fst a < fst b) m -> (forall k v, In (k, v) m -> k = ang v /\ In v pts) ->
    StronglySorted (fun a b => fst a < fst b) (angle_put (ang p) p m) /\
    (forall k v, In (k, v) (angle_put (ang p) p m) <-> (k = ang p /\ v = p) \/ In (k, v) m)).
  { clear HS HK HA. induction m as [|(k0, v0) m IH]; intros HS HK.
    - cbn [angle_put]. split; [repeat constructor|]. intros k v. cbn [In]. split; [intros [E|[]]; injection E as <- <-; auto|]. intros [(-> & ->)|[]]. auto.
    - apply StronglySorted_inv in HS as HS'. destruct HS' as (HS1 & HS2). rewrite Forall_forall in HS2.
      destruct (IH HS1) as (I1 & I2); [intros k v H; apply HK; now right|].
      cbn [angle_put]. destruct (rltb_spec (ang p) k0) as [(-> & L)|(-> & L)].
      + split.
        * constructor; [exact HS|]. rewrite Forall_forall. intros (k, v) [E|H]; cbn [fst]; [injection E as <- <-; exact L|]. specialize (HS2 _ H). cbn [fst] in HS2. lra.
        * intros k v. cbn [In]. split; [intros [E|H]; [injection E as <- <-; auto|auto]|]. intros [(-> & ->)|H]; auto.
      + destruct (rltb_spec k0 (ang p)) as [(-> & L')|(-> & L')].
        * split.
          -- constructor; [exact I1|]. rewrite Forall_forall. intros (k, v) H. apply I2 in H. cbn [fst]. destruct H as [(-> & ->)|H]; [exact L'|].
             exact (HS2 _ H).
          -- intros k v. cbn [In]. rewrite I2. tauto.
        * assert (k0 = ang p) by lra. destruct (HK k0 v0 (or_introl eq_refl)) as (E & Hv). assert (v0 = p) by (apply Hang; [exact Hv|exact Hp|lra]). subst k0 v0.
          split; [exact HS|]. intros k v. cbn [In]. split; [auto|]. intros [(-> & ->)|H']; auto. }
  destruct (W HS) as (W1 & W2); [intros k v H; destruct (HK k v H); auto|]. split; [exact W1|]. split.
  - intros k v H. apply W2 in H. rewrite in_app_iff. destruct H as [(-> & ->)|H]; [cbn; auto|]. destruct (HK k v H). auto.
  - intros q Hq. apply W2. apply in_app_or in Hq. destruct Hq as [Hq|[<-|[]]]; auto.
Qed.
Lemma build_ok : forall l seen m, incl (seen ++ l) pts -> map_ok seen m -> map_ok (seen ++ l) (fold_left (fun m p => angle_put (ang p) p m) l m).
Proof.
  induction l as [|p l IH]; intros seen m HI HM; [rewrite app_nil_r; exact HM|]. cbn [fold_left].
  replace (seen ++ p :: l) with ((seen ++ [p]) ++ l) in * by (rewrite <- app_assoc; reflexivity). apply IH; [exact HI|].
  apply put_ok; [|apply HI; apply in_or_app; left; apply in_or_app; right; now left|exact HM].
  intros q Hq. apply HI. apply in_or_app. left. apply in_or_app. auto.
Qed.
End Map.
Lemma keep_all : forall m l, StronglySorted (fun a b : R * p2 => fst a < fst b) m ->
  (forall k v, In (k, v) m -> / 1000000 < k - l) -> (forall k v k' v', In (k, v) m -> In (k', v') m -> k < k' -> / 1000000 < k' - k) ->
  keep_apart l m = map snd m.
Proof.
  induction m as [|(k, v) m IH]; intros l HS HL HD; [reflexivity|]. cbn [keep_apart map snd].
  destruct (rltb_spec (/ 1000000) (k - l)) as [(-> & _)|(_ & L)].
  2:{ specialize (HL k v (or_introl eq_refl)). lra. }
  apply StronglySorted_inv in HS. destruct HS as (HS1 & HS2). rewrite Forall_forall in HS2. f_equal. apply IH; [exact HS1| |].
  - intros k' v' H. apply (HD k v k' v'); [now left|now right|]. exact (HS2 _ H).
  - intros k1 v1 k2 v2 H1 H2. apply (HD k1 v1 k2 v2); now right.
Qed.

(** ** sums *)
Lemma sum_zero_terms {A : Type} (f : A -> R) l : (forall x, In x l -> f x <= 0) -> fold_right Rplus 0 (map f l) = 0 -> forall x, In x l -> f x = 0.
Proof.
  intros HN. assert (S : forall l, (forall x, In x l -> f x <= 0) -> fold_right Rplus 0 (map f l) <= 0).
  { clear. induction l as [|x l IH]; intro H; cbn; [lra|]. pose proof (H x (or_introl eq_refl)). assert (fold_right Rplus 0 (map f l) <= 0) by (apply IH; intros; apply H; now right). lra. }
  induction l as [|y l IH]; intros HS x Hx; [destruct Hx|]. cbn in HS. pose proof (HN y (or_introl eq_refl)) as H1.
  assert (H2 : forall x, In x l -> f x <= 0) by (intros z Hz; apply HN; now right). pose proof (S l H2) as H3.
  destruct Hx as [<-|Hx]; [lra|]. apply IH; auto. lra.
Qed.
Lemma sum_linear (a b : R) (f g : p2 -> R) l : fold_right Rplus 0 (map (fun p => a * f p + b * g p) l) =
  a * fold_right Rplus 0 (map f l) + b * fold_right Rplus 0 (map g l).
Proof. induction l as [|p l IH]; cbn; [ring|]. rewrite IH. ring. Qed.
Lemma sum_minus_const f (k : R) (l : list p2) : fold_right Rplus 0 (map (fun p => f p - k) l) = fold_right Rplus 0 (map f l) - INR (length l) * k.
Proof. induction l as [|p l IH]; [cbn; ring|]. cbn [map fold_right length]. rewrite IH, S_INR. ring. Qed.
Lemma fold_left_sum : forall l a, fold_left Rplus l a = a + fold_right Rplus 0 l.
Proof. induction l as [|x l IH]; intro a; cbn; [ring|]. rewrite IH. ring. Qed.
Lemma center_is_mean (pts : list p2) : pts <> [] -> is_mean pts (center_of_points pts).
Proof.
  intro H. assert (INR (length pts) <> 0) by (apply not_0_INR; destruct pts; [congruence|discriminate]).
  unfold is_mean, center_of_points. cbn [fst snd]. rewrite !sum_minus_const, !fold_left_sum. split; change fst with px; change snd with py; field; assumption.
Qed.

(** ** sides of a sorted list *)
Lemma sorted_nth {A : Type} (R0 : A -> A -> Prop) l : StronglySorted R0 l -> forall i j a b, (i < j)%nat -> nth_error l i = Some a -> nth_error l j = Some b -> R0 a b.
Proof.
  induction 1 as [|x l HS IH HF]; intros i j a b Hij Hi Hj; [destruct i; discriminate|]. rewrite Forall_forall in HF.
  destruct j as [|j]; [lia|]. cbn [nth_error] in Hj. destruct i as [|i].
  - injection Hi as <-. apply HF. eapply nth_error_In; exact Hj.
  - eapply (IH i j); [lia|exact Hi|exact Hj].
Qed.
Section Sorted.
Variables (ang : p2 -> R) (ps : list p2).
Hypothesis (HS : StronglySorted (fun p q => ang p < ang q) ps).
Lemma sorted_side A B : side_of ps A B ->
  (ang A < ang B /\ forall C, In C ps -> ang C <= ang A \/ ang B <= ang C) \/ (forall C, In C ps -> ang B <= ang C <= ang A).
Proof.
  intros (i & Hi & Hn). change (R * R)%type with p2 in *. destruct Hn as [Hn|(HL & Hn)]; [left|right].
  - split; [eapply (sorted_nth _ _ HS i (S i)); eauto|]. intros C HC. apply In_nth_error in HC. destruct HC as (j & Hj).
    destruct (lt_eq_lt_dec j i) as [[L|L]|L].
    + left. left. eapply (sorted_nth _ _ HS j i); eauto.
    + left. subst j. assert (A = C) as -> by congruence. lra.
    + right. destruct (Nat.eq_dec j (S i)) as [->|N]; [assert (B = C) as -> by congruence; lra|]. left. eapply (sorted_nth _ _ HS (S i) j); eauto; lia.
  - intros C HC. apply In_nth_error in HC. destruct HC as (j & Hj). assert (j < length ps)%nat by (apply nth_error_Some; congruence). split.
    + destruct (Nat.eq_dec j 0) as [->|N]; [assert (B = C) as -> by congruence; lra|]. left. eapply (sorted_nth _ _ HS 0%nat j); eauto; lia.
    + destruct (Nat.eq_dec j i) as [->|N]; [assert (A = C) as -> by congruence; lra|]. left. eapply (sorted_nth _ _ HS j i); eauto. lia.
Qed.
Lemma sorted_nodup : NoDup ps.
Proof.
  clear - HS. induction HS as [|x l HS' IH HF]; [constructor|]. constructor; [|apply IH; exact HS'].
  intro H. rewrite Forall_forall in HF. specialize (HF x H). lra.
Qed.
Lemma sorted_inj A B : In A ps -> In B ps -> ang A = ang B -> A = B.
Proof.
  intros HA HB E. apply In_nth_error in HA, HB. destruct HA as (i & Hi), HB as (j & Hj). destruct (lt_eq_lt_dec i j) as [[L|L]|L].
  - pose proof (sorted_nth _ _ HS i j A B L Hi Hj) as X. cbv beta in X. lra.
  - subst j. congruence.
  - pose proof (sorted_nth _ _ HS j i B A L Hj Hi) as X. cbv beta in X. lra.
Qed.
End Sorted.

(** ** the star *)
Lemma side_in (ps : list p2) A B : side_of ps A B -> In A ps /\ In B ps.
Proof. intro H. apply side_of_edges in H. now apply cyclic_in in H. Qed.
Lemma orient_seen c A B a b : seen_at c A a -> seen_at c B b -> exists k, 0 < k /\ orient c A B = - (k * sin (b - a)).
Proof.
  intros (_ & r & R0 & X1 & Y1) (_ & r' & R0' & X2 & Y2). exists (r * r'). split; [apply Rmult_lt_0_compat; assumption|].
  unfold orient. rewrite X1, Y1, X2, Y2, sin_minus. ring.
Qed.
Section Star3.
Variables (pts : list p2) (c : p2) (ang : p2 -> R) (ps : list p2).
Hypotheses (HM : is_mean pts c) (HL : exists p q r, In p pts /\ In q pts /\ In r pts /\ orient p q r <> 0)
  (HA : forall p, In p pts -> seen_at c p (ang p)) (HI : forall p, In p ps <-> In p pts)
  (HS : StronglySorted (fun p q => ang p < ang q) ps) (HV : forall Q, Q <> c -> exists a, seen_at c Q a).

Lemma half_plane A : In A pts -> (forall C, In C pts -> sin (ang C - ang A) <= 0) -> False.
Proof.
  intros IA H. destruct HL as (p & q & r & Ip & Iq & Ir & HO). set (f := fun C : p2 => cos (ang A) * (fst C - fst c) + - sin (ang A) * (snd C - snd c)).
  assert (F : forall C, In C pts -> exists k, 0 < k /\ f C = k * sin (ang C - ang A)).
  { intros C IC. destruct (HA C IC) as (_ & k & K0 & X & Y). exists k. split; [exact K0|]. unfold f. rewrite X, Y, sin_minus. ring. }
  assert (Z : forall C, In C pts -> f C = 0).
  { apply sum_zero_terms.
    - intros C IC. destruct (F C IC) as (k & K0 & ->). specialize (H C IC). nra.
    - unfold f. pose proof HM as (E1 & E2). change (R * R)%type with p2 in E1, E2. rewrite (sum_linear (cos (ang A)) (- sin (ang A)) (fun p => fst p - fst c) (fun p => snd p - snd c)), E1, E2. ring. }
  pose proof (Z p Ip) as Zp. pose proof (Z q Iq) as Zq. pose proof (Z r Ir) as Zr. unfold f in *. pose proof (sin2_cos2 (ang A)) as SC. unfold Rsqr in SC.
  set (s := sin (ang A)) in *. set (k := cos (ang A)) in *. clearbody s k. apply HO. unfold orient.
  assert (E1 : k * (fst q - fst p) = s * (snd q - snd p)) by lra. assert (E2 : k * (fst r - fst p) = s * (snd r - snd p)) by lra.
  set (x1 := fst q - fst p) in *. set (y1 := snd q - snd p) in *. set (x2 := fst r - fst p) in *. set (y2 := snd r - snd p) in *.
  replace (x1 * y2 - y1 * x2) with ((s * s + k * k) * (x1 * y2 - y1 * x2)) by (rewrite SC; ring).
  replace ((s * s + k * k) * (x1 * y2 - y1 * x2)) with (s * (x1 * (s * y2) - (s * y1) * x2) + k * ((k * x1) * y2 - y1 * (k * x2))) by ring.
  assert (Z1 : x1 * (s * y2) - (s * y1) * x2 = 0) by (rewrite <- E1, <- E2; ring).
  assert (Z2 : (k * x1) * y2 - y1 * (k * x2) = 0) by (rewrite E1, E2; ring). rewrite Z1, Z2. ring.
Qed.
Lemma sides A B : side_of ps A B ->
  (ang A < ang B < ang A + PI /\ forall C, In C ps -> ang C <= ang A \/ ang B <= ang C) \/
  (ang B + PI < ang A /\ forall C, In C ps -> ang B <= ang C <= ang A).
Proof.
  intro H. destruct (side_in _ _ _ H) as (IA & IB). pose proof PI_RGT_0 as HP.
  assert (RG : forall C, In C pts -> - PI < ang C <= PI) by (intros C IC; destruct (HA C IC) as (X & _); exact X).
  pose proof (RG A ltac:(now apply HI)) as RA. pose proof (RG B ltac:(now apply HI)) as RB.
  destruct (sorted_side ang ps HS A B H) as [(H1 & H2)|H2].
  - left. split; [|exact H2]. split; [exact H1|]. apply Rnot_le_lt. intro L. apply (half_plane A); [now apply HI|]. intros C IC.
    pose proof (RG C IC). apply HI in IC. apply sin_nonpos. destruct (H2 C IC); [left|right]; lra.
  - right. split; [|exact H2]. apply Rnot_le_lt. intro L. apply (half_plane A); [now apply HI|]. intros C IC. apply HI in IC. specialize (H2 C IC).
    apply sin_nonpos. left. lra.
Qed.
Lemma cone A B Q a : side_of ps A B -> seen_at c Q a -> in_open_triangle (-1) c A B Q ->
  (ang A < a < ang B) \/ ((forall C, In C ps -> ang B <= ang C <= ang A) /\ (ang A < a \/ a < ang B)).
Proof.
  intros H HQ (H1 & _ & H3). destruct (side_in _ _ _ H) as (IA & IB). apply HI in IA, IB.
  destruct (orient_seen _ _ _ _ _ (HA A IA) HQ) as (k & K0 & E1). destruct (orient_seen _ _ _ _ _ HQ (HA B IB)) as (k' & K0' & E2).
  replace (orient B c Q) with (orient c Q B) in H3 by (unfold orient; ring). rewrite E1 in H1. rewrite E2 in H3.
  assert (S1 : 0 < sin (a - ang A)) by nra. assert (S2 : 0 < sin (ang B - a)) by nra.
  destruct (HA A IA) as (RA & _), (HA B IB) as (RB & _), HQ as (RQ & _).
  apply sin_pos_cases in S1; [|lra]. apply sin_pos_cases in S2; [|lra].
  destruct (sides A B H) as [(X & Y)|(X & Y)]; [left|right; split; [exact Y|]]; destruct S1, S2; lra.
Qed.
Lemma star_of_sorted : star_shaped (-1) c ps.
Proof.
  split; [|split; [|split]].
  - destruct HL as (p & _ & _ & Ip & _). intros ->. apply HI in Ip. destruct Ip.
  - exact (sorted_nodup ang ps HS).
  - intros A B H. destruct (side_in _ _ _ H) as (IA & IB). apply HI in IA, IB. destruct (orient_seen _ _ _ _ _ (HA A IA) (HA B IB)) as (k & K0 & ->).
    assert (0 < sin (ang B - ang A)).
    { apply sin_pos. destruct (HA A IA) as (RA & _), (HA B IB) as (RB & _). destruct (sides A B H) as [(X & _)|(X & _)]; [left|right]; lra. }
    nra.
  - intros A B A' B' Q H H' T T'.
    assert (NQ : Q <> c).
    { intros ->. destruct T as (T & _). unfold orient in T. lra. }
    destruct (HV Q NQ) as (a & HQ). destruct (side_in _ _ _ H) as (IA & IB). destruct (side_in _ _ _ H') as (IA' & IB').
    apply (sorted_inj ang ps HS); auto.
    pose proof (cone A B Q a H HQ T) as C1. pose proof (cone A' B' Q a H' HQ T') as C2.
    pose proof (sides A B H) as S1. pose proof (sides A' B' H') as S2.
    destruct C1 as [C1|(M1 & C1)], C2 as [C2|(M2 & C2)].
    + destruct S1 as [(X & Y)|(X & _)]; [|pose proof PI_RGT_0; lra]. destruct S2 as [(X' & Y')|(X' & _)]; [|pose proof PI_RGT_0; lra].
      specialize (Y A' IA'). specialize (Y' A IA). lra.
    + pose proof (M2 A IA). pose proof (M2 B IB). lra.
    + pose proof (M1 A' IA'). pose proof (M1 B' IB'). lra.
    + pose proof (M1 A' IA'). pose proof (M2 A IA). lra.
Qed.
End Star3.

Lemma seen_atan2 c p : p <> c -> seen_at c p (atan2 (px p - px c) (py p - py c)).
Proof.
  intro H. unfold seen_at. apply atan2_polar. destruct (Req_dec (py p - py c) 0) as [E|E]; [|auto]. right. intro E'. apply H.
  destruct p, c. unfold px, py in *. cbn [fst snd] in *. f_equal; lra.
Qed.
Lemma polygon_star (pts : list p2) (c : p2) : is_mean pts c -> (exists p q r, In p pts /\ In q pts /\ In r pts /\ orient p q r <> 0) ->
  (forall p, In p pts -> p <> c) ->
  (forall p q a b, In p pts -> In q pts -> p <> q -> seen_at c p a -> seen_at c q b -> / 1000000 < Rabs (a - b)) ->
  star_shaped (-1) c (polygon_points pts) /\ forall p, In p (polygon_points pts) <-> In p pts.
Proof.
  intros HM HL HN HD. assert (NE : pts <> []) by (intros ->; destruct HL as (p & _ & _ & [] & _)).
  assert (EC : center_of_points pts = c).
  { pose proof (center_is_mean pts NE) as HM'. assert (N0 : INR (length pts) <> 0) by (apply not_0_INR; destruct pts; [congruence|discriminate]).
    destruct HM as (X & Y), HM' as (X' & Y'). change (R * R)%type with p2 in X, Y, X', Y'. rewrite sum_minus_const in X, Y, X', Y'. destruct (center_of_points pts) as [x y], c as [cx cy]. cbn [fst snd] in *.
    f_equal; apply (Rmult_eq_reg_l (INR (length pts))); solve [exact N0|lra]. }
  set (ang := fun p : p2 => atan2 (px p - px c) (py p - py c)).
  assert (HA : forall p, In p pts -> seen_at c p (ang p)) by (intros p Ip; apply seen_atan2; auto).
  assert (Inj : forall p q, In p pts -> In q pts -> ang p = ang q -> p = q).
  { intros p q Ip Iq E. destruct (p2_dec p q) as [|N]; trivial. exfalso. pose proof (HD p q (ang p) (ang q) Ip Iq N (HA p Ip) (HA q Iq)) as X.
    rewrite E, Rminus_diag_eq, Rabs_R0 in X by reflexivity. lra. }
  assert (MO : map_ok ang pts (angles_points pts)).
  { unfold angles_points. rewrite EC. apply (build_ok ang pts Inj pts [] []); [intros x Hx; exact Hx|].
    split; [constructor|]. split; [intros k v []|intros p []]. }
  destruct MO as (MS & MK & MA).
  assert (EK : polygon_points pts = map snd (angles_points pts)).
  { unfold polygon_points. apply keep_all; [exact MS| |].
    - intros k v H. destruct (MK k v H) as (-> & Iv). destruct (HA v Iv) as ((R1 & _) & _). pose proof PI_4. lra.
    - intros k v k' v' H H' L. destruct (MK k v H) as (-> & Iv). destruct (MK k' v' H') as (-> & Iv').
      assert (v' <> v) by (intros ->; lra). pose proof (HD v' v _ _ Iv' Iv H0 (HA v' Iv') (HA v Iv)) as X. rewrite Rabs_pos_eq in X by lra. exact X. }
  assert (HI : forall p, In p (polygon_points pts) <-> In p pts).
  { intro p. rewrite EK, in_map_iff. split.
    - intros ((k, v) & <- & H). cbn [snd]. now destruct (MK k v H).
    - intro Ip. exists (ang p, p). auto. }
  split; [|exact HI].
  apply (star_of_sorted pts c ang); auto.
  - rewrite EK. clear - MS MK. induction MS as [|(k, v) m HS IH HF]; [constructor|]. cbn [map snd]. constructor.
    + apply IH. intros k' v' H. apply MK. now right.
    + rewrite Forall_forall in *. intros q Hq. apply in_map_iff in Hq. destruct Hq as ((k', v') & <- & H). specialize (HF _ H). cbn [fst snd] in *.
      destruct (MK k v (or_introl eq_refl)) as (<- & _). destruct (MK k' v' (or_intror H)) as (<- & _). exact HF.
  - intros Q NQ. exists (ang Q). now apply seen_atan2.
Qed.
