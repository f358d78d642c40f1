From Coq Require Import Reals ZArith List Bool Lia Lra Psatz Permutation.
From Verif Require Import Outcome AdaptiveModel AdaptiveProofs Vec3 CollisionModel CollisionProofs SubBoxModel SubBoxProofs
  TakeModel TakeSpec TakeProofs TakeProofs2.
Import ListNotations.
Local Open Scope R_scope.

(** ** sums of counts *)
Lemma nsum_ext : forall f g n a, (forall c, (a <= c < a + n)%nat -> f c = g c) -> nsum f a n = nsum g a n.
Proof.
  intros f g n. induction n as [|n IH]; intros a H; cbn [nsum]; [reflexivity|].
  rewrite H by lia. f_equal. apply IH. intros. apply H. lia.
Qed.
Lemma nsum_last : forall f n a, (nsum f a (S n) = nsum f a n + f (a + n))%nat.
Proof.
  intros f n. induction n as [|n IH]; intro a.
  - cbn [nsum]. replace (a + 0)%nat with a by lia. lia.
  - change (nsum f a (S (S n))) with (f a + nsum f (S a) (S n))%nat. rewrite IH. cbn [nsum]. replace (a + S n)%nat with (S a + n)%nat by lia. lia.
Qed.
Lemma nsum_find : forall f n j, (j < nsum f 0 n)%nat -> exists m, (m < n)%nat /\ (nsum f 0 m <= j < nsum f 0 (S m))%nat.
Proof.
  intros f n. induction n as [|n IH]; intros j H; [cbn [nsum] in H; lia|].
  destruct (Nat.lt_ge_cases j (nsum f 0 n)) as [L|L].
  - destruct (IH j L) as (m & Hm & B). exists m. split; [lia|trivial].
  - exists n. split; [lia|]. split; trivial.
Qed.
Lemma nsum_add : forall f g n a, nsum (fun c => (f c + g c)%nat) a n = (nsum f a n + nsum g a n)%nat.
Proof. intros f g n. induction n as [|n IH]; intro a; cbn [nsum]; [reflexivity|]. rewrite IH. lia. Qed.
Lemma nsum_zero : forall n a, nsum (fun _ => 0%nat) a n = 0%nat.
Proof. induction n as [|n IH]; intro a; cbn [nsum]; [reflexivity|]. now rewrite IH. Qed.

(** every diameter is in exactly one class *)
Lemma one_class : forall sizes d n a, strictly_decreasing_sizes sizes -> (a + n = length sizes)%nat -> (0 < n)%nat ->
  (a = 0%nat \/ d < nth a sizes 0) ->
  nsum (fun c => if class_ofb sizes c d then 1 else 0)%nat a n = 1%nat.
Proof.
  intros sizes d n. induction n as [|n IH]; intros a HS HL Hn Ha; [lia|]. cbn [nsum].
  destruct n as [|n].
  - replace (class_ofb sizes a d) with true; [reflexivity|]. symmetry. apply class_ofb_spec. split; [trivial|left; lia].
  - destruct (Rle_lt_dec (nth (S a) sizes 0) d) as [L|L].
    + replace (class_ofb sizes a d) with true by (symmetry; apply class_ofb_spec; split; auto).
      rewrite nsum_ext with (g := fun _ => 0%nat); [now rewrite nsum_zero|].
      intros c Hc. rewrite class_ofb_false; [reflexivity|]. intros ([E|E] & _); [lia|].
      destruct (Nat.eq_dec c (S a)) as [->|]; [lra|]. pose proof (HS (S a) c ltac:(lia)). lra.
    + replace (class_ofb sizes a d) with false.
      * rewrite IH; trivial; try lia. now right.
      * symmetry. apply class_ofb_false. intros (_ & [E|E]); [lia|lra].
Qed.
Lemma count_total : forall sizes radii, strictly_decreasing_sizes sizes -> sizes <> [] ->
  nsum (fun c => count_class sizes c radii) 0 (length sizes) = length radii.
Proof.
  intros sizes radii HS Hn. induction radii as [|r rs IH].
  - rewrite nsum_ext with (g := fun _ => 0%nat); [apply nsum_zero|]. reflexivity.
  - rewrite nsum_ext with (g := fun c => ((if class_ofb sizes c (2 * r) then 1 else 0) + count_class sizes c rs)%nat)
      by (intros; apply count_cons).
    rewrite nsum_add, IH, one_class; auto. destruct sizes; [congruence|cbn [length]; lia].
Qed.

(** ** classes of the table *)
Lemma counts_bound : forall sizes radii, decreasing radii -> sizes <> [] -> nth 0 sizes 0 = 2 * nth 0 radii 0 ->
  length (num_per_class sizes radii) = length sizes /\
  forall n j, (nsum (fun c => nth c (num_per_class sizes radii) 0%nat) 0 n <= j <
               nsum (fun c => nth c (num_per_class sizes radii) 0%nat) 0 (S n))%nat ->
    (j < length radii)%nat /\ 2 * nth j radii 0 <= nth n sizes 0.
Proof.
  intros sizes radii HD Hne H0.
  assert (HB : forall r, In r radii -> 2 * r <= nth 0 sizes 0).
  { intros r Hr. rewrite H0. destruct radii as [|f rs]; [contradiction|]. cbn [nth]. destruct HD as (HD & _).
    destruct Hr as [<-|Hr]; [lra|]. specialize (HD r Hr). lra. }
  unfold num_per_class. destruct (Nat.eqb_spec (length sizes) 1) as [E1|E1].
  - split; [now rewrite E1|]. intros n j Hj. destruct n as [|n].
    + cbn [nsum nth] in Hj. split; [lia|]. apply HB. apply nth_In. lia.
    + exfalso. cbn [nsum nth] in Hj. destruct n; cbn [nsum nth] in Hj.
      * lia.
      * assert (Z : forall m a, (1 <= a)%nat -> nsum (fun c => nth c [length radii] 0%nat) a m = 0%nat).
        { induction m as [|m IH]; intros a Ha; cbn [nsum]; [reflexivity|]. rewrite IH by lia.
          destruct a as [|[|a]]; [lia|reflexivity|reflexivity]. }
        rewrite !Z in Hj by lia. lia.
  - assert (L2 : (1 < length sizes)%nat) by (destruct sizes as [|a [|b s]]; cbn [length] in *; congruence || lia).
    pose proof (num_loop_bound sizes radii [] 0 (repeat 0%nat (length sizes)) HD) as NB. cbn [length] in NB.
    destruct NB as (N1 & N2 & N3); trivial.
    + apply repeat_length.
    + intros c _. destruct (Nat.lt_ge_cases c (length sizes)); [|rewrite nth_overflow; [reflexivity|rewrite repeat_length; lia]].
      apply nth_repeat.
    + rewrite repeat_length in N2. split; trivial.
Qed.

Lemma classes_fit_intro : forall len rel ab rad shr sizes counts added, length sizes = length counts ->
  (forall s, In s sizes -> boxes_fit (make_boxes len s shr) len) ->
  (forall n j, (nsum (fun c => nth c counts 0%nat) 0 n <= j < nsum (fun c => nth c counts 0%nat) 0 (S n))%nat ->
     placeable len rel ab rad (make_boxes len (nth n sizes 0) shr) (added + j)) ->
  classes_fit len rel ab rad shr (combine sizes counts) added.
Proof.
  intros len rel ab rad shr sizes. induction sizes as [|s sizes IH]; intros [|n counts] added HL HB HP; try discriminate; [exact I|].
  cbn [combine classes_fit]. split; [apply HB; now left|]. split.
  - intros j Hj. specialize (HP 0%nat (j - added)%nat). cbn [nsum nth] in HP.
    replace (added + (j - added))%nat with j in HP by lia. apply HP. lia.
  - apply IH; [now injection HL|intros; apply HB; now right|].
    assert (Sh : forall m a, nsum (fun c => nth c (n :: counts) 0%nat) (S a) m = nsum (fun c => nth c counts 0%nat) a m).
    { induction m as [|m IHm]; intro a; cbn [nsum nth]; [reflexivity|]. now rewrite <- IHm. }
    intros m j Hj. specialize (HP (S m) (n + j)%nat).
    replace (added + (n + j))%nat with (added + n + j)%nat in HP by lia. change (nth (S m) (s :: sizes) 0) with (nth m sizes 0) in HP.
    apply HP. change (nsum (fun c => nth c (n :: counts) 0%nat) 0 (S m)) with (n + nsum (fun c => nth c (n :: counts) 0%nat) 1 m)%nat.
    change (nsum (fun c => nth c (n :: counts) 0%nat) 0 (S (S m))) with (n + nsum (fun c => nth c (n :: counts) 0%nat) 1 (S m))%nat.
    rewrite !Sh. lia.
Qed.
Lemma map_snd_combine' : forall (A B : Type) (a : list A) (b : list B), length a = length b -> map snd (combine a b) = b.
Proof. exact map_snd_combine. Qed.

Definition placed_number (sizes radii : list R) : nat :=
  nsum (fun c => nth c (num_per_class sizes radii) 0%nat) 0 (length sizes).

Lemma place_phase_lemma : forall fuel ty lo len shr rel ab maxTries u radii pos, unit_stream u ->
  decreasing radii -> radii <> [] -> (forall r, In r radii -> 0 < r) -> 0 <= shr < 1 ->
  2 * nth 0 radii 0 / (1 - shr) <= vx len -> 2 * nth 0 radii 0 / (1 - shr) <= vy len -> 2 * nth 0 radii 0 / (1 - shr) <= vz len ->
  (forall r, In r radii -> 0 <= r * (1 + rel) + ab <= 2 * r / (1 - shr)) ->
  place_phase fuel ty lo len shr rel ab maxTries u radii pos <> UB /\
  forall pos', place_phase fuel ty lo len shr rel ab maxTries u radii pos = Ok (Some pos') ->
    exists sizes, size_classes fuel radii = Ok (Some sizes) /\ (placed_number sizes radii <= length radii)%nat /\
      packed ty lo len rel ab (fun i => nth i radii 0) pos' (placed_number sizes radii) /\
      (forall j, (placed_number sizes radii <= j)%nat -> pos' j = pos j).
Proof.
  intros fuel ty lo len shr rel ab maxTries u radii pos Hu HD Hne Hpos Hs Fx Fy Fz HR.
  destruct (size_classes_ok radii HD Hne Hpos) as (_ & NU & SC). unfold place_phase.
  destruct (size_classes fuel radii) as [[sizes|]| |] eqn:Es; cbn [obind].
  2: split; [discriminate|intros; discriminate]. 2: destruct (NU fuel); congruence. 2: destruct (NU fuel); congruence.
  destruct (SC fuel sizes Es) as (N0 & N1 & N2 & N3 & N4).
  destruct (counts_bound sizes radii HD N0 N1) as (CL & CB).
  assert (Hq : 0 < 1 - shr) by lra.
  assert (Hfirst : forall r, In r radii -> r <= nth 0 radii 0).
  { intros r Hr. destruct radii as [|f rs]; [contradiction|]. cbn [nth]. destruct HD as (HD & _). destruct Hr as [<-|Hr]; [lra|auto]. }
  assert (H0 : 0 < nth 0 radii 0) by (destruct radii as [|f rs]; [congruence|]; apply Hpos; now left).
  assert (Hsize : forall s, In s sizes -> 0 < s <= 2 * nth 0 radii 0).
  { intros s Hsz. destruct (In_nth _ _ 0 Hsz) as (n & Hn & <-). split.
    - destruct (Nat.eq_dec (length sizes) 1) as [E|E].
      + assert (n = 0%nat) by lia. subst n. rewrite N1. lra.
      + destruct (N3 E) as (r & Hr & [Z|Z] & _); [lia|]. pose proof (Hpos r Hr).
        destruct (Nat.eq_dec n (length sizes - 1)) as [->|]; [lra|]. pose proof (N2 n (length sizes - 1)%nat ltac:(lia)). lra.
    - rewrite <- N1. destruct n as [|n]; [lra|]. pose proof (N2 0%nat (S n) ltac:(lia)). lra. }
  assert (Hsub : forall a b, a <= b -> a / (1 - shr) <= b / (1 - shr)).
  { intros a b H. apply Rmult_le_compat_r; trivial. left. now apply Rinv_0_lt_compat. }
  assert (HF : classes_fit len rel ab (fun i => nth i radii 0) shr (combine sizes (num_per_class sizes radii)) 0).
  { apply classes_fit_intro; [now rewrite CL| |].
    - intros s Hsz. destruct (Hsize s Hsz) as (S1 & S2). pose proof (Hsub _ _ S2).
      apply make_boxes_fit; try lra. apply Rdiv_lt_0_compat; lra.
    - intros n j Hj. destruct (CB n j Hj) as (Lj & Bj). cbn [Nat.add].
      assert (In (nth j radii 0) radii) as Ij by now apply nth_In.
      pose proof (Hpos _ Ij) as Pj. pose proof (HR _ Ij) as Rj.
      assert (In (nth n sizes 0) sizes) as In'.
      { apply nth_In. destruct (Nat.lt_ge_cases n (length sizes)); trivial. exfalso.
        assert (nsum (fun c => nth c (num_per_class sizes radii) 0%nat) 0 n = nsum (fun c => nth c (num_per_class sizes radii) 0%nat) 0 (S n)); [|lia].
        rewrite nsum_last. cbn [Nat.add]. rewrite (nth_overflow (num_per_class sizes radii)) by lia. lia. }
      destruct (Hsize _ In') as (S1 & S2). pose proof (Hsub _ _ S2). pose proof (Hsub _ _ Bj).
      destruct (make_boxes_fit len (nth n sizes 0) shr) as (_ & M1 & M2 & M3); try lra. { apply Rdiv_lt_0_compat; lra. }
      assert (2 * nth j radii 0 <= 2 * nth 0 radii 0 / (1 - shr)).
      { pose proof (Hfirst _ Ij). apply Rle_trans with (2 * nth 0 radii 0); [lra|].
        apply Rmult_le_reg_r with (1 - shr); trivial.
        replace (2 * nth 0 radii 0 / (1 - shr) * (1 - shr)) with (2 * nth 0 radii 0) by (field; lra). nra. }
      unfold placeable, reach. repeat split; lra. }
  destruct (place_classes_ok ty lo len rel ab maxTries u (fun i => nth i radii 0) Hu fuel shr
              (combine sizes (num_per_class sizes radii)) 0 0 pos HF) as (NU1 & OK1).
  { intros j Hj. lia. }
  { split; intros; lia. }
  split; [exact NU1|]. intros pos' E. destruct (OK1 pos' E) as (P1 & P2). exists sizes. split; trivial.
  assert (EN : (0 + nsum (fun c => nth c (map snd (combine sizes (num_per_class sizes radii))) 0%nat) 0
                 (length (combine sizes (num_per_class sizes radii))))%nat = placed_number sizes radii).
  { rewrite map_snd_combine by now rewrite CL. rewrite combine_length, CL, Nat.min_id. reflexivity. }
  rewrite EN in P1, P2. split; [|split; trivial].
  destruct (placed_number sizes radii) as [|m] eqn:Em; [lia|].
  destruct (nsum_find (fun c => nth c (num_per_class sizes radii) 0%nat) (length sizes) m) as (n & Hn & B);
    [fold (placed_number sizes radii); lia|].
  destruct (CB n m B). lia.
Qed.

(** ** minimal distance (C67) *)
Definition is_min (S : R -> Prop) (m : option R) : Prop :=
  match m with None => forall d, ~ S d | Some v => S v /\ forall d, S d -> v <= d end.
Lemma is_min_ext : forall S T m, (forall d, S d <-> T d) -> is_min S m -> is_min T m.
Proof.
  intros S T [v|] H; cbn [is_min].
  - intros (A & B). split; [now apply H|]. intros d Hd. apply B. now apply H.
  - intros A d Hd. apply (A d). now apply H.
Qed.
Lemma omin_is_min : forall S m d, is_min S m -> is_min (fun x => S x \/ x = d) (omin m d).
Proof.
  intros S [v|] d; cbn [is_min omin].
  - intros (A & B). split.
    + unfold Rmin. destruct (Rle_dec v d); auto.
    + intros x [Hx| ->]; [|apply Rmin_r]. eapply Rle_trans; [apply Rmin_l|auto].
  - intros A. split; [now right|]. intros x [Hx| ->]; [|lra]. exfalso. now apply (A x).
Qed.
Lemma omin_fold : forall (f : nat -> R) l S m, is_min S m ->
  is_min (fun x => S x \/ exists j, In j l /\ x = f j) (fold_left (fun m j => omin m (f j)) l m).
Proof.
  intros f l. induction l as [|a l IH]; intros S m H; cbn [fold_left].
  - eapply is_min_ext; [|exact H]. intro d. split; auto. intros [|(j & [] & _)]; trivial.
  - eapply is_min_ext; [|apply IH; apply omin_is_min; exact H]. intro d. cbn beta. split.
    + intros [[|E]|(j & Hj & E)]; auto; right; [exists a|exists j]; split; trivial; [now left|now right].
    + intros [|(j & [<-|Hj] & E)]; auto. right. eauto.
Qed.
Fixpoint before (l : list nat) (i j : nat) : Prop :=
  match l with [] => False | x :: l' => (x = i /\ In j l') \/ before l' i j end.
Definition gap (ps : list particle) (i j : nat) : R :=
  surface_distance (nth i ps (V3 0 0 0, 0)) (nth j ps (V3 0 0 0, 0)).
Lemma pair_min_spec : forall ps l S m, is_min S m ->
  is_min (fun x => S x \/ exists i j, before l i j /\ x = gap ps i j) (pair_min ps l m).
Proof.
  intros ps l. induction l as [|a l IH]; intros S m H; cbn [pair_min].
  - eapply is_min_ext; [|exact H]. intro d. split; auto. intros [|(i & j & [] & _)]; trivial.
  - eapply is_min_ext; [|apply IH; apply (omin_fold (fun j => gap ps a j)); exact H]. intro d. cbn beta. split.
    + intros [[|(j & Hj & E)]|(i & j & Hb & E)]; auto; right.
      * exists a, j. split; trivial. now left.
      * exists i, j. split; trivial. now right.
    + intros [|(i & j & [(<- & Hj)|Hb] & E)]; auto.
      * left. right. eauto.
      * right. eauto.
Qed.
Lemma box_fold : forall ps (t : table) bs S m, is_min S m ->
  is_min (fun x => S x \/ exists b i j, In b bs /\ before (t b) i j /\ x = gap ps i j)
    (fold_left (fun m b => pair_min ps (t b) m) bs m).
Proof.
  intros ps t bs. induction bs as [|b bs IH]; intros S m H; cbn [fold_left].
  - eapply is_min_ext; [|exact H]. intro d. split; auto. intros [|(b & i & j & [] & _)]; trivial.
  - eapply is_min_ext; [|apply IH; apply pair_min_spec; exact H]. intro d. cbn beta. split.
    + intros [[|(i & j & Hb & E)]|(b' & i & j & Hin & Hb & E)]; auto; right.
      * exists b, i, j. split; [now left|auto].
      * exists b', i, j. split; [now right|auto].
    + intros [|(b' & i & j & [<-|Hin] & Hb & E)]; auto.
      * left. right. eauto.
      * right. eauto 8.
Qed.

(** the tables *)
Fixpoint increasing (l : list nat) : Prop :=
  match l with [] => True | x :: l' => (forall y, In y l' -> (x < y)%nat) /\ increasing l' end.
Lemma before_lt : forall l i j, increasing l -> (before l i j <-> (i < j)%nat /\ In i l /\ In j l).
Proof.
  induction l as [|x l IH]; intros i j H; cbn [before In].
  - tauto.
  - destruct H as (H & H'). rewrite IH by trivial. split.
    + intros [(-> & Hj)|(L & Hi & Hj)]; auto. 
    + intros (L & Hi & Hj). destruct Hi as [->|Hi].
      * destruct Hj as [->|Hj]; [lia|]. now left.
      * destruct Hj as [->|Hj]; [specialize (H i Hi); lia|]. right. auto.
Qed.
Lemma increasing_snoc : forall l s, increasing l -> (forall y, In y l -> (y < s)%nat) -> increasing (l ++ [s]).
Proof.
  induction l as [|x l IH]; intros s H Hl; cbn [List.app increasing].
  - split; [intros y []|trivial].
  - destruct H as (H & H'). split.
    + intros y Hy. apply in_app_iff in Hy. destruct Hy as [Hy|[<-|[]]]; auto. apply Hl. now left.
    + apply IH; trivial. intros y Hy. apply Hl. now right.
Qed.
Definition table_inv (t : table) (s : nat) : Prop :=
  forall b, increasing (t b) /\ (forall y, In y (t b) -> (y <= s)%nat) /\ (In s (t b) -> exists r, rev (t b) = s :: r).
Lemma stat_add_inv : forall s t b, table_inv t s -> table_inv (stat_add s t b) s /\
  forall k j, In j (stat_add s t b k) <-> In j (t k) \/ (j = s /\ k = b).
Proof.
  intros s t b H. unfold stat_add.
  assert (APP : ~ In s (t b) -> table_inv (fun k => if Z.eqb k b then t b ++ [s] else t k) s /\
     forall k j, In j ((fun k => if Z.eqb k b then t b ++ [s] else t k) k) <-> In j (t k) \/ (j = s /\ k = b)).
  { intro Hs. split.
    - intro k. destruct (Z.eqb_spec k b) as [->|Hk]; [|apply H]. destruct (H b) as (A & B & _). split; [|split].
      + apply increasing_snoc; trivial. intros y Hy. specialize (B y Hy). destruct (Nat.eq_dec y s) as [->|]; [contradiction|lia].
      + intros y Hy. apply in_app_iff in Hy. destruct Hy as [Hy|[<-|[]]]; [now apply B|lia].
      + intros _. exists (rev (t b)). apply rev_unit.
    - intros k j. cbn beta. destruct (Z.eqb_spec k b) as [->|Hk].
      + rewrite in_app_iff. cbn [In]. split; [intros [|[<-|[]]]; auto|]. intros [|(-> & _)]; auto.
      + split; auto. intros [|(_ & E)]; [trivial|contradiction]. }
  destruct (rev (t b)) as [|lst rest] eqn:Er.
  - apply APP. intro Hs. destruct (H b) as (_ & _ & C). destruct (C Hs) as (r & E). congruence.
  - destruct (Nat.eqb_spec lst s) as [->|Hn].
    + split; trivial. intros k j. split; auto. intros [|(-> & ->)]; trivial. apply in_rev. rewrite Er. now left.
    + apply APP. intro Hs. destruct (H b) as (_ & _ & C). destruct (C Hs) as (r & E). congruence.
Qed.
Lemma stat_add_fold : forall s bs t, table_inv t s -> table_inv (fold_left (stat_add s) bs t) s /\
  forall k j, In j (fold_left (stat_add s) bs t k) <-> In j (t k) \/ (j = s /\ In k bs).
Proof.
  intros s bs. induction bs as [|b bs IH]; intros t H; cbn [fold_left].
  - split; trivial. intros k j. split; auto. intros [|(_ & [])]; trivial.
  - destruct (stat_add_inv s t b H) as (H1 & I1). destruct (IH _ H1) as (H2 & I2). split; trivial.
    intros k j. rewrite I2, I1. cbn [In]. split.
    + intros [[|(-> & ->)]|(-> & Hk)]; auto.
    + intros [|(-> & [<-|Hk])]; auto.
Qed.
Definition pget (ps : list particle) (s : nat) : particle := nth s ps (V3 0 0 0, 0).
Lemma stat_table_spec : forall div len ps, (forall b, increasing (stat_table div len ps b)) /\
  forall b s, In s (stat_table div len ps b) <->
    (s < length ps)%nat /\ In b (stat_boxes div len (fst (pget ps s)) (snd (pget ps s))).
Proof.
  intros div len ps.
  set (F := fun (t : table) (s : nat) => fold_left (stat_add s) (stat_boxes div len (fst (pget ps s)) (snd (pget ps s))) t).
  assert (G : forall n,
    let t := fold_left F (seq 0 n) (fun _ => []) in
    (forall b, increasing (t b)) /\
    forall b s, In s (t b) <-> (s < n)%nat /\ In b (stat_boxes div len (fst (pget ps s)) (snd (pget ps s)))).
  { induction n as [|n IH]; cbv zeta.
    - cbn [seq fold_left]. split; [intro; exact I|]. intros b s. cbn [In]. split; [tauto|lia].
    - rewrite seq_S, fold_left_app. cbn [Nat.add fold_left]. cbv zeta in IH.
      set (t := fold_left F (seq 0 n) (fun _ => [])) in *. unfold F. destruct IH as (I1 & I2).
      assert (TI : table_inv t n).
      { intro b. split; [apply I1|]. split.
        - intros y Hy. apply I2 in Hy. lia.
        - intro Hn. apply I2 in Hn. lia. }
      destruct (stat_add_fold n (stat_boxes div len (fst (pget ps n)) (snd (pget ps n))) t TI) as (T1 & T2). split.
      + intro b. apply T1.
      + intros b s. rewrite T2, I2. split.
        * intros [(L & H)|(-> & H)]; split; trivial; lia.
        * intros (L & H). destruct (Nat.eq_dec s n) as [->|]; [now right|]. left. split; trivial. lia. }
  exact (G (length ps)).
Qed.

Lemma minimal_distance_lemma : forall volume len ps,
  let '(nx, ny, nz) := sub_box_divisions volume len (length ps) 10 in
  is_min (fun d => exists b i j, (0 <= b < nx * ny * nz)%Z /\ (i < j < length ps)%nat /\
            In b (stat_boxes (nx, ny, nz) len (fst (pget ps i)) (snd (pget ps i))) /\
            In b (stat_boxes (nx, ny, nz) len (fst (pget ps j)) (snd (pget ps j))) /\ d = gap ps i j)
    (minimal_distance volume len ps).
Proof.
  intros volume len ps. unfold minimal_distance. destruct (sub_box_divisions volume len (length ps) 10) as [[nx ny] nz].
  destruct (stat_table_spec (nx, ny, nz) len ps) as (T1 & T2).
  eapply is_min_ext; [|apply (box_fold ps (stat_table (nx, ny, nz) len ps) (zrange 0 (nx * ny * nz - 1)) (fun _ => False) None)].
  - intro d. cbn beta. split.
    + intros [[]|(b & i & j & Hb & Hbef & E)]. apply zrange_In in Hb. apply before_lt in Hbef; [|apply T1].
      destruct Hbef as (L & Hi & Hj). apply T2 in Hi. apply T2 in Hj. exists b, i, j. repeat split; try tauto; lia.
    + intros (b & i & j & Hb & L & Hi & Hj & E). right. exists b, i, j. split; [apply zrange_In; lia|]. split; trivial.
      apply before_lt; [apply T1|]. split; [lia|]. split; apply T2; split; trivial; lia.
  - intros d [].
Qed.
