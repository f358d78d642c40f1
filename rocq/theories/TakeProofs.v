From Coq Require Import Reals ZArith List Bool Lia Lra Psatz Permutation.
From Verif Require Import Outcome AdaptiveModel AdaptiveProofs Vec3 CollisionModel SubBoxModel TakeModel TakeSpec.
Import ListNotations.
Local Open Scope R_scope.

(** ** radii *)
Lemma cube_root : forall d, 0 < d -> Rpower (d * d * d) (1 / 3) = d.
Proof.
  intros d Hd. replace (d * d * d) with (Rpower d (INR 3)).
  - rewrite Rpower_mult. replace (INR 3 * (1 / 3)) with 1 by (cbn [INR]; field). now apply Rpower_1.
  - rewrite Rpower_pow by trivial. ring.
Qed.
Lemma random_radius_bounds : forall c u, 0 < cmin c -> cmin c <= cmax c -> 0 <= u <= 1 ->
  cmin c / 2 <= random_radius c u <= cmax c / 2.
Proof.
  intros c u Hm HM Hu. unfold random_radius. set (a := cmin c) in *. set (b := cmax c) in *.
  set (X := (1 - u) * (b * b * b) + u * (a * a * a)).
  assert (Hab : a * a * a <= b * b * b).
  { assert (a * a <= b * b) by nra. apply Rmult_le_compat; nra. }
  assert (Ha : 0 < a * a * a) by (apply Rmult_lt_0_compat; [nra|lra]).
  assert (X1 : a * a * a <= X) by (subst X; nra). assert (X2 : X <= b * b * b) by (subst X; nra).
  pose proof (Rle_Rpower_l (a * a * a) X (1 / 3) ltac:(lra) (conj Ha X1)) as P1.
  pose proof (Rle_Rpower_l X (b * b * b) (1 / 3) ltac:(lra) (conj (Rlt_le_trans _ _ _ Ha X1) X2)) as P2.
  rewrite cube_root in P1, P2 by lra. set (q := Rpower X (1 / 3)) in *.
  assert (Hq : 0 < q) by lra.
  split.
  - apply Rmult_le_reg_r with q; trivial. unfold Rdiv. rewrite (Rmult_assoc (/2 * a * b)), Rinv_l by lra. nra.
  - apply Rmult_le_reg_r with q; trivial. unfold Rdiv. rewrite (Rmult_assoc (/2 * a * b)), Rinv_l by lra. nra.
Qed.
Lemma ball_volume_eq : forall r, ball_volume r = volume_of_ball r.
Proof. intro r. unfold ball_volume, volume_of_ball. ring. Qed.
Lemma ball_volume_mono : forall r s, 0 <= r -> r <= s -> ball_volume r <= ball_volume s.
Proof.
  intros r s H H'. unfold ball_volume. pose proof PI_RGT_0.
  assert (r * r * r <= s * s * s) by (assert (r * r <= s * s) by nra; apply Rmult_le_compat; nra).
  replace (4 / 3 * PI * r * r * r) with (4 / 3 * PI * (r * r * r)) by ring.
  replace (4 / 3 * PI * s * s * s) with (4 / 3 * PI * (s * s * s)) by ring. apply Rmult_le_compat_l; lra.
Qed.
Lemma ball_volume_pos : forall r, 0 < r -> 0 < ball_volume r.
Proof.
  intros r H. unfold ball_volume. pose proof PI_RGT_0. replace (4 / 3 * PI * r * r * r) with (4 / 3 * PI * (r * (r * r))) by ring.
  apply Rmult_lt_0_compat; [lra|]. apply Rmult_lt_0_compat; [trivial|]. now apply Rmult_lt_0_compat.
Qed.
Lemma sumR_app : forall a b, sumR (a ++ b) = sumR a + sumR b.
Proof. intros a b. induction a as [|x a IH]; simpl; [ring|]. rewrite IH. ring. Qed.
Lemma total_volume_app : forall a b, total_volume (a ++ b) = total_volume a + total_volume b.
Proof. intros a b. unfold total_volume. rewrite map_app. apply sumR_app. Qed.

Definition cok (c : gclass) : Prop := 0 < cmin c /\ cmin c <= cmax c /\ 0 <= cfrac c.
Definition unit_stream (u : nat -> R) : Prop := forall n, 0 <= u n <= 1.
Definition in_class (c : gclass) (r : R) : Prop := cmin c / 2 <= r <= cmax c / 2.

Lemma take_class_spec : forall fuel u c vsoll k vist rs v k', unit_stream u -> cok c ->
  take_class fuel u c vsoll k vist = Some (rs, v, k') ->
  v = vist + total_volume rs /\ Forall (in_class c) rs /\ (rs = [] \/ v < vsoll) /\
  vsoll <= v + ball_volume (cmax c / 2).
Proof.
  induction fuel as [|f IH]; intros u c vsoll k vist rs v k' Hu Hc E; [discriminate|].
  cbn [take_class] in E. pose proof (Hc) as (Hm & HM & Hf).
  pose proof (random_radius_bounds c (u k) Hm HM (Hu k)) as B. set (r := random_radius c (u k)) in *.
  destruct (rltb_spec (vist + ball_volume r) vsoll) as [(Eb & L)|(Eb & L)]; rewrite Eb in E.
  - destruct (take_class f u c vsoll (S k) (vist + ball_volume r)) as [[[rs' v'] k'']|] eqn:E'; [|discriminate].
    injection E as <- <- <-. destruct (IH _ _ _ _ _ _ _ _ Hu Hc E') as (Ev & HF & HO & HL).
    split; [|split; [|split]].
    + rewrite Ev. unfold total_volume. cbn [map sumR]. rewrite ball_volume_eq. ring.
    + now constructor.
    + right. destruct HO as [->|]; trivial. rewrite Ev. unfold total_volume. cbn [map sumR]. lra.
    + exact HL.
  - injection E as <- <- <-. split; [|split; [|split]].
    + unfold total_volume. cbn [map sumR]. ring.
    + constructor.
    + now left.
    + pose proof (ball_volume_mono r (cmax c / 2) ltac:(lra) ltac:(lra)). lra.
Qed.

(** the groups of radii, one per class *)
Lemma take_classes_spec : forall fuel u total cs prev k rs vs, unit_stream u -> Forall cok cs -> 0 <= total ->
  0 <= (match prev with None => 0 | Some (s, i) => s - i end) ->
  take_classes fuel u total cs prev k = Some (rs, vs) ->
  exists groups, rs = concat groups /\ Forall2 (fun c g => Forall (in_class c) g) cs groups /\
    forall n, (n <= length cs)%nat ->
      let carry := match prev with None => 0 | Some (s, i) => s - i end in
      let target := carry + total * sumR (map cfrac (firstn n cs)) in
      let actual := total_volume (concat (firstn n groups)) in
      actual <= target /\
      (forall c, n <> 0%nat -> nth_error cs (n - 1) = Some c -> target - actual <= volume_of_ball (cmax c / 2)).
Proof.
  intros fuel u total cs. induction cs as [|c cs IH]; intros prev k rs vs Hu HC Ht Hp E.
  - cbn [take_classes] in E. injection E as <- <-. exists []. split; [reflexivity|]. split; [constructor|].
    intros n Hn. cbn [length] in Hn. assert (n = 0%nat) by lia. subst n. cbn. split; [unfold total_volume; cbn; lra|].
    intros c H. congruence.
  - apply Forall_cons_iff in HC. destruct HC as (Hc & HC). cbn [take_classes] in E.
    set (carry := match prev with None => 0 | Some (s, i) => s - i end) in *.
    set (vsoll := match prev with None => total * cfrac c | Some (s, i) => total * cfrac c + (s - i) end) in *.
    assert (Es : vsoll = carry + total * cfrac c).
    { subst vsoll carry. destruct prev as [[s i]|]; ring. }
    clearbody vsoll carry.
    destruct (take_class fuel u c vsoll k 0) as [[[rs0 v0] k0]|] eqn:E0; [|discriminate].
    destruct (take_classes fuel u total cs (Some (vsoll, v0)) k0) as [[rs1 vs1]|] eqn:E1; [|discriminate].
    injection E as <- <-.
    destruct (take_class_spec _ _ _ _ _ _ _ _ _ Hu Hc E0) as (Ev & HF & HO & HL).
    destruct Hc as (Hm & HM & Hf).
    assert (Hs : 0 <= vsoll) by (rewrite Es; assert (0 <= total * cfrac c) by (apply Rmult_le_pos; lra); lra).
    assert (Hv : v0 <= vsoll).
    { destruct HO as [->|]; [|lra]. rewrite Ev. unfold total_volume. cbn [map sumR]. lra. }
    assert (Hp' : 0 <= vsoll - v0) by lra.
    destruct (IH (Some (vsoll, v0)) k0 rs1 vs1 Hu HC Ht Hp' E1) as (groups & Eg & HG & HT).
    exists (rs0 :: groups). split; [cbn [concat]; now rewrite Eg|]. split; [now constructor|].
    intros [|n] Hn.
    + cbn [firstn map sumR concat]. unfold total_volume. cbn [map sumR]. split; [lra|]. intros c' H. congruence.
    + cbn [length] in Hn. specialize (HT n ltac:(lia)). cbn beta iota zeta in HT.
      cbn [firstn map sumR concat]. rewrite total_volume_app. cbv zeta. destruct HT as (T1 & T2).
      rewrite Rplus_0_l in Ev. split; [nra|].
      intros c' _ Hc'. replace (S n - 1)%nat with n in Hc' by lia. destruct n as [|n].
      * cbn [nth_error] in Hc'. injection Hc' as <-. cbn [firstn map sumR concat]. unfold total_volume at 2. cbn [map sumR].
        rewrite ball_volume_eq in HL. lra.
      * cbn [nth_error] in Hc'. specialize (T2 c' ltac:(lia)). replace (S n - 1)%nat with n in T2 by lia.
        specialize (T2 Hc'). nra.
Qed.

(** termination *)
Lemma take_class_terminates : forall u c vsoll n k vist, unit_stream u -> cok c ->
  vsoll - vist <= INR n * ball_volume (cmin c / 2) ->
  forall fuel, (n < fuel)%nat -> exists r, take_class fuel u c vsoll k vist = Some r.
Proof.
  intros u c vsoll n. induction n as [|n IH]; intros k vist Hu Hc H fuel Hf; (destruct fuel as [|fuel]; [lia|]);
    cbn [take_class]; pose proof Hc as (Hm & HM & Hfr);
    pose proof (random_radius_bounds c (u k) Hm HM (Hu k)) as B; set (r := random_radius c (u k)) in *;
    pose proof (ball_volume_mono (cmin c / 2) r ltac:(lra) ltac:(lra)) as M;
    pose proof (ball_volume_pos (cmin c / 2) ltac:(lra)) as P;
    destruct (rltb_spec (vist + ball_volume r) vsoll) as [(-> & L)|(-> & L)]; eauto.
  - exfalso. cbn [INR] in H. lra.
  - destruct (IH (S k) (vist + ball_volume r) Hu Hc) with (fuel := fuel) as ([[rs v] k'] & ->); [|lia|eauto].
    rewrite S_INR in H. lra.
Qed.
Lemma INR_up : forall x, exists n, x <= INR n.
Proof.
  intro x. exists (Z.to_nat (up x)). destruct (archimed x) as (A & _). destruct (Z_le_gt_dec 0 (up x)) as [H|H].
  - rewrite INR_IZR_INZ, Z2Nat.id by trivial. lra.
  - assert (IZR (up x) <= 0) by (apply (IZR_le (up x) 0); lia). pose proof (pos_INR (Z.to_nat (up x))). lra.
Qed.
Lemma take_classes_mono_fuel : forall u c vsoll fuel k vist r, take_class fuel u c vsoll k vist = Some r ->
  forall fuel', (fuel <= fuel')%nat -> take_class fuel' u c vsoll k vist = Some r.
Proof.
  intros u c vsoll fuel. induction fuel as [|f IH]; intros k vist r E fuel' Hf; [discriminate|].
  destruct fuel' as [|f']; [lia|]. cbn [take_class] in *. destruct (rltb _ _); trivial.
  destruct (take_class f u c vsoll (S k) _) as [[[rs v] k']|] eqn:E'; [|discriminate].
  rewrite (IH _ _ _ E' f' ltac:(lia)). exact E.
Qed.
Lemma take_classes_terminates : forall u total cs prev k, unit_stream u -> Forall cok cs ->
  exists fuel0, forall fuel, (fuel0 <= fuel)%nat -> exists r, take_classes fuel u total cs prev k = Some r.
Proof.
  intros u total cs. induction cs as [|c cs IH]; intros prev k Hu HC.
  - exists 0%nat. intros. cbn [take_classes]. eauto.
  - apply Forall_cons_iff in HC. destruct HC as (Hc & HC). cbn [take_classes].
    set (vsoll := match prev with None => _ | Some (s, i) => _ end).
    pose proof (ball_volume_pos (cmin c / 2) ltac:(destruct Hc; lra)) as P.
    destruct (INR_up ((vsoll - 0) / ball_volume (cmin c / 2))) as (n & Hn).
    assert (H : vsoll - 0 <= INR n * ball_volume (cmin c / 2)).
    { apply (Rmult_le_compat_r (ball_volume (cmin c / 2))) in Hn; [|lra]. unfold Rdiv in Hn.
      rewrite Rmult_assoc, Rinv_l in Hn by lra. lra. }
    destruct (take_class_terminates u c vsoll n k 0 Hu Hc H (S n) ltac:(lia)) as ([[rs v] k'] & E).
    destruct (IH (Some (vsoll, v)) k' Hu HC) as (f1 & H1).
    exists (Nat.max (S n) f1). intros fuel Hf.
    rewrite (take_classes_mono_fuel _ _ _ _ _ _ _ E fuel ltac:(lia)).
    destruct (H1 fuel ltac:(lia)) as ([rs' vs] & ->). eauto.
Qed.

(** ** sorting *)
Lemma insert_desc_perm : forall x l, Permutation (insert_desc x l) (x :: l).
Proof.
  intros x l. induction l as [|y l IH]; cbn [insert_desc]; [reflexivity|].
  destruct (rltb y x); [reflexivity|]. rewrite IH. apply perm_swap.
Qed.
Lemma sort_desc_perm : forall l, Permutation (sort_desc l) l.
Proof.
  unfold sort_desc. induction l as [|x l IH]; cbn [fold_right]; [reflexivity|].
  rewrite insert_desc_perm. now constructor.
Qed.
Lemma insert_desc_sorted : forall x l, decreasing l -> decreasing (insert_desc x l).
Proof.
  intros x l. induction l as [|y l IH]; cbn [insert_desc]; intro H.
  - cbn [decreasing]. split; [intros y []|trivial].
  - destruct H as (H & H'). destruct (rltb_spec y x) as [(-> & L)|(-> & L)]; cbn [decreasing].
    + split; [|split; trivial]. intros z [<-|Hz]; [lra|]. specialize (H z Hz). lra.
    + split; [|now apply IH]. intros z Hz. apply (Permutation_in _ (insert_desc_perm x l)) in Hz.
      destruct Hz as [<-|Hz]; [lra|auto].
Qed.
Lemma sort_desc_sorted : forall l, decreasing (sort_desc l).
Proof.
  unfold sort_desc. induction l; cbn [fold_right]; [exact I|]. now apply insert_desc_sorted.
Qed.
Lemma decreasing_map : forall s l, 0 <= s -> decreasing l -> decreasing (map (fun r => r * s) l).
Proof.
  intros s l Hs. induction l as [|x l IH]; cbn [map decreasing]; trivial. intros (H & H'). split; [|auto].
  intros y Hy. apply in_map_iff in Hy. destruct Hy as (z & <- & Hz). apply Rmult_le_compat_r; auto.
Qed.
Lemma map_snd_combine : forall (A B : Type) (a : list A) (b : list B), length a = length b -> map snd (combine a b) = b.
Proof.
  intros A B a. induction a as [|x a IH]; intros [|y b] E; try discriminate; [reflexivity|].
  cbn [combine map snd]. f_equal. apply IH. now injection E.
Qed.

(** ** size classes (C65) *)
Definition class_of (sizes : list R) (c : nat) (d : R) : Prop :=
  (c = 0%nat \/ d < nth c sizes 0) /\ (S c = length sizes \/ nth (S c) sizes 0 <= d).
Definition class_ofb (sizes : list R) (c : nat) (d : R) : bool :=
  andb (orb (Nat.eqb c 0) (rltb d (nth c sizes 0))) (orb (Nat.eqb (S c) (length sizes)) (rleb (nth (S c) sizes 0) d)).
Lemma class_ofb_spec : forall sizes c d, class_ofb sizes c d = true <-> class_of sizes c d.
Proof.
  intros sizes c d. unfold class_ofb, class_of. rewrite andb_true_iff, !orb_true_iff, !Nat.eqb_eq.
  destruct (rltb_spec d (nth c sizes 0)) as [(-> & A)|(-> & A)], (rleb_spec (nth (S c) sizes 0) d) as [(-> & B)|(-> & B)];
    split; intros ([P|P] & [Q|Q]); try discriminate; auto; try lra.
Qed.
Definition count_class (sizes : list R) (c : nat) (radii : list R) : nat :=
  length (filter (fun r => class_ofb sizes c (2 * r)) radii).

Lemma nth_set_nth : forall l i v j, (i < length l)%nat ->
  nth j (set_nth l i v) 0%nat = if Nat.eqb j i then v else nth j l 0%nat.
Proof.
  intros l i v j Hi. unfold set_nth. destruct (Nat.eqb_spec j i) as [->|Hj].
  - rewrite app_nth2; rewrite firstn_length_le by lia; [|lia]. now rewrite Nat.sub_diag.
  - destruct (Nat.lt_ge_cases j i) as [L|L].
    + rewrite app_nth1 by (rewrite firstn_length_le; lia). clear -L Hi.
      revert i j L Hi. induction l as [|x l IH]; intros [|i] [|j] L Hi; cbn in *; try lia; trivial. apply IH; lia.
    + rewrite app_nth2; rewrite firstn_length_le by lia; [|lia].
      replace (j - i)%nat with (S (j - i - 1)) by lia. cbn [nth]. clear -L Hj Hi.
      revert i j L Hi Hj. induction l as [|x l IH]; intros [|i] [|j] L Hi Hj; cbn [length] in *; try lia.
      * cbn [skipn]. replace (S j - 0 - 1)%nat with j by lia. reflexivity.
      * replace (S j - S i - 1)%nat with (j - i - 1)%nat by lia. change (skipn (S (S i)) (x :: l)) with (skipn (S i) l).
        rewrite IH by lia. reflexivity.
Qed.
Lemma set_nth_length : forall l i v, (i < length l)%nat -> length (set_nth l i v) = length l.
Proof.
  intros l i v Hi. unfold set_nth. rewrite app_length. cbn [length]. rewrite firstn_length_le, skipn_length by lia. lia.
Qed.
Lemma count_cons : forall sizes c r rs, count_class sizes c (r :: rs) =
  ((if class_ofb sizes c (2 * r) then 1 else 0) + count_class sizes c rs)%nat.
Proof. intros. unfold count_class. cbn [filter]. destruct (class_ofb sizes c (2 * r)); reflexivity. Qed.
Lemma class_ofb_false : forall sizes c d, ~ class_of sizes c d -> class_ofb sizes c d = false.
Proof. intros. destruct (class_ofb sizes c d) eqn:E; trivial. exfalso. apply H. now apply class_ofb_spec. Qed.
Lemma count_none : forall sizes c rs, (forall r, In r rs -> ~ class_of sizes c (2 * r)) -> count_class sizes c rs = 0%nat.
Proof.
  intros sizes c rs H. induction rs as [|r rs IH]; [reflexivity|]. rewrite count_cons, class_ofb_false, IH; auto.
  - intros. apply H. now right.
  - apply H. now left.
Qed.
Lemma count_all : forall sizes c rs, (forall r, In r rs -> class_of sizes c (2 * r)) -> count_class sizes c rs = length rs.
Proof.
  intros sizes c rs H. induction rs as [|r rs IH]; [reflexivity|]. rewrite count_cons.
  replace (class_ofb sizes c (2 * r)) with true.
  - rewrite IH; [reflexivity|]. intros. apply H. now right.
  - symmetry. apply class_ofb_spec. apply H. now left.
Qed.

Definition strictly_decreasing_sizes (sizes : list R) : Prop :=
  forall i j, (i < j < length sizes)%nat -> nth j sizes 0 < nth i sizes 0.

Lemma num_loop_spec : forall sizes radii cls cnt num, strictly_decreasing_sizes sizes ->
  decreasing radii -> length num = length sizes -> (S cls < length sizes)%nat ->
  (forall r, In r radii -> cls = 0%nat \/ 2 * r < nth cls sizes 0) ->
  (forall c, (cls < c < length sizes)%nat -> exists r, In r radii /\ class_of sizes c (2 * r)) ->
  (forall c, (c < length sizes)%nat -> (cls < c)%nat -> nth c num 0%nat = 0%nat) ->
  forall c, (c < length sizes)%nat ->
    nth c (num_loop sizes radii cls cnt num) 0%nat =
    if Nat.ltb c cls then nth c num 0%nat
    else if Nat.eqb c cls then (cnt + count_class sizes c radii)%nat else count_class sizes c radii.
Proof.
  intros sizes radii. induction radii as [|r rs IH]; intros cls cnt num HS HD HL Hcls HB HE H0 c Hc.
  - exfalso. destruct (HE (S cls) ltac:(lia)) as (r & [] & _).
  - destruct HD as (HD1 & HD2). cbn [num_loop].
    destruct (rleb_spec (nth (S cls) sizes 0) (2 * r)) as [(-> & L)|(-> & L)].
    + assert (Hr : class_of sizes cls (2 * r)) by (split; [apply HB; now left|now right]).
      rewrite IH; trivial.
      * assert (Hother : forall c', c' <> cls -> (c' < length sizes)%nat -> (cls < c')%nat -> class_ofb sizes c' (2 * r) = false).
        { intros c' Hne Hc' Hlt. apply class_ofb_false. intros ([E|E] & _); [lia|].
          destruct (Nat.eq_dec c' (S cls)) as [->|Hn]; [lra|].
          pose proof (HS (S cls) c' ltac:(lia)). lra. }
        destruct (Nat.ltb_spec c cls); trivial. destruct (Nat.eqb_spec c cls) as [->|Hn].
        -- rewrite count_cons. replace (class_ofb sizes cls (2 * r)) with true by (symmetry; now apply class_ofb_spec). lia.
        -- rewrite count_cons, Hother by lia. reflexivity.
      * intros r' Hr'. apply HB. now right.
      * intros c' Hc'. destruct (HE c' Hc') as (r' & [<-|Hin] & Hcl); [|eauto].
        exfalso. destruct Hcl as ([E|E] & _); [lia|].
        destruct (Nat.eq_dec c' (S cls)) as [->|Hn]; [lra|]. pose proof (HS (S cls) c' ltac:(lia)). lra.
    + (* r belongs to the next class *)
      assert (Hrn : class_of sizes (S cls) (2 * r)).
      { split; [now right|]. destruct (Nat.eq_dec (S (S cls)) (length sizes)) as [E|E]; [now left|right].
        destruct (HE (S cls) ltac:(lia)) as (r' & Hin & (_ & [E'|E'])); [lia|].
        assert (r' <= r) by (destruct Hin as [<-|Hin]; [lra|auto]). lra. }
      assert (Hcur : forall r', In r' (r :: rs) -> ~ class_of sizes cls (2 * r')).
      { intros r' Hin (_ & [E|E]); [lia|]. assert (r' <= r) by (destruct Hin as [<-|Hin]; [lra|auto]). lra. }
      destruct (Nat.eqb_spec (S cls) (length sizes - 1)) as [El|El].
      * rewrite nth_set_nth by (rewrite set_nth_length; lia). rewrite nth_set_nth by lia.
        destruct (Nat.eqb_spec c (S cls)) as [->|Hn].
        -- destruct (Nat.ltb_spec (S cls) cls); [lia|]. destruct (Nat.eqb_spec (S cls) cls); [lia|].
           symmetry. apply count_all. intros r' Hin. split; [right|left; lia].
           assert (r' <= r) by (destruct Hin as [<-|Hin]; [lra|auto]). lra.
        -- destruct (Nat.eqb_spec c cls) as [->|Hn'].
           ++ destruct (Nat.ltb_spec cls cls); [lia|]. rewrite count_none by exact Hcur. lia.
           ++ destruct (Nat.ltb_spec c cls); [reflexivity|lia].
      * rewrite IH; trivial; try lia.
        -- destruct (Nat.ltb_spec c (S cls)) as [L1|L1].
           ++ rewrite nth_set_nth by lia. destruct (Nat.eqb_spec c cls) as [->|Hn'].
              ** destruct (Nat.ltb_spec cls cls); [lia|]. rewrite count_none by exact Hcur. lia.
              ** destruct (Nat.ltb_spec c cls); [reflexivity|lia].
           ++ destruct (Nat.ltb_spec c cls); [lia|]. destruct (Nat.eqb_spec c cls); [lia|].
              rewrite count_cons. destruct (Nat.eqb_spec c (S cls)) as [->|Hn'].
              ** replace (class_ofb sizes (S cls) (2 * r)) with true by (symmetry; now apply class_ofb_spec). lia.
              ** rewrite class_ofb_false; [reflexivity|]. intros ([E|E] & _); [lia|].
                 destruct Hrn as (_ & [E'|E']); [lia|]. destruct (Nat.eq_dec c (S (S cls))) as [->|Hx]; [lra|].
                 pose proof (HS (S (S cls)) c ltac:(lia)). lra.
        -- rewrite set_nth_length; lia.
        -- intros r' Hin. right. assert (r' <= r) by auto. lra.
        -- intros c' Hc'. destruct (HE c' ltac:(lia)) as (r' & [<-|Hin] & Hcl); [|eauto].
           exfalso. destruct Hcl as ([E|E] & _); [lia|]. destruct Hrn as (_ & [E'|E']); [lia|].
           destruct (Nat.eq_dec c' (S (S cls))) as [->|Hx]; [lra|]. pose proof (HS (S (S cls)) c' ltac:(lia)). lra.
        -- intros c' Hc' Hlt. rewrite nth_set_nth by lia. destruct (Nat.eqb_spec c' cls); [lia|]. apply H0; lia.
Qed.
