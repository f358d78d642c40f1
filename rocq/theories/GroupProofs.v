From Coq Require Import List ZArith Arith Lia Bool Sorted.
From Verif Require Import GroupModel GroupSpec.
Import ListNotations.
Local Open Scope Z_scope.

(** ** lower_bound *)

(** [l] is strictly ascending, by index. *)
Definition asc (l : list Z) : Prop :=
  forall i j x y, (i < j)%nat -> nth_error l i = Some x -> nth_error l j = Some y -> x < y.

Lemma nth_error_Some_lt {A} (l : list A) i : (i < length l)%nat -> exists x, nth_error l i = Some x.
Proof.
  intros H. destruct (nth_error l i) eqn:E; eauto.
  apply nth_error_None in E. lia.
Qed.

Lemma lower_bound_loop_spec l a : asc l -> forall fuel first len,
  (len <= fuel)%nat -> (first + len <= length l)%nat ->
  (forall i x, (i < first)%nat -> nth_error l i = Some x -> x < a) ->
  (forall i x, (first + len <= i)%nat -> nth_error l i = Some x -> a <= x) ->
  exists p, lower_bound_loop fuel l first len a = Some p /\ (p <= length l)%nat /\
    (forall i x, (i < p)%nat -> nth_error l i = Some x -> x < a) /\
    (forall i x, (p <= i)%nat -> nth_error l i = Some x -> a <= x).
Proof.
  intros Hasc fuel; induction fuel as [|fuel IH]; intros first len Hf Hlen Hlo Hhi.
  - destruct len; [|lia]. exists first. simpl. repeat split; auto; try lia.
    intros i x Hi; apply Hhi; lia.
  - destruct len as [|len'].
    + exists first. simpl. repeat split; auto; try lia.
      intros i x Hi; apply Hhi; lia.
    + set (len := S len') in *. cbn [lower_bound_loop]. fold len.
      change (match len with O => Some first | S _ => _ end) with
        (let half := Nat.div2 len in
         match nth_error l (first + half) with
         | None => None
         | Some m =>
           if m <? a then lower_bound_loop fuel l (first + half + 1) (len - half - 1) a
           else lower_bound_loop fuel l first half a
         end).
      assert (Hh : (Nat.div2 len < len)%nat) by (apply Nat.lt_div2; unfold len; lia).
      cbv zeta. set (half := Nat.div2 len) in *.
      destruct (nth_error_Some_lt l (first + half)) as [m Hm]; [lia|].
      rewrite Hm. destruct (Z.ltb_spec m a).
      * apply IH; try lia.
        -- intros i x Hi Hx. destruct (Nat.eq_dec i (first + half)) as [->|Hne].
           ++ congruence.
           ++ assert (x < m) by (apply (Hasc i (first + half)%nat); auto; lia). lia.
        -- intros i x Hi. apply Hhi. lia.
      * apply IH; try lia; auto.
        intros i x Hi Hx. destruct (Nat.eq_dec i (first + half)) as [->|Hne].
        -- assert (x = m) by congruence. lia.
        -- assert (m < x) by (apply (Hasc (first + half)%nat i); auto; lia). lia.
Qed.

Lemma lower_bound_spec l a : asc l ->
  exists p, lower_bound l a = Some p /\ (p <= length l)%nat /\
    (forall i x, (i < p)%nat -> nth_error l i = Some x -> x < a) /\
    (forall i x, (p <= i)%nat -> nth_error l i = Some x -> a <= x).
Proof.
  intros H. apply lower_bound_loop_spec; auto; try lia.
  intros i x Hi Hx. assert (nth_error l i = None) by (apply nth_error_None; lia). congruence.
Qed.

(** ** SortedUniqueVector *)

Lemma nth_error_insert_lt i p a l : (i < p)%nat -> (p <= length l)%nat ->
  nth_error (insert_at p a l) i = nth_error l i.
Proof.
  intros Hi Hp. unfold insert_at. rewrite nth_error_app1.
  - rewrite <- (firstn_skipn p l) at 2. rewrite nth_error_app1; auto. rewrite firstn_length; lia.
  - rewrite firstn_length; lia.
Qed.

Lemma nth_error_insert_eq p a l : (p <= length l)%nat -> nth_error (insert_at p a l) p = Some a.
Proof.
  intros Hp. unfold insert_at. rewrite nth_error_app2; rewrite firstn_length.
  - replace (p - Nat.min p (length l))%nat with 0%nat by lia. reflexivity.
  - lia.
Qed.

Lemma nth_error_insert_gt i p a l : (p < i)%nat -> (p <= length l)%nat ->
  nth_error (insert_at p a l) i = nth_error l (i - 1).
Proof.
  intros Hi Hp. unfold insert_at. rewrite nth_error_app2; rewrite firstn_length; [|lia].
  replace (i - Nat.min p (length l))%nat with (S (i - 1 - p)) by lia. simpl.
  rewrite <- (firstn_skipn p l) at 2. rewrite nth_error_app2; rewrite firstn_length; [|lia].
  f_equal. lia.
Qed.

Lemma in_insert_at x p a l : In x (insert_at p a l) <-> x = a \/ In x l.
Proof.
  unfold insert_at. rewrite in_app_iff. simpl.
  rewrite <- (firstn_skipn p l) at 3. rewrite in_app_iff. intuition.
Qed.

Lemma suv_contains_spec l a : asc l ->
  exists b, suv_contains l a = Some b /\ (b = true <-> In a l).
Proof.
  intros H. unfold suv_contains.
  destruct (lower_bound_spec l a H) as (p & -> & Hp & Hlo & Hhi).
  destruct (nth_error l p) as [b|] eqn:E.
  - exists (b =? a). split; auto. rewrite Z.eqb_eq. split.
    + intros ->. eapply nth_error_In; eauto.
    + intros Hin. destruct (In_nth_error _ _ Hin) as [i Hi].
      destruct (lt_eq_lt_dec i p) as [[Hl|He]|Hg].
      * specialize (Hlo _ _ Hl Hi). lia.
      * subst. congruence.
      * pose proof (H p i b a Hg E Hi). pose proof (Hhi p b (le_n _) E). lia.
  - exists false. split; auto. split; [discriminate|]. intros Hin.
    destruct (In_nth_error _ _ Hin) as [i Hi].
    apply nth_error_None in E.
    assert (i < length l)%nat by (apply nth_error_Some; congruence).
    specialize (Hlo i a ltac:(lia) Hi). lia.
Qed.

Lemma suv_add_spec l a : asc l ->
  exists l', suv_add l a = Some (l', if in_dec Z.eq_dec a l then false else true) /\
    asc l' /\ (forall x, In x l' <-> x = a \/ In x l).
Proof.
  intros H. unfold suv_add.
  destruct (lower_bound_spec l a H) as (p & Elb & Hp & Hlo & Hhi).
  destruct (suv_contains_spec l a H) as (c & Hc & Hin).
  unfold suv_contains in Hc. rewrite Elb in Hc |- *.
  assert (Hins : forall l0, l0 = insert_at p a l -> ~ In a l ->
            asc l0 /\ (forall x, In x l0 <-> x = a \/ In x l)).
  { intros l0 -> Hn. split; [|intros; apply in_insert_at].
    intros i j x y Hij Hx Hy.
    destruct (lt_eq_lt_dec i p) as [[Hil| ->]|Hig].
    - rewrite nth_error_insert_lt in Hx by lia.
      destruct (lt_eq_lt_dec j p) as [[Hjl| ->]|Hjg].
      + rewrite nth_error_insert_lt in Hy by lia. exact (H i j x y Hij Hx Hy).
      + rewrite nth_error_insert_eq in Hy by lia. injection Hy as <-. exact (Hlo i x Hil Hx).
      + rewrite nth_error_insert_gt in Hy by lia. eapply H; [|exact Hx|exact Hy]. lia.
    - rewrite nth_error_insert_eq in Hx by lia. injection Hx as <-.
      rewrite nth_error_insert_gt in Hy by lia.
      assert (a <= y) by (eapply Hhi; [|exact Hy]; lia).
      assert (a <> y) by (intros ->; apply Hn; eapply nth_error_In; eauto). lia.
    - rewrite nth_error_insert_gt in Hx by lia. rewrite nth_error_insert_gt in Hy by lia.
      eapply H; [|exact Hx|exact Hy]. lia. }
  destruct (nth_error l p) as [b|] eqn:E.
  - injection Hc as <-. destruct (Z.eqb_spec b a) as [->|Hne].
    + destruct (in_dec Z.eq_dec a l) as [Hi|Hi]; [|exfalso; apply Hi; apply Hin; auto].
      exists l. repeat split; auto. intros [->|?]; auto.
    + assert (Hn : ~ In a l) by (intros Hi; apply Hin in Hi; discriminate).
      destruct (in_dec Z.eq_dec a l) as [Hi|Hi]; [contradiction|].
      destruct (Hins _ eq_refl Hn). eauto.
  - injection Hc as <-.
    assert (Hn : ~ In a l) by (intros Hi; apply Hin in Hi; discriminate).
    destruct (in_dec Z.eq_dec a l) as [Hi|Hi]; [contradiction|].
    destruct (Hins _ eq_refl Hn). eauto.
Qed.

(** ** Group invariant *)

Definition group_ok (g : group) : Prop :=
  asc (mUnique g) /\ (forall x, In x (mUnique g) <-> In x (mData g)) /\ NoDup (mData g).

Lemma group_ok_empty : group_ok group_empty.
Proof.
  repeat split; simpl; auto; try constructor. intros i j x y _ Hx. destruct i; discriminate.
Qed.

Lemma group_add_spec g a : group_ok g ->
  exists g', group_add g a = Some g' /\ group_ok g' /\
    mData g' = mData g ++ (if in_dec Z.eq_dec a (mData g) then [] else [a]).
Proof.
  intros (Ha & Hs & Hn). unfold group_add.
  destruct (suv_add_spec (mUnique g) a Ha) as (l' & -> & Ha' & Hin').
  destruct (in_dec Z.eq_dec a (mUnique g)) as [Hi|Hi];
    destruct (in_dec Z.eq_dec a (mData g)) as [Hj|Hj];
    try (exfalso; rewrite Hs in Hi; tauto).
  - eexists; split; [reflexivity|]. simpl. rewrite app_nil_r. repeat split; auto.
    + rewrite Hin'. intros [->|?]; [auto|]. apply Hs; auto.
    + rewrite Hin'. intros ?. right; apply Hs; auto.
  - eexists; split; [reflexivity|]. simpl. repeat split; simpl; auto.
    + rewrite Hin', in_app_iff. simpl. rewrite Hs. intuition.
    + rewrite Hin', in_app_iff. simpl. rewrite Hs. intuition.
    +
      rewrite <- (rev_involutive (mData g ++ [a])). apply NoDup_rev.
      rewrite rev_app_distr. simpl. constructor.
      * rewrite <- in_rev. auto.
      * apply NoDup_rev; auto.
Qed.

Lemma first_occ_ext {A} (dec : forall x y : A, {x = y} + {x <> y}) l : forall s s',
  (forall x, In x s <-> In x s') -> first_occ dec s l = first_occ dec s' l.
Proof.
  induction l as [|x l IH]; intros s s' H; simpl; auto.
  destruct (in_dec dec x s), (in_dec dec x s'); try (exfalso; rewrite H in *; tauto).
  - apply IH; auto.
  - f_equal. apply IH. intros y; simpl. rewrite H. tauto.
Qed.

Lemma group_add_all_spec l : forall g, group_ok g ->
  exists g', group_add_all g l = Some g' /\ group_ok g' /\
    mData g' = mData g ++ first_occ Z.eq_dec (mData g) l.
Proof.
  induction l as [|a l IH]; intros g Hg; simpl.
  - exists g. rewrite app_nil_r; auto.
  - destruct (group_add_spec g a Hg) as (g1 & -> & Hg1 & Hd1).
    destruct (IH g1 Hg1) as (g2 & -> & Hg2 & Hd2).
    exists g2. split; auto. split; auto. rewrite Hd2, Hd1.
    destruct (in_dec Z.eq_dec a (mData g)) as [Hi|Hi].
    + rewrite app_nil_r. auto.
    + rewrite <- app_assoc. simpl. do 2 f_equal.
      apply first_occ_ext. intros x. rewrite in_app_iff. simpl. tauto.
Qed.

Lemma group_contains_spec g a : group_ok g ->
  exists b, group_contains g a = Some b /\ (b = true <-> In a (mData g)).
Proof.
  intros (Ha & Hs & Hn). destruct (suv_contains_spec (mUnique g) a Ha) as (b & Hb & Hi).
  exists b. split; auto. rewrite Hi. apply Hs.
Qed.

Lemma in_first_occ {A} (dec : forall x y : A, {x = y} + {x <> y}) l : forall s x,
  In x (first_occ dec s l) <-> In x l /\ ~ In x s.
Proof.
  induction l as [|y l IH]; intros s x; simpl; [tauto|].
  destruct (in_dec dec y s) as [Hi|Hi].
  - rewrite IH. split; intuition. subst; tauto.
  - simpl. rewrite IH. simpl. destruct (dec y x) as [->|Hne]; intuition.
Qed.

Lemma NoDup_first_occ {A} (dec : forall x y : A, {x = y} + {x <> y}) l : forall s,
  NoDup (first_occ dec s l).
Proof.
  induction l as [|y l IH]; intros s; simpl; [constructor|].
  destruct (in_dec dec y s); auto. constructor; auto.
  rewrite in_first_occ. simpl. tauto.
Qed.

Lemma first_occ_NoDup_id {A} (dec : forall x y : A, {x = y} + {x <> y}) l : forall s,
  NoDup l -> (forall x, In x l -> ~ In x s) -> first_occ dec s l = l.
Proof.
  induction l as [|y l IH]; intros s Hn Hd; simpl; auto.
  inversion Hn; subst. destruct (in_dec dec y s) as [Hi|Hi].
  - exfalso. apply (Hd y); simpl; auto.
  - f_equal. apply IH; auto. intros x Hx [->|Hs]; auto. apply (Hd x); simpl; auto.
Qed.

Lemma first_occ_filter {A} (dec : forall x y : A, {x = y} + {x <> y}) l : forall s,
  NoDup l -> first_occ dec s l = filter (fun x => negb (mem dec x s)) l.
Proof.
  induction l as [|y l IH]; intros s Hn; simpl; auto. inversion Hn; subst.
  unfold mem at 1. destruct (in_dec dec y s) as [Hi|Hi]; simpl; auto.
  f_equal. rewrite IH; auto. apply filter_ext_in. intros x Hx. unfold mem.
  destruct (in_dec dec x (y :: s)) as [[->|?]|Hx1]; destruct (in_dec dec x s); simpl in *; try tauto.
Qed.

(** every history of Adds *)
Lemma group_history l : exists g, group_add_all group_empty l = Some g /\ group_ok g /\
    mData g = first_occurrences Z.eq_dec l.
Proof. destruct (group_add_all_spec l _ group_ok_empty) as (g & H). exists g. exact H. Qed.

Lemma first_occ_map {A B} (f : A -> B) decA decB :
  (forall x y, f x = f y -> x = y) -> forall l s,
  first_occ decB (map f s) (map f l) = map f (first_occ decA s l).
Proof.
  intros Hinj l; induction l as [|y l IH]; intros s; simpl; auto.
  destruct (in_dec decB (f y) (map f s)) as [Hi|Hi]; destruct (in_dec decA y s) as [Hj|Hj].
  - apply IH.
  - exfalso. apply in_map_iff in Hi. destruct Hi as (x & Hx & Hin). apply Hinj in Hx. subst; auto.
  - exfalso. apply Hi. apply in_map; auto.
  - simpl. f_equal. apply (IH (y :: s)).
Qed.

(** C01 for objects of any type with any injective address assignment *)
Lemma group_refines_set {A} (dec : forall x y : A, {x = y} + {x <> y}) (addr : A -> Z)
  (Hinj : forall x y, addr x = addr y -> x = y) (history : list A) :
  exists g, group_add_all group_empty (map addr history) = Some g /\
    mData g = map addr (first_occurrences dec history) /\
    group_size g = length (first_occurrences dec history) /\
    forall x, exists b, group_contains g (addr x) = Some b /\ (b = true <-> In x history).
Proof.
  destruct (group_history (map addr history)) as (g & Hg & Hok & Hd).
  exists g. split; auto.
  assert (Hmap : mData g = map addr (first_occurrences dec history)).
  { rewrite Hd. unfold first_occurrences. apply (first_occ_map addr dec Z.eq_dec Hinj history []). }
  split; auto. split.
  - unfold group_size. rewrite Hmap, map_length. reflexivity.
  - intros x. destruct (group_contains_spec g (addr x) Hok) as (b & Hb & Hi).
    exists b. split; auto. rewrite Hi, Hmap, in_map_iff. split.
    + intros (y & Hy & Hin). apply Hinj in Hy. subst.
      apply in_first_occ in Hin. tauto.
    + intros Hin. exists x. split; auto. apply in_first_occ. simpl; tauto.
Qed.

(** ** set algebra *)

Lemma unite_spec one two : group_ok one -> group_ok two ->
  exists g, unite one two = Some g /\ group_ok g /\
    mData g = mData one ++ filter (fun x => negb (mem Z.eq_dec x (mData one))) (mData two).
Proof.
  intros H1 H2. destruct (group_add_all_spec (mData two) one H1) as (g & Hg & Hok & Hd).
  exists g. split; auto. split; auto. rewrite Hd, first_occ_filter; auto. apply H2.
Qed.

Lemma filter_add_spec keep two : group_ok two -> forall l new, group_ok new ->
  exists g, filter_add keep two new l = Some g /\ group_ok g /\
    mData g = mData new ++ first_occ Z.eq_dec (mData new)
                 (filter (fun x => Bool.eqb (mem Z.eq_dec x (mData two)) keep) l).
Proof.
  intros H2 l; induction l as [|t l IH]; intros new Hn; simpl.
  - exists new. rewrite app_nil_r; auto.
  - destruct (group_contains_spec two t H2) as (c & Hc & Hin). rewrite Hc.
    assert (mem Z.eq_dec t (mData two) = c) as ->.
    { unfold mem. destruct (in_dec Z.eq_dec t (mData two)) as [Hi|Hi].
      - symmetry. apply Hin; auto.
      - destruct c; auto. exfalso; apply Hi; apply Hin; auto. }
    destruct (Bool.eqb c keep).
    + destruct (group_add_spec new t Hn) as (g1 & -> & Hg1 & Hd1).
      destruct (IH g1 Hg1) as (g2 & -> & Hg2 & Hd2).
      exists g2. split; auto. split; auto. rewrite Hd2, Hd1. simpl.
      destruct (in_dec Z.eq_dec t (mData new)) as [Hi|Hi].
      * rewrite app_nil_r. auto.
      * rewrite <- app_assoc. simpl. do 2 f_equal.
        apply first_occ_ext. intros x. rewrite in_app_iff. simpl. tauto.
    + destruct (IH new Hn) as (g2 & -> & Hg2 & Hd2). eauto.
Qed.

Lemma filter_add_empty keep one two : group_ok one -> group_ok two ->
  exists g, filter_add keep two group_empty (mData one) = Some g /\ group_ok g /\
    mData g = filter (fun x => Bool.eqb (mem Z.eq_dec x (mData two)) keep) (mData one).
Proof.
  intros H1 H2. destruct (filter_add_spec keep two H2 (mData one) group_empty group_ok_empty)
    as (g & Hg & Hok & Hd).
  exists g. split; auto. split; auto. rewrite Hd. simpl.
  apply first_occ_NoDup_id; simpl; auto. apply NoDup_filter. apply H1.
Qed.

Lemma difference_spec one two : group_ok one -> group_ok two ->
  exists g, difference one two = Some g /\ group_ok g /\
    mData g = filter (fun x => negb (mem Z.eq_dec x (mData two))) (mData one).
Proof.
  intros H1 H2. destruct (filter_add_empty false one two H1 H2) as (g & Hg & Hok & Hd).
  exists g. split; [exact Hg|]. split; [exact Hok|]. rewrite Hd. apply filter_ext. intros x.
  destruct (mem _ _ _); reflexivity.
Qed.

Lemma intersection_spec one two : group_ok one -> group_ok two ->
  exists g, intersection one two = Some g /\ group_ok g /\
    mData g = filter (fun x => mem Z.eq_dec x (mData two)) (mData one).
Proof.
  intros H1 H2. destruct (filter_add_empty true one two H1 H2) as (g & Hg & Hok & Hd).
  exists g. split; [exact Hg|]. split; [exact Hok|]. rewrite Hd. apply filter_ext. intros x.
  destruct (mem _ _ _); reflexivity.
Qed.

Lemma mem_spec {A} (dec : forall x y : A, {x = y} + {x <> y}) x l : mem dec x l = true <-> In x l.
Proof. unfold mem. destruct (in_dec dec x l); intuition discriminate. Qed.

Lemma mem_false {A} (dec : forall x y : A, {x = y} + {x <> y}) x l : mem dec x l = false <-> ~ In x l.
Proof. unfold mem. destruct (in_dec dec x l); intuition discriminate. Qed.

Lemma bool_ext (a b : bool) : (a = true <-> b = true) -> a = b.
Proof. destruct a, b; intuition. Qed.

Lemma filter_filter {A} (f h : A -> bool) l : filter f (filter h l) = filter (fun x => h x && f x) l.
Proof.
  induction l as [|x l IH]; simpl; auto. destruct (h x); simpl; [destruct (f x)|]; simpl; rewrite ?IH; auto.
Qed.

Lemma symmetric_difference_spec one two : group_ok one -> group_ok two ->
  exists g, symmetric_difference one two = Some g /\ group_ok g /\
    mData g = filter (fun x => negb (mem Z.eq_dec x (mData two))) (mData one)
           ++ filter (fun x => negb (mem Z.eq_dec x (mData one))) (mData two).
Proof.
  intros H1 H2. unfold symmetric_difference.
  destruct (unite_spec one two H1 H2) as (u & -> & Hu & Hud).
  destruct (intersection_spec one two H1 H2) as (i & -> & Hi & Hid).
  destruct (difference_spec u i Hu Hi) as (g & -> & Hg & Hgd).
  exists g. split; auto. split; auto. rewrite Hgd, Hud, Hid, filter_app. f_equal.
  - apply filter_ext_in. intros x Hx. f_equal. apply bool_ext.
    rewrite !mem_spec, filter_In, mem_spec. tauto.
  - rewrite filter_filter. apply filter_ext_in. intros x Hx.
    apply bool_ext. rewrite andb_true_iff, !negb_true_iff, !mem_false, filter_In, mem_spec. tauto.
Qed.

Lemma unite_all_spec args : forall one, group_ok one -> Forall group_ok args ->
  exists g, unite_all one args = Some g /\ group_ok g /\
    mData g = first_occurrences Z.eq_dec (concat (map mData (one :: args))).
Proof.
  induction args as [|a args IH]; intros one H1 Ha; simpl.
  - exists one. split; auto. split; auto. rewrite app_nil_r. unfold first_occurrences.
    rewrite first_occ_NoDup_id; auto. apply H1.
  - inversion Ha; subst. destruct (IH a) as (r & -> & Hr & Hrd); auto.
    destruct (group_add_all_spec (mData r) one H1) as (g & Hg & Hok & Hd).
    exists g. split; [exact Hg|]. split; auto. rewrite Hd, Hrd. simpl.
    assert (Haux : forall (l m : list Z) s, NoDup l -> (forall x, In x l -> ~ In x s) ->
        first_occ Z.eq_dec s (l ++ m) = l ++ first_occ Z.eq_dec (l ++ s) m).
    { clear. intros l; induction l as [|y l IHl]; intros m s Hn Hd; simpl; auto.
      inversion Hn; subst. destruct (in_dec Z.eq_dec y s) as [Hi|Hi].
      - exfalso; apply (Hd y); simpl; auto.
      - f_equal. rewrite IHl; auto.
        + f_equal. apply first_occ_ext. intros x. simpl. rewrite !in_app_iff. simpl. tauto.
        + intros x Hx [->|Hs]; auto. apply (Hd x); simpl; auto. }
    unfold first_occurrences. rewrite (Haux (mData one)); [|apply H1|simpl; auto].
    rewrite app_nil_r. f_equal.
    (* dropping repetitions first does not matter *)
    assert (Hidem : forall (m s t : list Z), (forall x, In x t -> In x s) ->
       first_occ Z.eq_dec s (first_occ Z.eq_dec t m) = first_occ Z.eq_dec s m).
    { clear. intros m; induction m as [|y m IHm]; intros s t Hst; simpl; auto.
      destruct (in_dec Z.eq_dec y t) as [Ht|Ht].
      - destruct (in_dec Z.eq_dec y s) as [Hs|Hs]; [|exfalso; auto]. apply IHm; auto.
      - simpl. destruct (in_dec Z.eq_dec y s) as [Hs|Hs].
        + apply IHm. intros x [->|Hx]; auto.
        + f_equal. apply IHm. intros x [->|Hx]; simpl; auto. }
    apply Hidem. simpl; tauto.
Qed.
