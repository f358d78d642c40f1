(** * Proofs for C32 *)
From Coq Require Import List Arith Bool Reals Lra Lia Sorting.Permutation Sorting.Sorted.
From Coquelicot Require Import Coquelicot.
From Verif Require Import Outcome AdaptiveModel AdaptiveProofs TableModel TableSpec.
Import ListNotations.
Local Open Scope R_scope.

(** strictly increasing abscissae *)
Definition increasing (data : list point) : Prop := forall i j, (i < j)%nat -> (j < length data)%nat -> px data i < px data j.

Lemma sorted_increasing data sort : is_sort sort -> distinct_abscissae data -> increasing (sort data).
Proof.
  intros Hs Hd. destruct (Hs data) as (Hp & Hss).
  assert (Hn : NoDup (map fst (sort data))) by (apply (Permutation_NoDup (Permutation_map fst Hp)); exact Hd).
  clear Hp Hs Hd. revert Hss Hn. generalize (sort data). intros l Hss Hn. clear data sort.
  induction Hss as [|p l Hl IH Hf]; intros i j Hij Hj; [simpl in Hj; lia|].
  inversion Hn as [|? ? Hin Hn']; subst. specialize (IH Hn').
  destruct i as [|i], j as [|j]; try lia.
  - unfold px. simpl nth. simpl in Hj. assert (Hinj : In (nth j l (0, 0)) l) by (apply nth_In; lia).
    rewrite Forall_forall in Hf. specialize (Hf _ Hinj). destruct (Rle_lt_or_eq_dec _ _ Hf) as [H|H]; auto.
    exfalso. apply Hin. rewrite H. apply in_map. exact Hinj.
  - apply IH; simpl in Hj; lia.
Qed.

Lemma bisect_spec data x : forall fuel lower upper, (upper - lower <= S fuel)%nat -> (lower < upper)%nat ->
  (px data lower < x \/ lower = 0%nat /\ px data 0 <= x) -> x <= px data upper ->
  let i := bisect fuel data x lower upper in
  (lower <= i)%nat /\ (S i <= upper)%nat /\ (px data i < x \/ i = 0%nat /\ px data 0 <= x) /\ x <= px data (S i).
Proof.
  induction fuel as [|fuel IH]; intros lower upper Hf Hlt Hl Hu; simpl.
  - assert (upper = S lower) by lia. subst. auto.
  - destruct (Nat.ltb_spec 1 (upper - lower)) as [H1|H1].
    + set (pivot := Nat.div2 (upper + lower)).
      assert (Hp : (lower < pivot < upper)%nat).
      { unfold pivot. rewrite Nat.div2_div. pose proof (Nat.div_mod (upper + lower) 2). pose proof (Nat.mod_upper_bound (upper + lower) 2). lia. }
      assert (Hp2 : (upper + lower - 1 <= 2 * pivot <= upper + lower)%nat).
      { unfold pivot. rewrite Nat.div2_div. pose proof (Nat.div_mod (upper + lower) 2). pose proof (Nat.mod_upper_bound (upper + lower) 2). lia. }
      destruct (rltb_spec (px data pivot) x) as [(-> & Hx)|(-> & Hx)].
      * destruct (IH pivot upper) as (A & B & C & D); auto; [lia|lia|]. repeat split; auto; lia.
      * destruct (IH lower pivot) as (A & B & C & D); auto; [lia|lia|]. repeat split; auto; lia.
    + assert (upper = S lower) by lia. subst. auto.
Qed.

Lemma bisection_spec data x : (2 <= length data)%nat -> px data 0 <= x <= px data (length data - 1) ->
  (S (bisection data x) < length data)%nat /\
  (px data (bisection data x) < x \/ bisection data x = 0%nat /\ px data 0 <= x) /\ x <= px data (S (bisection data x)).
Proof.
  intros Hl (H0 & H1). unfold bisection. change ((2 - 2) / 2)%nat with 0%nat. rewrite Nat.add_0_r.
  destruct (bisect_spec data x (length data) 0 (length data - 1)) as (A & B & C & D); try lia; auto.
  split; [lia|]. auto.
Qed.

Lemma in_range_spec data x : in_range data x = true <-> px data 0 <= x <= px data (length data - 1).
Proof.
  unfold in_range. destruct (rltb_spec x (px data 0)) as [(-> & H)|(-> & H)]; simpl; [split; [discriminate|lra]|].
  destruct (rltb_spec (px data (length data - 1)) x) as [(-> & H')|(-> & H')]; simpl; split; try discriminate; try lra; auto.
Qed.

Lemma increasing_le data i j : increasing data -> (i <= j)%nat -> (j < length data)%nat -> px data i <= px data j.
Proof. intros H Hij Hj. destruct (Nat.eq_dec i j) as [->|]; [lra|]. apply Rlt_le, H; lia. Qed.

Lemma covered_range data x : increasing data -> (2 <= length data)%nat -> (covered data x <-> px data 0 <= x <= px data (length data - 1)).
Proof.
  intros Hi Hl. split.
  - intros ((p & Hp & Hpx) & (q & Hq & Hqx)). apply In_nth with (d := (0, 0)) in Hp, Hq. destruct Hp as (i & Hil & Hp). destruct Hq as (j & Hjl & Hq).
    assert (Ei : fst p = px data i) by (unfold px; rewrite Hp; auto). assert (Ej : fst q = px data j) by (unfold px; rewrite Hq; auto).
    pose proof (increasing_le data 0 i Hi). pose proof (increasing_le data j (length data - 1) Hi). split; [apply Rle_trans with (px data i)|apply Rle_trans with (px data j)]; try lra.
    + apply H; lia.
    + apply H0; lia.
  - intros (H0 & H1). split; [exists (nth 0 data (0, 0))|exists (nth (length data - 1) data (0, 0))]; split; auto; apply nth_In; lia.
Qed.

Lemma neighbours_nth data i : increasing data -> (S i < length data)%nat -> neighbours data (nth i data (0, 0)) (nth (S i) data (0, 0)).
Proof.
  intros Hi Hl. split; [apply nth_In; lia|]. split; [apply nth_In; lia|]. split; [apply Hi; lia|].
  intros r Hr. apply In_nth with (d := (0, 0)) in Hr. destruct Hr as (k & Hk & <-).
  destruct (Nat.le_gt_cases k i); [left|right]; apply (increasing_le data); auto; lia.
Qed.

Lemma neighbours_inv data p q : increasing data -> neighbours data p q ->
  exists i, (S i < length data)%nat /\ p = nth i data (0, 0) /\ q = nth (S i) data (0, 0).
Proof.
  intros Hi (Hp & Hq & Hlt & Hn). apply In_nth with (d := (0, 0)) in Hp, Hq. destruct Hp as (i & Hil & <-). destruct Hq as (j & Hjl & <-).
  assert (Hij : (i < j)%nat).
  { destruct (Nat.lt_ge_cases i j); auto. pose proof (increasing_le data j i Hi H Hil). unfold px in *. lra. }
  exists i. split; [lia|]. split; auto. f_equal. destruct (Nat.eq_dec j (S i)); auto. exfalso.
  assert (HS : In (nth (S i) data (0, 0)) data) by (apply nth_In; lia). pose proof (Hi i (S i)). pose proof (Hi (S i) j).
  unfold px in *. destruct (Hn _ HS); [specialize (H ltac:(lia) ltac:(lia))|specialize (H0 ltac:(lia) ltac:(lia))]; lra.
Qed.

Lemma linear_lemma data x p q : increasing data -> (2 <= length data)%nat -> neighbours data p q -> fst p <= x <= fst q ->
  linear_value data x = Ok (on_segment p q x) /\ (fst p < x -> linear_derivative data x = Ok ((snd q - snd p) / (fst q - fst p))).
Proof.
  intros Hi Hl Hn Hx. destruct (neighbours_inv data p q Hi Hn) as (k & Hk & -> & ->).
  change (px data k <= x <= px data (S k)) in Hx.
  assert (Hr : px data 0 <= x <= px data (length data - 1)).
  { pose proof (increasing_le data 0 k Hi). pose proof (increasing_le data (S k) (length data - 1) Hi). 
    specialize (H ltac:(lia) ltac:(lia)). specialize (H0 ltac:(lia) ltac:(lia)). lra. }
  unfold linear_value, linear_derivative. rewrite (proj2 (in_range_spec data x) Hr).
  destruct (bisection_spec data x Hl Hr) as (Hb & Hlow & Hup). set (i := bisection data x) in *. rewrite Nat.add_1_r.
  assert (Hcase : i = k \/ (S i = k /\ x = px data k)).
  { destruct (Nat.lt_trichotomy i k) as [H|[H|H]]; auto.
    - right. pose proof (increasing_le data (S i) k Hi). specialize (H0 ltac:(lia) ltac:(lia)).
      assert (x = px data k) by lra. split; auto. destruct (Nat.eq_dec (S i) k); auto. exfalso. pose proof (Hi (S i) k). specialize (H2 ltac:(lia) ltac:(lia)). lra.
    - exfalso. destruct Hlow as [Hlow|(Hlow & _)]; [|lia]. pose proof (increasing_le data (S k) i Hi). specialize (H0 ltac:(lia) ltac:(lia)). lra. }
  pose proof (Hi k (S k) ltac:(lia) Hk) as Hlt. unfold on_segment. change (fst (nth k data (0, 0))) with (px data k). change (fst (nth (S k) data (0, 0))) with (px data (S k)).
  change (snd (nth k data (0, 0))) with (py data k). change (snd (nth (S k) data (0, 0))) with (py data (S k)).
  destruct Hcase as [->|(<- & Hxk)].
  - split; [|reflexivity]. f_equal. field. lra.
  - split; [|lra]. f_equal. pose proof (Hi i (S i) ltac:(lia) ltac:(lia)). rewrite Hxk. field. lra.
Qed.

Lemma covered_neighbours data x : increasing data -> (2 <= length data)%nat -> covered data x -> exists p q, neighbours data p q /\ fst p <= x <= fst q.
Proof.
  intros Hi Hl Hc. apply (covered_range data x Hi Hl) in Hc. destruct (bisection_spec data x Hl Hc) as (Hb & Hlow & Hup).
  exists (nth (bisection data x) data (0, 0)), (nth (S (bisection data x)) data (0, 0)). split; [apply neighbours_nth; auto|].
  change (px data (bisection data x) <= x <= px data (S (bisection data x))). split; auto.
  destruct Hlow as [H|(H & H')]; [lra|rewrite H; auto].
Qed.
