(** * Proofs about the span search and the B-spline table *)
From Coq Require Import List Arith Bool Reals Lra Lia Psatz.
From Coquelicot Require Import Coquelicot.
From Verif Require Import RSum Outcome AdaptiveModel AdaptiveProofs NurbsModel NurbsSpec.
Import ListNotations.
Local Open Scope R_scope.

Lemma nth_error_knot knots i : (i < length knots)%nat -> nth_error knots i = Some (knot knots i).
Proof. intros H. unfold knot. apply nth_error_nth'. exact H. Qed.

Lemma mid_bounds low high : (low + 2 <= high)%nat -> (low < Nat.div2 (low + high) < high)%nat.
Proof. intros H. rewrite Nat.div2_div. split.
  - apply Nat.div_le_lower_bound; lia.
  - apply Nat.div_lt_upper_bound; lia.
Qed.
Lemma mid_adjacent low : Nat.div2 (low + S low) = low.
Proof. rewrite Nat.div2_div. replace (low + S low)%nat with (1 + low * 2)%nat by lia.
  rewrite Nat.div_add by lia. reflexivity. Qed.
Lemma mid_same low : Nat.div2 (low + low) = low.
Proof. rewrite Nat.div2_div. replace (low + low)%nat with (low * 2)%nat by lia. apply Nat.div_mul. lia. Qed.
Lemma mid_le low high : (low <= high)%nat -> (low <= Nat.div2 (low + high) <= high)%nat.
Proof. intros H. rewrite Nat.div2_div. split.
  - apply Nat.div_le_lower_bound; lia.
  - apply Nat.div_le_upper_bound; lia.
Qed.

(** the search succeeds: invariant u_low <= p < u_high *)
Lemma fs_loop_ok knots p : forall left low high,
  (low < high)%nat -> (high < length knots)%nat -> (high - low <= S left)%nat ->
  knot knots low <= p < knot knots high ->
  exists i, fs_loop left p knots low high = Ok i /\ (low <= i < high)%nat /\ knot knots i <= p < knot knots (S i).
Proof.
  induction left as [|left IH]; intros low high Hlh Hh Hf Hp.
  - assert (high = S low) by lia. subst high. cbn [fs_loop]. rewrite mid_adjacent.
    rewrite !nth_error_knot by lia.
    destruct (rltb_spec p (knot knots low)) as [(-> & H)|(-> & H)]; [lra|].
    destruct (rleb_spec (knot knots (S low)) p) as [(-> & H1)|(-> & H1)]; [lra|].
    exists low. repeat split; try lia; lra.
  - cbn [fs_loop]. destruct (le_lt_dec (low + 2) high) as [H2|H2].
    + pose proof (mid_bounds low high H2) as Hm. set (mid := Nat.div2 (low + high)) in *.
      rewrite !nth_error_knot by lia.
      destruct (rltb_spec p (knot knots mid)) as [(-> & H)|(-> & H)].
      * destruct (IH low mid) as (i & E & Hi & Hk); [lia|lia|lia|lra|]. exists i. split; [exact E|]. split; [lia|exact Hk].
      * destruct (rleb_spec (knot knots (S mid)) p) as [(-> & H1)|(-> & H1)].
        -- destruct (IH mid high) as (i & E & Hi & Hk); [lia|lia|lia|lra|]. exists i. split; [exact E|]. split; [lia|exact Hk].
        -- exists mid. split; [reflexivity|]. split; [lia|lra].
    + assert (high = S low) by lia. subst high. rewrite mid_adjacent, !nth_error_knot by lia.
      destruct (rltb_spec p (knot knots low)) as [(-> & H)|(-> & H)]; [lra|].
      destruct (rleb_spec (knot knots (S low)) p) as [(-> & H1)|(-> & H1)]; [lra|].
      exists low. repeat split; try lia; lra.
Qed.

(** below the domain the search never ends by itself and is stopped by the iteration limit *)
Lemma fs_loop_below knots p (Hm : nondecreasing knots) : forall left low high,
  (low <= high)%nat -> (high < length knots)%nat -> p < knot knots low -> fs_loop left p knots low high = Throw.
Proof.
  induction left as [|left IH]; intros low high Hlh Hh Hp; cbn [fs_loop]; pose proof (mid_le low high Hlh);
    rewrite nth_error_knot by lia;
    (destruct (rltb_spec p (knot knots (Nat.div2 (low + high)))) as [(-> & Hk)|(-> & Hk)];
     [|assert (knot knots low <= knot knots (Nat.div2 (low + high))) by (apply Hm; lia); lra]); [reflexivity|].
  apply IH; [lia|lia|exact Hp].
Qed.
Lemma fs_loop_above knots p (Hm : nondecreasing knots) : forall left low high,
  (low < high)%nat -> (high < length knots)%nat -> knot knots high < p -> fs_loop left p knots low high = Throw.
Proof.
  induction left as [|left IH]; intros low high Hlh Hh Hp; cbn [fs_loop];
    (assert (Hmid : (low <= Nat.div2 (low + high) < high)%nat);
     [destruct (le_lt_dec (low + 2) high) as [H2|H2];
       [pose proof (mid_bounds low high H2); lia|assert (high = S low) by lia; subst high; rewrite mid_adjacent; lia]|]);
    set (mid := Nat.div2 (low + high)) in *;
    rewrite !nth_error_knot by lia;
    (assert (K1 : knot knots mid <= knot knots high) by (apply Hm; lia));
    (assert (K2 : knot knots (S mid) <= knot knots high) by (apply Hm; lia));
    (destruct (rltb_spec p (knot knots mid)) as [(-> & Hk)|(-> & Hk)]; [lra|]);
    (destruct (rleb_spec (knot knots (S mid)) p) as [(-> & Hk1)|(-> & Hk1)]; [|lra]); [reflexivity|].
  apply IH; [lia|lia|exact Hp].
Qed.

(** the search as a whole *)
Lemma FindSpan_spec knots degree t : nondecreasing knots -> (2 * degree + 2 <= length knots)%nat ->
  (domain degree knots t -> exists i, FindSpan t degree knots = Ok i /\ (degree <= i < basis_count degree knots)%nat /\
     (t < knot knots (basis_count degree knots) -> knot knots i <= t < knot knots (i + 1)) /\
     (t = knot knots (basis_count degree knots) -> (i + 1)%nat = basis_count degree knots)) /\
  (~ domain degree knots t -> FindSpan t degree knots = Throw).
Proof.
  intros Hm Hl. unfold domain. unfold basis_count. set (nb := (length knots - degree - 1)%nat).
  assert (Hnb : (degree < nb < length knots)%nat) by (unfold nb; lia).
  unfold FindSpan. rewrite !nth_error_knot by lia.
  replace (Nat.leb (length knots) degree) with false by (symmetry; apply Nat.leb_gt; lia).
  cbv zeta. fold nb.
  assert (K0 : knot knots 0 <= knot knots degree) by (apply Hm; lia).
  assert (K1 : knot knots nb <= knot knots (length knots - 1)) by (apply Hm; lia).
  split.
  - intros Hd.
    destruct (rltb_spec t (knot knots 0)) as [(-> & H)|(-> & H)]; [lra|].
    destruct (rltb_spec (knot knots (length knots - 1)) t) as [(-> & H1)|(-> & H1)]; [lra|].
    destruct (Req_EM_T t (knot knots nb)) as [He|He].
    + destruct nb as [|n] eqn:En; [lia|]. exists n. split; [reflexivity|]. split; [lia|]. split; intros; [lra|lia].
    + destruct (fs_loop_ok knots t (length knots) degree nb) as (i & E & Hi & Hk); [lia|lia|lia|lra|].
      exists i. split; [exact E|]. split; [lia|]. split; intros; [rewrite Nat.add_1_r; exact Hk|contradiction].
  - intros Hd.
    destruct (rltb_spec t (knot knots 0)) as [(-> & H)|(-> & H)]; [reflexivity|].
    destruct (rltb_spec (knot knots (length knots - 1)) t) as [(-> & H1)|(-> & H1)]; [reflexivity|].
    destruct (Req_EM_T t (knot knots nb)) as [He|He].
    + exfalso. apply Hd. rewrite He. split; [|lra]. apply Hm; lia.
    + destruct (Rlt_dec t (knot knots degree)) as [Hb|Hb].
      * apply fs_loop_below; [exact Hm|lia|lia|exact Hb].
      * apply fs_loop_above; [exact Hm|lia|lia|lra].
Qed.

(** ** The Cox-de Boor pieces on one span *)
Section Piece.
Variables (knots : list R) (i : nat).
Hypothesis Hm : nondecreasing knots.
Hypothesis Hspan : knot knots i < knot knots (i + 1).
Notation u := (knot knots).
Notation P := (piece knots i).

Lemma P_0 m t : P 0 m t = if Nat.eqb m i then 1 else 0.
Proof. reflexivity. Qed.
Lemma P_S p m t : P (S p) m t = cdiv (t - u m) (u (m + S p)%nat - u m) * P p m t +
  cdiv (u (m + S p + 1)%nat - t) (u (m + S p + 1)%nat - u (m + 1)%nat) * P p (m + 1)%nat t.
Proof. reflexivity. Qed.

Lemma P_out p : forall m t, (m + p < i \/ i < m)%nat -> P p m t = 0.
Proof.
  induction p as [|p IH]; intros m t H.
  - rewrite P_0. destruct (Nat.eqb_spec m i); [lia|reflexivity].
  - rewrite P_S, !IH by lia. ring.
Qed.

Lemma cdiv_pos a b : 0 < b -> cdiv a b = a / b.
Proof. intros H. unfold cdiv. destruct (Req_EM_T b 0); [lra|reflexivity]. Qed.

Lemma width_pos m p : (m <= i)%nat -> (i < m + p)%nat -> (m + p < length knots)%nat -> 0 < u (m + p)%nat - u m.
Proof.
  intros H1 H2 H3. assert (u m <= u i) by (apply Hm; lia).
  assert (u (i + 1)%nat <= u (m + p)%nat) by (apply Hm; lia). lra.
Qed.

Lemma P_nonneg p : forall m t, (m + p + 1 < length knots)%nat -> u i <= t <= u (i + 1)%nat -> 0 <= P p m t.
Proof.
  induction p as [|p IH]; intros m t Hl Ht.
  - rewrite P_0. destruct (Nat.eqb m i); lra.
  - rewrite P_S. apply Rplus_le_le_0_compat.
    + destruct (le_lt_dec m i) as [Hmi|Hmi]; [|rewrite P_out by lia; lra].
      destruct (le_lt_dec (m + S p) i) as [Hi|Hi]; [rewrite P_out by lia; lra|].
      pose proof (width_pos m (S p) Hmi Hi ltac:(lia)). rewrite cdiv_pos by assumption.
      apply Rmult_le_pos; [|apply IH; [lia|exact Ht]]. apply Rmult_le_pos; [|left; apply Rinv_0_lt_compat; assumption].
      assert (u m <= u i) by (apply Hm; lia). lra.
    + destruct (le_lt_dec (m + 1) i) as [Hmi|Hmi]; [|rewrite P_out by lia; lra].
      destruct (le_lt_dec (m + 1 + S p) i) as [Hi|Hi]; [rewrite P_out by lia; lra|].
      replace (m + S p + 1)%nat with (m + 1 + S p)%nat by lia.
      pose proof (width_pos (m + 1) (S p) Hmi Hi ltac:(lia)). rewrite cdiv_pos by assumption.
      apply Rmult_le_pos; [|apply IH; [lia|exact Ht]]. apply Rmult_le_pos; [|left; apply Rinv_0_lt_compat; assumption].
      assert (u (i + 1)%nat <= u (m + 1 + S p)%nat) by (apply Hm; lia). lra.
Qed.

Lemma P_partition p t : (p <= i)%nat -> (i + p + 1 < length knots \/ i + p < length knots)%nat ->
  rsum (S p) (fun r => P p (i - p + r)%nat t) = 1.
Proof.
  intros Hp Hl'. assert (Hl : (i + p < length knots)%nat) by lia. clear Hl'.
  induction p as [|p IH].
  - cbn [rsum]. rewrite P_0, Nat.sub_0_r, Nat.add_0_r, Nat.eqb_refl. ring.
  - assert (IH' := IH ltac:(lia) ltac:(lia)). clear IH.
    rewrite (rsum_ext _ _ (fun r => cdiv (t - u (i - S p + r)%nat) (u (i - S p + r + S p)%nat - u (i - S p + r)%nat) * P p (i - S p + r)%nat t +
      cdiv (u (i - S p + r + S p + 1)%nat - t) (u (i - S p + r + S p + 1)%nat - u (i - S p + r + 1)%nat) * P p (i - S p + r + 1)%nat t))
      by (intros; apply P_S).
    rewrite rsum_plus. rewrite (rsum_front (S p)).
    rewrite (P_out p (i - S p + 0)) by lia. rewrite Rmult_0_r, Rplus_0_l.
    change (rsum (S (S p)) ?f) with (rsum (S p) f + f (S p)).
    cbv beta. rewrite (P_out p (i - S p + S p + 1)) by lia. rewrite Rmult_0_r, Rplus_0_r.
    rewrite <- rsum_plus. rewrite <- IH'. apply rsum_ext. intros r Hr.
    replace (i - S p + S r)%nat with (i - p + r)%nat by lia.
    replace (i - S p + r + S p + 1)%nat with (i - p + r + S p)%nat by lia.
    replace (i - S p + r + 1)%nat with (i - p + r)%nat by lia.
    pose proof (width_pos (i - p + r) (S p) ltac:(lia) ltac:(lia) ltac:(lia)) as Hw.
    rewrite !cdiv_pos by assumption. field. lra.
Qed.

(** derivative formula *)
Lemma P_derive p : forall m t, (m + S p + 1 < length knots)%nat ->
  is_derive (fun x => P (S p) m x) t
    (INR (S p) * (cdiv (P p m t) (u (m + S p)%nat - u m) - cdiv (P p (m + 1)%nat t) (u (m + S p + 1)%nat - u (m + 1)%nat))).
Proof.
  induction p as [|p IH]; intros m t Hl.
  - apply (is_derive_ext (fun x => cdiv (x - u m) (u (m + 1)%nat - u m) * (if Nat.eqb m i then 1 else 0) +
      cdiv (u (m + 1 + 1)%nat - x) (u (m + 1 + 1)%nat - u (m + 1)%nat) * (if Nat.eqb (m + 1) i then 1 else 0)));
      [intros; reflexivity|].
    rewrite !P_0. unfold cdiv.
    destruct (Req_EM_T (u (m + 1)%nat - u m) 0); destruct (Req_EM_T (u (m + 1 + 1)%nat - u (m + 1)%nat) 0);
      auto_derive; try exact I; try (simpl; field; auto); simpl; ring.
  - apply (is_derive_ext (fun x => cdiv (x - u m) (u (m + S (S p))%nat - u m) * P (S p) m x +
      cdiv (u (m + S (S p) + 1)%nat - x) (u (m + S (S p) + 1)%nat - u (m + 1)%nat) * P (S p) (m + 1)%nat x));
      [intros; reflexivity|].
    assert (I1 := IH m t ltac:(lia)). assert (I2 := IH (m + 1)%nat t ltac:(lia)).
    set (D1 := INR (S p) * _) in I1. set (D2 := INR (S p) * _) in I2.
    assert (L : forall (c b d : R), is_derive (fun x => cdiv (x - c) d) t (cdiv 1 d)).
    { intros c b d. unfold cdiv. destruct (Req_EM_T d 0); auto_derive; try exact I; try (field; assumption); try ring. }
    assert (L' : forall (c b d : R), is_derive (fun x => cdiv (c - x) d) t (- cdiv 1 d)).
    { intros c b d. unfold cdiv. destruct (Req_EM_T d 0); auto_derive; try exact I; try (field; assumption); try ring. }
    pose proof (is_derive_plus _ _ _ _ _
      (is_derive_mult _ _ t _ _ (L (u m) 0 (u (m + S (S p))%nat - u m)) I1 Rmult_comm)
      (is_derive_mult _ _ t _ _ (L' (u (m + S (S p) + 1)%nat) 0 (u (m + S (S p) + 1)%nat - u (m + 1)%nat)) I2 Rmult_comm)) as D.
    eapply is_derive_ext in D; [|intros; reflexivity].
    match type of D with is_derive _ _ ?l => replace (INR (S (S p)) * _) with l end; [exact D|].
    clear D L L' I1 I2. unfold plus, mult; simpl Hierarchy.plus; unfold mult; simpl.
    unfold D1, D2. clear D1 D2. 
    change (match p with 0%nat => 1 | S _ => INR p + 1 end) with (INR (S p)).
    rewrite (P_S p m), (P_S p (m + 1)%nat).
    replace (m + 1 + S p)%nat with (m + S p + 1)%nat by lia.
    replace (m + S (S p))%nat with (m + S p + 1)%nat by lia.
    replace (m + S p + 1 + 1)%nat with (m + S p + 2)%nat by lia.
    replace (m + 1 + 1)%nat with (m + 2)%nat by lia.
    assert (A0 : u m <= u (m + 1)%nat) by (apply Hm; lia).
    assert (A1 : u (m + 1)%nat <= u (m + S p)%nat) by (apply Hm; lia).
    assert (A2 : u (m + S p)%nat <= u (m + S p + 1)%nat) by (apply Hm; lia).
    assert (A3 : u (m + S p + 1)%nat <= u (m + S p + 2)%nat) by (apply Hm; lia).
    assert (A4 : u (m + 1)%nat <= u (m + 2)%nat) by (apply Hm; lia).
    assert (A5 : u (m + 2)%nat <= u (m + S p + 1)%nat) by (apply Hm; lia).
    set (n := INR (S p)). clearbody n.
    generalize (P p m t) (P p (m + 1)%nat t) (P p (m + 2)%nat t).
    generalize dependent (u (m + S p + 2)%nat). generalize dependent (u (m + S p + 1)%nat).
    generalize dependent (u (m + S p)%nat). generalize dependent (u (m + 2)%nat). generalize dependent (u (m + 1)%nat).
    generalize dependent (u m).
    intros k0 k1 H01 k2 H12 k3 H13 k4 H34 H24 k5 H45 x0 x1 x2. clear - H01 H12 H13 H34 H24 H45.
    unfold cdiv.
    destruct (Req_EM_T (k3 - k0) 0); destruct (Req_EM_T (k4 - k0) 0); destruct (Req_EM_T (k4 - k1) 0);
      destruct (Req_EM_T (k5 - k1) 0); destruct (Req_EM_T (k5 - k2) 0); try lra; try (field; repeat split; assumption); try ring.
Qed.
End Piece.
