(** * Proofs for C39 *)
From Coq Require Import List Arith Bool Reals Lra Lia.
From Coquelicot Require Import Coquelicot.
From Verif Require Import RSum Outcome AdaptiveModel AdaptiveProofs PolyProofs LobattoModel LobattoSpec.
Import ListNotations.
Local Open Scope R_scope.

Fixpoint rprod (n : nat) (f : nat -> R) : R := match n with O => 1 | S k => rprod k f * f k end.
Lemma rprod_ext n f g : (forall i, (i < n)%nat -> f i = g i) -> rprod n f = rprod n g.
Proof. induction n as [|n IH]; intros H; simpl; auto. rewrite IH, (H n) by (intros; auto; apply H; lia). reflexivity. Qed.
Lemma rprod_nonzero n f : (forall i, (i < n)%nat -> f i <> 0) -> rprod n f <> 0.
Proof. induction n as [|n IH]; intros H; simpl; [lra|]. apply Rmult_integral_contrapositive. split; [apply IH; intros; apply H; lia|apply H; lia]. Qed.
Lemma rprod_zero n f k : (k < n)%nat -> f k = 0 -> rprod n f = 0.
Proof.
  induction n as [|n IH]; intros Hk Hf; [lia|]. simpl. destruct (Nat.eq_dec k n) as [->|Hne]; [rewrite Hf; ring|]. rewrite IH by (auto; lia). ring.
Qed.
(** pull out one factor *)
Lemma rprod_pull n f k : (k < n)%nat -> rprod n f = f k * rprod n (fun i => if Nat.eqb i k then 1 else f i).
Proof.
  induction n as [|n IH]; intros Hk; [lia|]. simpl. destruct (Nat.eq_dec k n) as [->|Hne].
  - rewrite Nat.eqb_refl. rewrite (rprod_ext n (fun i => if Nat.eqb i n then 1 else f i) f); [ring|]. intros i Hi. destruct (Nat.eqb_spec i n); [lia|reflexivity].
  - rewrite IH by lia. destruct (Nat.eqb_spec n k); [lia|]. ring.
Qed.
Lemma derive_const (c x : R) : is_derive (fun _ : R => c) x 0.
Proof. apply (is_derive_const (K := R_AbsRing) (V := R_NormedModule) c x). Qed.
Lemma rprod_derive n (F : nat -> R -> R) (G : nat -> R) (x : R) : (forall i, (i < n)%nat -> is_derive (F i) x (G i)) ->
  is_derive (fun t => rprod n (fun i => F i t)) x (rsum n (fun k => G k * rprod n (fun i => if Nat.eqb i k then 1 else F i x))).
Proof.
  induction n as [|n IH]; intros H; simpl; [apply derive_const|].
  assert (Hn := H n ltac:(lia)). assert (IHn := IH ltac:(intros; apply H; lia)).
  evar (v : R). assert (D : is_derive (fun t => rprod n (fun i => F i t) * F n t) x v).
  { unfold v. apply (is_derive_mult (fun t => rprod n (fun i => F i t)) (F n)); [exact IHn|exact Hn|intros; apply Rmult_comm]. }
  unfold v in D. clear v. rewrite Nat.eqb_refl.
  rewrite (rprod_ext n (fun i => if Nat.eqb i n then 1 else F i x) (fun i => F i x)) by (intros i Hi; destruct (Nat.eqb_spec i n); [lia|reflexivity]).
  rewrite (rsum_ext n (fun k => G k * (rprod n (fun i => if Nat.eqb i k then 1 else F i x) * (if Nat.eqb n k then 1 else F n x)))
             (fun k => G k * rprod n (fun i => if Nat.eqb i k then 1 else F i x) * F n x)).
  - rewrite rsum_scal_r. apply (eq_ind _ (fun d => is_derive (fun t => rprod n (fun i => F i t) * F n t) x d) D). unfold plus, mult; simpl. ring.
  - intros k Hk. destruct (Nat.eqb_spec n k); [lia|]. ring.
Qed.
Lemma rprod_poly n (F : nat -> R -> R) : (forall i, (i < n)%nat -> polylt 2 (F i)) -> polylt (S n) (fun x => rprod n (fun i => F i x)).
Proof.
  induction n as [|n IH]; intros H; simpl.
  - apply (polylt_ext 1 (fun x => x ^ 0)); [reflexivity|apply polylt_pow].
  - apply (polylt_ext (1 + S n) (fun x => F n x * rprod n (fun i => F i x))); [intros; ring|]. apply polylt_mult; [apply H; lia|]. apply IH. intros; apply H; lia.
Qed.

Lemma fold_div n (f : nat -> bool) g : fold_left (fun w i => if f i then w else w / g i) (seq 0 n) 1 = / rprod n (fun i => if f i then 1 else g i).
Proof.
  assert (G : forall s n a, fold_left (fun w i => if f i then w else w / g i) (seq s n) a = a * / rprod n (fun i => if f (s + i)%nat then 1 else g (s + i)%nat)).
  { clear. intros s n. induction n as [|n IH]; intros a; [simpl; field|]. rewrite seq_S, fold_left_app, IH. simpl.
    destruct (f (s + n)%nat); unfold Rdiv; rewrite Rinv_mult, ?Rinv_1; ring. }
  rewrite (G 0%nat n 1). simpl. ring.
Qed.
Lemma fold_mul n (f : nat -> bool) g : fold_left (fun w i => if f i then w * g i else w) (seq 0 n) 1 = rprod n (fun i => if f i then g i else 1).
Proof. induction n as [|n IH]; [reflexivity|]. rewrite seq_S, fold_left_app, IH. simpl. destruct (f n); ring. Qed.
Lemma fold_add n (f : nat -> bool) g : fold_left (fun w i => if f i then w else w + g i) (seq 0 n) 0 = rsum n (fun i => if f i then 0 else g i).
Proof. induction n as [|n IH]; [reflexivity|]. rewrite seq_S, fold_left_app, IH. simpl. destruct (f n); ring. Qed.
Lemma fold_plus n f : fold_left Rplus (map f (seq 0 n)) 0 = rsum n f.
Proof. induction n as [|n IH]; [reflexivity|]. rewrite seq_S, map_app, fold_left_app, IH. reflexivity. Qed.
Lemma nth_map_seq {A} (f : nat -> A) n j d : (j < n)%nat -> nth j (map f (seq 0 n)) d = f j.
Proof. intros H. rewrite (nth_indep _ d (f 0%nat)) by (rewrite map_length, seq_length; exact H). rewrite map_nth, seq_nth by exact H. reflexivity. Qed.

Section Nodes.
  Variable nodes : list R.
  Notation n := (length nodes).
  Notation p i := (nth i nodes 0).
  Hypothesis Hp : NoDup nodes.

  Lemma p_inj i j : (i < n)%nat -> (j < n)%nat -> p i = p j -> i = j.
  Proof. intros Hi Hj E. eapply NoDup_nth; eauto. Qed.

  Definition bw (j : nat) : R := / rprod n (fun i => if Nat.eqb i j then 1 else p j - p i).
  Definition L (j : nat) (x : R) : R := bw j * rprod n (fun i => if Nat.eqb i j then 1 else x - p i).

  Lemma barycentric_nth j : (j < n)%nat -> nth j (barycentric nodes) 0 = bw j.
  Proof. intros Hj. unfold barycentric. rewrite nth_map_seq by exact Hj. apply (fold_div n (fun i => Nat.eqb i j)). Qed.

  Lemma L_diag j : (j < n)%nat -> L j (p j) = 1.
  Proof.
    intros Hj. unfold L, bw. apply Rinv_l. apply rprod_nonzero. intros i Hi. destruct (Nat.eqb_spec i j) as [->|Hne]; [lra|].
    intros E. apply Hne. apply p_inj; auto. lra.
  Qed.
  Lemma L_off i j : (i < n)%nat -> (j < n)%nat -> i <> j -> L j (p i) = 0.
  Proof.
    intros Hi Hj Hne. unfold L. rewrite (rprod_zero n _ i Hi); [ring|]. destruct (Nat.eqb_spec i j); [congruence|ring].
  Qed.
  Lemma L_poly j : (j < n)%nat -> polylt n (L j).
  Proof.
    intros Hj. apply (polylt_scal n (fun x => rprod n (fun i => if Nat.eqb i j then 1 else x - p i))).
    (* the factor j is constant *)
    assert (Hc : forall a, polylt 1 (fun _ => a)) by (intros a; apply (polylt_ext 1 (fun x => a * x ^ 0)); [intros; simpl; ring|]; apply polylt_scal; apply polylt_pow).
    assert (Hf : forall a, polylt 2 (fun x => x - a)).
    { intros a. apply polylt_minus; [|apply polylt_S; apply Hc]. apply (polylt_ext 2 (fun x => x ^ 1)); [intros; simpl; ring|]. apply polylt_pow. }
    assert (G : forall m, polylt (if Nat.ltb j m then m else S m) (fun x => rprod m (fun i => if Nat.eqb i j then 1 else x - p i))).
    { induction m as [|m IH]; simpl.
      - apply (polylt_ext 1 (fun _ => 1)); auto.
      - destruct (Nat.eqb_spec m j) as [E|Hne].
        + subst j. rewrite (proj2 (Nat.ltb_lt m (S m))) by lia. rewrite (proj2 (Nat.ltb_ge m m)) in IH by lia.
          apply (polylt_ext _ (fun x => rprod m (fun i => if Nat.eqb i m then 1 else x - p i))); [intros; ring|exact IH].
        + assert (E : (if Nat.ltb j (S m) then S m else S (S m)) = (1 + (if Nat.ltb j m then m else S m))%nat) by (destruct (Nat.ltb_spec j (S m)), (Nat.ltb_spec j m); lia).
          rewrite E. apply (polylt_ext _ (fun x => (x - p m) * rprod m (fun i => if Nat.eqb i j then 1 else x - p i))); [intros; ring|]. apply polylt_mult; auto. }
    specialize (G n). rewrite (proj2 (Nat.ltb_lt j n) Hj) in G. exact G.
  Qed.
  Lemma L_reproduces f : polylt n f -> forall x, rsum n (fun j => f (p j) * L j x) = f x.
  Proof.
    intros Hf x. symmetry. apply Rminus_diag_uniq. revert x.
    apply (identity n (fun x => f x - rsum n (fun j => f (p j) * L j x)) (fun i => p i)); [|apply p_inj|].
    - apply polylt_minus; auto. apply polylt_sum. intros j Hj. apply polylt_scal. apply L_poly; auto.
    - intros i Hi. rewrite (rsum_single n i) by (auto; intros j Hj Hne; rewrite L_off by auto; ring). rewrite L_diag by auto. ring.
  Qed.
  Lemma L_sum x : (0 < n)%nat -> rsum n (fun j => L j x) = 1.
  Proof.
    intros Hn. rewrite <- (L_reproduces (fun _ => 1)) with (x := x).
    - apply rsum_ext. intros; ring.
    - apply (polylt_mono 1); [lia|]. apply (polylt_ext 1 (fun x => x ^ 0)); [reflexivity|apply polylt_pow].
  Qed.

  Lemma shape_length x : length (lobatto_shape x nodes) = n.
  Proof. unfold lobatto_shape. destruct (existsb _ _); rewrite ?map_length, ?map_length, seq_length; reflexivity. Qed.

  Lemma shape_away x : away_from nodes x -> forall j, (j < n)%nat -> nth j (lobatto_shape x nodes) 0 = L j x.
  Proof.
    intros Ha j Hj. unfold lobatto_shape.
    assert (E : existsb (fun j => rltb (Rabs (x - p j)) (1 / 10 ^ 15)) (seq 0 n) = false).
    { apply not_true_is_false. intros H. apply existsb_exists in H. destruct H as (i & Hi & H). apply in_seq in Hi. specialize (Ha i ltac:(lia)).
      destruct (rltb_spec (Rabs (x - p i)) (1 / 10 ^ 15)) as [(_ & Hl)|(E & _)]; [lra|congruence]. }
    rewrite E, map_map, nth_map_seq by exact Hj. rewrite fold_plus.
    assert (Hne : forall i, (i < n)%nat -> x - p i <> 0).
    { intros i Hi H0. specialize (Ha i Hi). rewrite H0, Rabs_R0 in Ha. assert (0 < 1 / 10 ^ 15) by (apply Rdiv_lt_0_compat; [lra|apply pow_lt; lra]). lra. }
    set (W := rprod n (fun i => x - p i)). assert (HW : W <> 0) by (apply rprod_nonzero; exact Hne).
    assert (Et : forall i, (i < n)%nat -> nth i (barycentric nodes) 0 / (x - p i) = L i x * / W).
    { intros i Hi. rewrite barycentric_nth by exact Hi. unfold L. unfold W. rewrite (rprod_pull n (fun i => x - p i) i Hi). field. split; [|apply Hne; auto].
      apply rprod_nonzero. intros k Hk. destruct (Nat.eqb k i); [lra|apply Hne; auto]. }
    rewrite Et by exact Hj. rewrite (rsum_ext n _ (fun i => L i x * / W)) by exact Et. rewrite rsum_scal_r, L_sum by lia. field. exact HW.
  Qed.
  Lemma shape_near x i : separated nodes -> (i < n)%nat -> Rabs (x - p i) < 1 / 10 ^ 15 -> forall j, (j < n)%nat -> nth j (lobatto_shape x nodes) 0 = if Nat.eqb i j then 1 else 0.
  Proof.
    intros Hs Hi Hx j Hj. unfold lobatto_shape.
    assert (E : existsb (fun j => rltb (Rabs (x - p j)) (1 / 10 ^ 15)) (seq 0 n) = true).
    { apply existsb_exists. exists i. split; [apply in_seq; lia|]. destruct (rltb_spec (Rabs (x - p i)) (1 / 10 ^ 15)) as [(E & _)|(_ & E)]; [exact E|lra]. }
    rewrite E, nth_map_seq by exact Hj. destruct (rltb_spec (Rabs (x - p j)) (1 / 10 ^ 15)) as [(-> & Hl)|(-> & Hl)]; destruct (Nat.eqb_spec i j) as [E'|Hne]; auto.
    - exfalso. specialize (Hs i j Hi Hj Hne). replace (p i - p j) with (- (x - p i) + (x - p j)) in Hs by ring.
      pose proof (Rabs_triang (- (x - p i)) (x - p j)) as T. rewrite Rabs_Ropp in T. lra.
    - exfalso. subst. lra.
  Qed.
  (** x is away from all nodes or near one *)
  Lemma near_or_away x : away_from nodes x \/ exists i, (i < n)%nat /\ Rabs (x - p i) < 1 / 10 ^ 15.
  Proof.
    assert (G : forall m, (forall i, (i < m)%nat -> 1 / 10 ^ 15 <= Rabs (x - p i)) \/ exists i, (i < m)%nat /\ Rabs (x - p i) < 1 / 10 ^ 15).
    { induction m as [|m [IH|(i & Hi & H)]]; [left; intros; lia| |right; exists i; auto].
      destruct (Rlt_dec (Rabs (x - p m)) (1 / 10 ^ 15)) as [H|H]; [right; exists m; auto|]. left. intros i Hi. destruct (Nat.eq_dec i m) as [->|]; [lra|apply IH; lia]. }
    destruct (G n) as [H|H]; [left; exact H|right; exact H].
  Qed.
  Lemma shape_sum x : separated nodes -> (0 < n)%nat -> rlsum (lobatto_shape x nodes) = 1.
  Proof.
    intros Hs Hn. assert (E : rlsum (lobatto_shape x nodes) = rsum n (fun j => nth j (lobatto_shape x nodes) 0)).
    { rewrite <- rlsum_map_seq. f_equal. apply (nth_ext _ _ 0 0); [rewrite map_length, seq_length; apply shape_length|]. intros k Hk. rewrite shape_length in Hk. rewrite nth_map_seq by exact Hk. reflexivity. }
    rewrite E. destruct (near_or_away x) as [Ha|(i & Hi & Hx)].
    - rewrite (rsum_ext n _ (fun j => L j x)) by (intros; apply shape_away; auto). apply L_sum; auto.
    - rewrite (rsum_single n i); [rewrite (shape_near x i) by auto; rewrite Nat.eqb_refl; reflexivity|exact Hi|]. intros j Hj Hne. rewrite (shape_near x i) by auto. destruct (Nat.eqb_spec i j); congruence.
  Qed.

  Lemma deriv_length x : length (lobatto_deriv x nodes) = n.
  Proof. unfold lobatto_deriv. rewrite map_length, seq_length. reflexivity. Qed.
  Lemma deriv_exact x j : (j < n)%nat -> is_derive (L j) x (nth j (lobatto_deriv x nodes) 0).
  Proof.
    intros Hj. unfold lobatto_deriv. rewrite nth_map_seq, barycentric_nth by exact Hj. rewrite (fold_add n (fun k => Nat.eqb k j)).
    assert (D : is_derive (fun t => rprod n (fun i => if Nat.eqb i j then 1 else t - p i)) x
       (rsum n (fun k => (if Nat.eqb k j then 0 else 1) * rprod n (fun i => if Nat.eqb i k then 1 else if Nat.eqb i j then 1 else x - p i)))).
    { apply (rprod_derive n (fun i t => if Nat.eqb i j then 1 else t - p i)). intros i Hi. destruct (Nat.eqb i j); [apply derive_const|]. auto_derive; auto. }
    apply (is_derive_scal _ x (bw j)) in D. unfold L.
    apply (eq_ind _ (fun d => is_derive (fun t => bw j * rprod n (fun i => if Nat.eqb i j then 1 else t - p i)) x d) D).
    rewrite Rmult_comm. f_equal. apply rsum_ext. intros k Hk. destruct (Nat.eqb_spec k j) as [|Hne]; [ring|]. rewrite Rmult_1_l.
    rewrite (fold_mul n (fun i => negb (Nat.eqb i j) && negb (Nat.eqb i k))). apply rprod_ext. intros i Hi. destruct (Nat.eqb i j), (Nat.eqb i k); reflexivity.
  Qed.
End Nodes.

(** ** products *)
Lemma nth_flat_map {A} (f : nat -> nat -> A) n d : (0 < n)%nat -> forall m c, (c < m * n)%nat -> nth c (flat_map (fun j => map (fun i => f j i) (seq 0 n)) (seq 0 m)) d = f (c / n)%nat (c mod n)%nat.
Proof.
  intros Hn. assert (Hlen : forall m, length (flat_map (fun j => map (fun i => f j i) (seq 0 n)) (seq 0 m)) = (m * n)%nat).
  { induction m as [|m IH]; [reflexivity|]. rewrite seq_S, flat_map_app, app_length, IH. simpl. rewrite app_nil_r, map_length, seq_length. lia. }
  induction m as [|m IH]; intros c Hc; [lia|]. rewrite seq_S, flat_map_app. destruct (Nat.lt_ge_cases c (m * n)) as [Hlt|Hge].
  - rewrite app_nth1 by (rewrite Hlen; exact Hlt). apply IH. exact Hlt.
  - rewrite app_nth2 by (rewrite Hlen; exact Hge). rewrite Hlen. simpl. rewrite app_nil_r.
    assert (Ec : c = (m * n + (c - m * n))%nat) by lia. set (r := (c - m * n)%nat) in *. assert (Hr : (r < n)%nat) by lia.
    rewrite nth_map_seq by exact Hr. rewrite Ec. f_equal.
    + rewrite Nat.div_add_l, Nat.div_small by lia. lia.
    + rewrite Nat.add_comm, Nat.mod_add, Nat.mod_small by lia. reflexivity.
Qed.
Lemma flat_map_length2 {A} (f : nat -> nat -> A) n m : length (flat_map (fun j => map (fun i => f j i) (seq 0 n)) (seq 0 m)) = (m * n)%nat.
Proof. induction m as [|m IH]; [reflexivity|]. rewrite seq_S, flat_map_app, app_length, IH. simpl. rewrite app_nil_r, map_length, seq_length. lia. Qed.
Lemma nth_flat_map3 {A} (f : nat -> nat -> nat -> A) n d c : (0 < n)%nat -> (c < n * n * n)%nat ->
  nth c (flat_map (fun k => flat_map (fun j => map (fun i => f k j i) (seq 0 n)) (seq 0 n)) (seq 0 n)) d = f (c / (n * n))%nat (c mod (n * n) / n)%nat (c mod n)%nat.
Proof.
  intros Hn Hc.
  assert (E : forall k, flat_map (fun j => map (fun i => f k j i) (seq 0 n)) (seq 0 n) = map (fun r => f k (r / n)%nat (r mod n)%nat) (seq 0 (n * n))).
  { intros k. apply (nth_ext _ _ d d); [rewrite flat_map_length2, map_length, seq_length; reflexivity|]. intros r Hr. rewrite flat_map_length2 in Hr.
    rewrite nth_flat_map, nth_map_seq by auto. reflexivity. }
  rewrite (flat_map_ext _ (fun k => map (fun r => f k (r / n)%nat (r mod n)%nat) (seq 0 (n * n))) E).
  rewrite (nth_flat_map (fun k r => f k (r / n)%nat (r mod n)%nat)) by nia. f_equal.
  rewrite Nat.mod_mul_r by lia. rewrite (Nat.mul_comm n), Nat.mod_add, Nat.mod_mod by lia. reflexivity.
Qed.
Lemma rlsum_app_map (l : list nat) (f : nat -> R) c : rlsum (map (fun i => f i * c) l) = rlsum (map f l) * c.
Proof. induction l as [|x l IH]; simpl; [ring|]. rewrite IH. ring. Qed.
Lemma rlsum_flat (l m : list nat) (f g : nat -> R) : rlsum (flat_map (fun j => map (fun i => f i * g j) m) l) = rlsum (map f m) * rlsum (map g l).
Proof. induction l as [|x l IH]; simpl; [ring|]. rewrite rlsum_app, IH, rlsum_app_map. ring. Qed.
Lemma rlsum_flat3 (l m o : list nat) (f g h : nat -> R) :
  rlsum (flat_map (fun k => flat_map (fun j => map (fun i => f i * g j * h k) m) l) o) = rlsum (map f m) * rlsum (map g l) * rlsum (map h o).
Proof.
  induction o as [|k o IH]; cbn [flat_map map rlsum]; [ring|]. rewrite rlsum_app, IH.
  rewrite (flat_map_ext _ (fun j => map (fun i => f i * (g j * h k)) m)) by (intros j; apply map_ext; intros; ring).
  rewrite (rlsum_flat l m f (fun j => g j * h k)), rlsum_app_map. ring.
Qed.
