(** * Proofs for C34 *)
From Coq Require Import List Arith Bool Reals ZArith Lra Lia.
From Coquelicot Require Import Coquelicot.
From Verif Require Import RSum Outcome LegendreModel LegendreSpec PolyProofs TensorModel TensorSpec.
Import ListNotations.
Local Open Scope R_scope.

Section Rule.
  Variables (n : nat) (w1 p1 : list R).
  Hypothesis Hn : (0 < n)%nat.

  (** iterated sums *)
  Fixpoint iter (d : nat) (g : list R -> R) : R :=
    match d with O => g [] | S d' => rsum n (fun j => nth j w1 0 * iter d' (fun l => g (nth j p1 0 :: l))) end.

  Lemma tensor_acc d : forall i power acc, tensor_point w1 p1 n d i power acc =
    (acc * fst (tensor_point w1 p1 n d i power 1), snd (tensor_point w1 p1 n d i power 1)).
  Proof.
    induction d as [|d IH]; intros i power acc; simpl; [rewrite Rmult_1_r; reflexivity|].
    rewrite (IH i (power * n)%nat (acc * _)), (IH i (power * n)%nat (1 * _)). simpl. f_equal. ring.
  Qed.

  Lemma tensor_shift d : forall k j power, (j < n)%nat -> (0 < power)%nat ->
    tensor_point w1 p1 n d (k * n + j) (power * n) 1 = tensor_point w1 p1 n d k power 1.
  Proof.
    induction d as [|d IH]; intros k j power Hj Hp; [reflexivity|]. cbn [tensor_point].
    replace ((k * n + j) / (power * n))%nat with (k / power)%nat.
    - rewrite tensor_acc, (tensor_acc d k), IH by nia. reflexivity.
    - rewrite (Nat.mul_comm power n), <- Nat.div_div by lia. f_equal. rewrite Nat.div_add_l, Nat.div_small by lia. lia.
  Qed.

  Lemma tensor_front d k j : (j < n)%nat -> tensor_point w1 p1 n (S d) (k * n + j) 1 1 =
    (nth j w1 0 * fst (tensor_point w1 p1 n d k 1 1), nth j p1 0 :: snd (tensor_point w1 p1 n d k 1 1)).
  Proof.
    intros Hj. cbn [tensor_point]. rewrite tensor_acc, tensor_shift by lia. rewrite Nat.div_1_r.
    replace ((k * n + j) mod n)%nat with j; [simpl; f_equal; ring|]. rewrite Nat.add_comm, Nat.mod_add, Nat.mod_small by lia. reflexivity.
  Qed.

  Lemma tensor_sum d : forall g, rsum (n ^ d) (fun i => fst (tensor_point w1 p1 n d i 1 1) * g (snd (tensor_point w1 p1 n d i 1 1))) = iter d g.
  Proof.
    induction d as [|d IH]; intros g; [simpl; ring|]. cbn [iter]. rewrite Nat.pow_succ_r', Nat.mul_comm, rsum_blocks.
    rewrite (rsum_ext _ _ (fun k => rsum n (fun j => nth j w1 0 * (fst (tensor_point w1 p1 n d k 1 1) * g (nth j p1 0 :: snd (tensor_point w1 p1 n d k 1 1)))))).
    - rewrite rsum_swap. apply rsum_ext. intros j Hj. rewrite rsum_scal. f_equal. apply (IH (fun l => g (nth j p1 0 :: l))).
    - intros k Hk. apply rsum_ext. intros j Hj. rewrite tensor_front by auto. simpl fst. simpl snd. ring.
  Qed.

  Lemma tensor_length d i : forall power acc, length (snd (tensor_point w1 p1 n d i power acc)) = d.
  Proof.
    induction d as [|d IH]; intros power acc; [reflexivity|]. cbn [tensor_point]. rewrite tensor_acc. simpl. f_equal. apply IH.
  Qed.

  Lemma iter_ext d : forall g h, (forall l, g l = h l) -> iter d g = iter d h.
  Proof. induction d as [|d IH]; intros g h H; simpl; auto. apply rsum_ext. intros j _. f_equal. apply IH. intros; apply H. Qed.
  Lemma iter_plus d : forall g h, iter d (fun l => g l + h l) = iter d g + iter d h.
  Proof.
    induction d as [|d IH]; intros g h; simpl; [reflexivity|]. rewrite <- rsum_plus. apply rsum_ext. intros j _. rewrite (IH (fun l => g (nth j p1 0 :: l)) (fun l => h (nth j p1 0 :: l))). ring.
  Qed.
  Lemma iter_scal d : forall g c, iter d (fun l => g l * c) = iter d g * c.
  Proof.
    induction d as [|d IH]; intros g c; simpl; [reflexivity|]. rewrite <- rsum_scal_r. apply rsum_ext. intros j _. rewrite (IH (fun l => g (nth j p1 0 :: l))). ring.
  Qed.
  Lemma iter_zero d : iter d (fun _ => 0) = 0.
  Proof. induction d as [|d IH]; simpl; auto. apply rsum_zero. intros. rewrite IH. ring. Qed.
  Lemma iter_sum d m F : iter d (fun l => rsum m (fun k => F k l)) = rsum m (fun k => iter d (F k)).
  Proof. induction m as [|m IH]; simpl; [apply iter_zero|]. rewrite iter_plus, IH. reflexivity. Qed.

  Lemma iter_product fs : iter (length fs) (product fs) = fold_right Rmult 1 (map (fun f => rsum n (fun j => nth j w1 0 * f (nth j p1 0))) fs).
  Proof.
    induction fs as [|f fs IH]; [reflexivity|]. cbn [length iter map fold_right]. rewrite <- IH, <- rsum_scal_r. apply rsum_ext. intros j _.
    rewrite (iter_ext _ _ (fun l => product fs l * f (nth j p1 0))) by (intros; simpl; ring). rewrite iter_scal. ring.
  Qed.

  (** exactness *)
  Variable D : nat.
  Hypothesis exact1 : forall f, polynomial D f -> is_RInt f (-1) 1 (rsum n (fun j => nth j w1 0 * f (nth j p1 0))).


  Lemma cube_ext d : forall g h v, (forall l, g l = h l) -> cube_integral d g v -> cube_integral d h v.
  Proof.
    induction d as [|d IH]; simpl; intros g h v E H; [rewrite <- E; auto|]. destruct H as (q & Hq & Hv). exists q. split; auto.
    intros x. apply (IH (fun l => g (x :: l))); auto.
  Qed.
  Lemma cube_plus d : forall g h v u, cube_integral d g v -> cube_integral d h u -> cube_integral d (fun l => g l + h l) (v + u).
  Proof.
    induction d as [|d IH]; simpl; intros g h v u; [intros -> ->; reflexivity|]. intros (q & Hq & Hv) (r & Hr & Hu). exists (fun x => q x + r x).
    split; [intros x; apply (IH (fun l => g (x :: l)) (fun l => h (x :: l))); auto|]. apply (is_RInt_plus q r); auto.
  Qed.
  Lemma cube_scal d : forall g v c, cube_integral d g v -> cube_integral d (fun l => g l * c) (v * c).
  Proof.
    induction d as [|d IH]; simpl; intros g v c; [intros ->; reflexivity|]. intros (q & Hq & Hv). exists (fun x => q x * c).
    split; [intros x; apply (IH (fun l => g (x :: l))); auto|]. rewrite Rmult_comm. apply (is_RInt_ext (fun x => c * q x)); [intros; apply Rmult_comm|].
    apply (is_RInt_scal q); auto.
  Qed.
  Lemma cube_zero d : cube_integral d (fun _ => 0) 0.
  Proof.
    induction d as [|d IH]; simpl; auto. exists (fun _ => 0). split; auto. apply (Int_sum 0 (fun _ _ => 0) (fun _ => 0)). intros; lia.
  Qed.
  Lemma cube_sum d m F V : (forall k, (k < m)%nat -> cube_integral d (F k) (V k)) -> cube_integral d (fun l => rsum m (fun k => F k l)) (rsum m V).
  Proof.
    induction m as [|m IH]; intros H; simpl; [apply cube_zero|]. apply cube_plus; [apply IH; intros; apply H; lia|apply H; lia].
  Qed.

  Lemma iter_exact d : forall g, multi_polynomial d D g -> cube_integral d g (iter d g).
  Proof.
    induction d as [|d IH]; intros g Hg; [reflexivity|]. destruct Hg as (c & Hc & E). cbn [cube_integral iter].
    exists (fun x => rsum (S D) (fun k => iter d (c k) * x ^ k)). split.
    - intros x. apply (cube_ext d (fun l => rsum (S D) (fun k => c k l * x ^ k))); [intros; symmetry; apply E|].
      apply (cube_sum d (S D) (fun k l => c k l * x ^ k)). intros k Hk. apply cube_scal. apply IH. apply Hc. lia.
    - rewrite (rsum_ext n _ (fun j => nth j w1 0 * (fun x => rsum (S D) (fun k => iter d (c k) * x ^ k)) (nth j p1 0))).
      + apply exact1. exists (fun k => iter d (c k)). reflexivity.
      + intros j _. f_equal. rewrite (iter_ext d _ (fun l => rsum (S D) (fun k => c k l * nth j p1 0 ^ k))) by (intros; apply E).
        rewrite (iter_sum d (S D) (fun k l => c k l * nth j p1 0 ^ k)). apply rsum_ext. intros k _. apply iter_scal.
  Qed.
End Rule.

Lemma rule_access dim n w1 p1 i : (i < n ^ dim)%nat ->
  ip_weight (tensor_rule dim n w1 p1) (Z.of_nat i) = Ok (fst (tensor_point w1 p1 n dim i 1 1)) /\
  ip_coords (tensor_rule dim n w1 p1) (Z.of_nat i) = Ok (snd (tensor_point w1 p1 n dim i 1 1)).
Proof.
  intros Hi. unfold ip_weight, ip_coords. assert (HL : length (tensor_rule dim n w1 p1) = (n ^ dim)%nat) by (unfold tensor_rule; rewrite map_length, seq_length; reflexivity).
  rewrite HL. destruct (Z.leb_spec 0 (Z.of_nat i)); [|lia]. destruct (Z.ltb_spec (Z.of_nat i) (Z.of_nat (n ^ dim))); [|lia]. cbn [andb]. rewrite Nat2Z.id.
  replace (nth i (tensor_rule dim n w1 p1) (0, [])) with (tensor_point w1 p1 n dim i 1 1); [split; reflexivity|].
  unfold tensor_rule. rewrite nth_indep with (d' := tensor_point w1 p1 n dim 0 1 1) by (rewrite map_length, seq_length; auto).
  rewrite (map_nth (fun i => tensor_point w1 p1 n dim i 1 1)), seq_nth by auto. reflexivity.
Qed.

Lemma rule_quadrature dim n w1 p1 g : (0 < n)%nat ->
  quadrature (n ^ dim) (ip_weight (tensor_rule dim n w1 p1)) (ip_coords (tensor_rule dim n w1 p1)) g (iter n w1 p1 dim g).
Proof.
  intros Hn. exists (fun i => fst (tensor_point w1 p1 n dim i 1 1)), (fun i => snd (tensor_point w1 p1 n dim i 1 1)). split.
  - intros i Hi. apply rule_access; auto.
  - symmetry. apply tensor_sum. exact Hn.
Qed.
