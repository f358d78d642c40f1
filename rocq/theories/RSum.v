(** * Finite sums of real numbers *)
From Coq Require Import Reals Lra Lia Arith List.
Local Open Scope R_scope.

(** [rsum n f] = f 0 + ... + f (n-1) *)
Fixpoint rsum (n : nat) (f : nat -> R) : R :=
  match n with O => 0 | S k => rsum k f + f k end.

Lemma rsum_ext n f g : (forall i, (i < n)%nat -> f i = g i) -> rsum n f = rsum n g.
Proof. induction n as [|n IH]; intros H; simpl; [reflexivity|]. rewrite IH, (H n); auto. Qed.
Lemma rsum_0 n : rsum n (fun _ => 0) = 0.
Proof. induction n; simpl; lra. Qed.
Lemma rsum_zero n f : (forall i, (i < n)%nat -> f i = 0) -> rsum n f = 0.
Proof. intros H. rewrite (rsum_ext n f (fun _ => 0)); auto. apply rsum_0. Qed.
Lemma rsum_plus n f g : rsum n (fun i => f i + g i) = rsum n f + rsum n g.
Proof. induction n; simpl; [lra|]. rewrite IHn. lra. Qed.
Lemma rsum_minus n f g : rsum n (fun i => f i - g i) = rsum n f - rsum n g.
Proof. induction n; simpl; [lra|]. rewrite IHn. lra. Qed.
Lemma rsum_scal n c f : rsum n (fun i => c * f i) = c * rsum n f.
Proof. induction n; simpl; [lra|]. rewrite IHn. lra. Qed.
Lemma rsum_scal_r n c f : rsum n (fun i => f i * c) = rsum n f * c.
Proof. induction n; simpl; [lra|]. rewrite IHn. lra. Qed.
Lemma rsum_swap n m (f : nat -> nat -> R) :
  rsum n (fun i => rsum m (fun j => f i j)) = rsum m (fun j => rsum n (fun i => f i j)).
Proof.
  induction n; simpl; [symmetry; apply rsum_0|]. rewrite IHn. symmetry. apply rsum_plus.
Qed.
Lemma rsum_single n k f : (k < n)%nat -> (forall i, (i < n)%nat -> i <> k -> f i = 0) -> rsum n f = f k.
Proof.
  induction n as [|n IH]; intros Hk H; [lia|]. simpl. destruct (Nat.eq_dec k n) as [->|].
  - rewrite rsum_zero; [lra|]. intros i Hi. apply H; lia.
  - rewrite IH; [rewrite (H n) by lia; lra|lia|intros; apply H; lia].
Qed.
Lemma rsum_split n m f : rsum (n + m) f = rsum n f + rsum m (fun i => f (n + i)%nat).
Proof. induction m; simpl; [rewrite Nat.add_0_r; lra|]. rewrite Nat.add_succ_r. simpl. rewrite IHm. lra. Qed.
Lemma rsum_front n f : rsum (S n) f = f O + rsum n (fun i => f (S i)).
Proof. change (S n) with (1 + n)%nat. rewrite rsum_split. simpl. lra. Qed.
(** block sums: n blocks of d entries *)
Lemma rsum_blocks n d f : rsum (n * d) f = rsum n (fun k => rsum d (fun i => f (k * d + i)%nat)).
Proof.
  induction n; simpl; [reflexivity|]. replace (d + n * d)%nat with (n * d + d)%nat by lia.
  rewrite rsum_split, IHn. reflexivity.
Qed.
Lemma rsum_nonneg n f : (forall i, (i < n)%nat -> 0 <= f i) -> 0 <= rsum n f.
Proof. induction n as [|n IH]; intros H; simpl; [lra|]. pose proof (H n (Nat.lt_succ_diag_r n)). assert (0 <= rsum n f) by (apply IH; auto). lra. Qed.
Lemma rsum_le n f g : (forall i, (i < n)%nat -> f i <= g i) -> rsum n f <= rsum n g.
Proof. induction n as [|n IH]; intros H; simpl; [lra|]. pose proof (H n (Nat.lt_succ_diag_r n)). assert (rsum n f <= rsum n g) by (apply IH; auto). lra. Qed.
Lemma rsum_const n c : rsum n (fun _ => c) = INR n * c.
Proof. induction n; simpl rsum; [simpl; lra|]. rewrite IHn, S_INR. lra. Qed.

(** sum of a list *)
Fixpoint rlsum (l : list R) : R := match l with nil => 0 | cons x l' => x + rlsum l' end.
Lemma rlsum_app l m : rlsum (l ++ m) = rlsum l + rlsum m.
Proof. induction l; simpl; [lra|]. rewrite IHl. lra. Qed.
Lemma rlsum_map_seq n f : rlsum (map f (seq 0 n)) = rsum n f.
Proof. induction n; [reflexivity|]. rewrite seq_S, map_app, rlsum_app, IHn. simpl. lra. Qed.
