(** * Proofs about cells, Jacobians and differential operators *)
From Coq Require Import List ZArith Arith Bool Reals Lia Lra Psatz.
From Coquelicot Require Import Coquelicot.
From Verif Require Import Outcome DofModel DofSpec DofProofs RSum CellModel CellSpec.
Import ListNotations.
Local Open Scope R_scope.

(** ** Differential operators *)
Lemma mput_same M r c x : mput M r c x r c = x.
Proof. unfold mput. rewrite !Nat.eqb_refl. reflexivity. Qed.
Lemma mput_other M r c x i j : (i <> r \/ j <> c) -> mput M r c x i j = M i j.
Proof. intros H. unfold mput. destruct (Nat.eqb_spec i r), (Nat.eqb_spec j c); simpl; auto. exfalso; intuition. Qed.

Lemma strain_node2_same dN B k r i : (i < 2)%nat -> (r < 3)%nat ->
  strain_node2 dN B k r (2 * k + i)%nat =
  match r, i with
  | 0%nat, 0%nat => dN k 0%nat | 1%nat, 1%nat => dN k 1%nat
  | 2%nat, 0%nat => dN k 1%nat | 2%nat, 1%nat => dN k 0%nat
  | _, _ => B r (2 * k + i)%nat end.
Proof.
  intros Hi Hr. unfold strain_node2, mput.
  destruct r as [|[|[|r]]]; try lia; destruct i as [|[|i]]; try lia; cbn [Nat.eqb andb];
    repeat match goal with |- context [Nat.eqb ?a ?b] => destruct (Nat.eqb_spec a b); try lia end; reflexivity.
Qed.
Lemma strain_node2_other dN B k r c : (c < 2 * k \/ 2 * k + 2 <= c)%nat -> strain_node2 dN B k r c = B r c.
Proof.
  intros H. unfold strain_node2, mput.
  repeat match goal with |- context [Nat.eqb c ?b] => destruct (Nat.eqb_spec c b); try lia end.
  rewrite !andb_false_r. reflexivity.
Qed.
Lemma strain_fold2 dN n r k i : (k < n)%nat -> (i < 2)%nat -> (r < 3)%nat ->
  fold_left (strain_node2 dN) (seq 0 n) (fun _ _ => 0) r (2 * k + i)%nat =
  match r, i with
  | 0%nat, 0%nat => dN k 0%nat | 1%nat, 1%nat => dN k 1%nat
  | 2%nat, 0%nat => dN k 1%nat | 2%nat, 1%nat => dN k 0%nat
  | _, _ => 0 end.
Proof.
  intros Hk Hi Hr.
  assert (Hz : forall m, (m <= k)%nat -> fold_left (strain_node2 dN) (seq 0 m) (fun _ _ => 0) r (2 * k + i)%nat = 0).
  { induction m as [|m IH]; intros Hm; [reflexivity|]. rewrite seq_S, fold_left_app. simpl fold_left at 1.
    rewrite strain_node2_other by lia. apply IH. lia. }
  induction n as [|n IH]; [lia|]. rewrite seq_S, fold_left_app. simpl fold_left at 1.
  destruct (Nat.eq_dec k n) as [->|].
  - rewrite strain_node2_same by assumption. rewrite Hz by lia. reflexivity.
  - rewrite strain_node2_other by lia. apply IH. lia.
Qed.

Lemma strain_node3_same dN B k r i : (i < 3)%nat -> (r < 6)%nat ->
  strain_node3 dN B k r (3 * k + i)%nat =
  match r, i with
  | 0%nat, 0%nat => dN k 0%nat | 1%nat, 1%nat => dN k 1%nat | 2%nat, 2%nat => dN k 2%nat
  | 3%nat, 1%nat => dN k 2%nat | 3%nat, 2%nat => dN k 1%nat
  | 4%nat, 0%nat => dN k 2%nat | 4%nat, 2%nat => dN k 0%nat
  | 5%nat, 0%nat => dN k 1%nat | 5%nat, 1%nat => dN k 0%nat
  | _, _ => B r (3 * k + i)%nat end.
Proof.
  intros Hi Hr. unfold strain_node3, mput.
  destruct r as [|[|[|[|[|[|r]]]]]]; try lia; destruct i as [|[|[|i]]]; try lia; cbn [Nat.eqb andb];
    repeat match goal with |- context [Nat.eqb ?a ?b] => destruct (Nat.eqb_spec a b); try lia end; reflexivity.
Qed.
Lemma strain_node3_other dN B k r c : (c < 3 * k \/ 3 * k + 3 <= c)%nat -> strain_node3 dN B k r c = B r c.
Proof.
  intros H. unfold strain_node3, mput.
  repeat match goal with |- context [Nat.eqb c ?b] => destruct (Nat.eqb_spec c b); try lia end.
  rewrite !andb_false_r. reflexivity.
Qed.
Lemma strain_fold3 dN n r k i : (k < n)%nat -> (i < 3)%nat -> (r < 6)%nat ->
  fold_left (strain_node3 dN) (seq 0 n) (fun _ _ => 0) r (3 * k + i)%nat =
  match r, i with
  | 0%nat, 0%nat => dN k 0%nat | 1%nat, 1%nat => dN k 1%nat | 2%nat, 2%nat => dN k 2%nat
  | 3%nat, 1%nat => dN k 2%nat | 3%nat, 2%nat => dN k 1%nat
  | 4%nat, 0%nat => dN k 2%nat | 4%nat, 2%nat => dN k 0%nat
  | 5%nat, 0%nat => dN k 1%nat | 5%nat, 1%nat => dN k 0%nat
  | _, _ => 0 end.
Proof.
  intros Hk Hi Hr.
  assert (Hz : forall m, (m <= k)%nat -> fold_left (strain_node3 dN) (seq 0 m) (fun _ _ => 0) r (3 * k + i)%nat = 0).
  { induction m as [|m IH]; intros Hm; [reflexivity|]. rewrite seq_S, fold_left_app. simpl fold_left at 1.
    rewrite strain_node3_other by lia. apply IH. lia. }
  induction n as [|n IH]; [lia|]. rewrite seq_S, fold_left_app. simpl fold_left at 1.
  destruct (Nat.eq_dec k n) as [->|].
  - rewrite strain_node3_same by assumption. rewrite Hz by lia. reflexivity.
  - rewrite strain_node3_other by lia. apply IH. lia.
Qed.

(** partial derivatives of the interpolated field *)
Lemma interpolated_partial n N v i x j (dN : nat -> nat -> R) :
  (forall k, (k < n)%nat -> is_partial (N k) x j (dN k j)) ->
  is_partial (interpolated n N v i) x j (rsum n (fun k => dN k j * v k i)).
Proof.
  unfold is_partial, interpolated. induction n as [|n IH]; intros H; simpl.
  - apply (is_derive_const (V := R_NormedModule)).
  - apply (is_derive_plus (V := R_NormedModule)); [apply IH; auto|].
    assert (Hn := H n (Nat.lt_succ_diag_r n)).
    apply (is_derive_ext (fun t => v n i * N n (fun i0 => if Nat.eqb i0 j then t else x i0))); [intros; apply Rmult_comm|].
    replace (dN n j * v n i) with (v n i * dN n j) by apply Rmult_comm.
    apply (is_derive_scal (fun t => N n (fun i0 => if Nat.eqb i0 j then t else x i0)) (x j) (v n i) (dN n j)). exact Hn.
Qed.

Lemma rsum_node_blocks n d (M : mfun) (u : nat -> R) r :
  mvmul (n * d) M u r = rsum n (fun k => rsum d (fun i => M r (k * d + i)%nat * u (k * d + i)%nat)).
Proof. unfold mvmul. rewrite rsum_blocks. reflexivity. Qed.

(** ** Node value vectors *)
Lemma nth_flat_blocks {A} (g : nat -> nat -> A) d n (dflt : A) k i : (k < n)%nat -> (i < d)%nat ->
  nth (k * d + i) (flat_map (fun k => map (g k) (seq 0 d)) (seq 0 n)) dflt = g k i.
Proof.
  intros Hk Hi.
  assert (G : forall s n k, (k < n)%nat ->
    nth (k * d + i) (flat_map (fun k => map (g k) (seq 0 d)) (seq s n)) dflt = g (s + k)%nat i).
  { intros s n'. revert s. induction n' as [|n' IH]; intros s k' Hk'; [lia|]. simpl.
    destruct k' as [|k'].
    - rewrite app_nth1 by (rewrite map_length, seq_length; lia).
      rewrite (nth_indep _ dflt (g s 0%nat)) by (rewrite map_length, seq_length; lia).
      rewrite map_nth, seq_nth by lia. rewrite Nat.add_0_r. reflexivity.
    - rewrite app_nth2 by (rewrite map_length, seq_length; simpl; lia). rewrite map_length, seq_length.
      replace (S k' * d + i - d)%nat with (k' * d + i)%nat by (simpl; lia).
      rewrite IH by lia. f_equal. lia. }
  apply (G 0%nat n k Hk).
Qed.
Lemma flat_blocks_length {A} (g : nat -> nat -> A) d n :
  length (flat_map (fun k => map (g k) (seq 0 d)) (seq 0 n)) = (n * d)%nat.
Proof.
  assert (G : forall s, length (flat_map (fun k => map (g k) (seq 0 d)) (seq s n)) = (n * d)%nat).
  { induction n as [|n IH]; intros s; [reflexivity|]. simpl. rewrite app_length, map_length, seq_length, IH. reflexivity. }
  apply G.
Qed.

(** ** N matrix *)
Lemma n_block_other d sh M i r c : (c < i * d \/ i * d + d <= c)%nat -> n_block d sh M i r c = M r c.
Proof.
  intros H. unfold n_block.
  destruct (Nat.leb_spec (i * d) c), (Nat.ltb_spec c (i * d + d)); rewrite ?andb_false_r; simpl; rewrite ?andb_false_r; auto; lia.
Qed.
Lemma matrix_N_entry garbage sh n d r k i : (r < d)%nat -> (k < n)%nat -> (i < d)%nat ->
  matrix_N garbage sh n d r (k * d + i)%nat = kron r i * sh k.
Proof.
  intros Hr Hk Hi. unfold matrix_N. induction n as [|n IH]; [lia|].
  rewrite seq_S, fold_left_app. simpl fold_left at 1. destruct (Nat.eq_dec k n) as [->|].
  - unfold n_block. destruct (Nat.ltb_spec r d); [|lia]. destruct (Nat.leb_spec (n * d) (n * d + i)); [|lia].
    destruct (Nat.ltb_spec (n * d + i) (n * d + d)); [|lia]. simpl.
    replace (n * d + i - n * d)%nat with i by lia. reflexivity.
  - rewrite n_block_other by nia. apply IH. lia.
Qed.
Lemma matrix_N_interpolates garbage sh n d (v : nat -> R) r : (r < d)%nat ->
  mvmul (n * d) (matrix_N garbage sh n d) v r = rsum n (fun k => sh k * v (k * d + r)%nat).
Proof.
  intros Hr. rewrite rsum_node_blocks. apply rsum_ext. intros k Hk.
  rewrite (rsum_single d r); [|exact Hr|].
  - rewrite matrix_N_entry by auto. unfold kron. rewrite Nat.eqb_refl. lra.
  - intros i Hi Hne. rewrite matrix_N_entry by auto. unfold kron.
    destruct (Nat.eqb_spec r i); [congruence|lra].
Qed.

(** ** Strain *)
Lemma strain_product dim n dN rows B (u : nat -> nat -> R) :
  nabla_strain dim n dN = Ok (rows, B) ->
  map (mvmul (n * dim) B (fun c => nth c (extract_node_values dim n u) 0)) (seq 0 rows)
  = voigt_components dim (fun a b => rsum n (fun k => dN k b * u k a)).
Proof.
  intros H.
  assert (Hv : forall k i, (k < n)%nat -> (i < dim)%nat -> nth (k * dim + i) (extract_node_values dim n u) 0 = u k i).
  { intros. apply nth_flat_blocks; assumption. }
  assert (Hrow : forall r, mvmul (n * dim) B (fun c => nth c (extract_node_values dim n u) 0) r
     = rsum n (fun k => rsum dim (fun i => B r (k * dim + i)%nat * u k i))).
  { intros r. rewrite rsum_node_blocks. apply rsum_ext. intros k Hk. apply rsum_ext. intros i Hi.
    rewrite Hv by assumption. reflexivity. }
  destruct dim as [|[|[|[|dim]]]]; try discriminate; simpl in H; inversion H; subst; clear H; simpl seq; cbn [map];
    rewrite !Hrow; unfold voigt_components, eps.
  - apply f_equal2; [|reflexivity]. rewrite <- rsum_plus. unfold Rdiv. rewrite <- rsum_scal_r. apply rsum_ext. intros k Hk.
    cbn [rsum]. replace (k * 1 + 0)%nat with k by lia. lra.
  - assert (E : forall r (k : nat), (k < n)%nat -> (r < 3)%nat ->
      rsum 2 (fun i => fold_left (strain_node2 dN) (seq 0 n) (fun _ _ => 0) r (k * 2 + i)%nat * u k i)
      = match r with 0%nat => dN k 0%nat * u k 0%nat | 1%nat => dN k 1%nat * u k 1%nat
        | _ => dN k 1%nat * u k 0%nat + dN k 0%nat * u k 1%nat end).
    { intros r k Hk Hr. cbn [rsum]. rewrite (Nat.mul_comm k 2). rewrite !strain_fold2 by lia.
      destruct r as [|[|[|r]]]; try lia; lra. }
    repeat apply f_equal2; try reflexivity.
    + rewrite (rsum_ext n _ _ (fun k Hk => E 0%nat k Hk ltac:(lia))). lra.
    + rewrite (rsum_ext n _ _ (fun k Hk => E 1%nat k Hk ltac:(lia))). lra.
    + rewrite (rsum_ext n _ _ (fun k Hk => E 2%nat k Hk ltac:(lia))). rewrite rsum_plus. lra.
  - assert (E : forall r (k : nat), (k < n)%nat -> (r < 6)%nat ->
      rsum 3 (fun i => fold_left (strain_node3 dN) (seq 0 n) (fun _ _ => 0) r (k * 3 + i)%nat * u k i)
      = match r with 0%nat => dN k 0%nat * u k 0%nat | 1%nat => dN k 1%nat * u k 1%nat | 2%nat => dN k 2%nat * u k 2%nat
        | 3%nat => dN k 2%nat * u k 1%nat + dN k 1%nat * u k 2%nat
        | 4%nat => dN k 2%nat * u k 0%nat + dN k 0%nat * u k 2%nat
        | _ => dN k 1%nat * u k 0%nat + dN k 0%nat * u k 1%nat end).
    { intros r k Hk Hr. cbn [rsum]. rewrite (Nat.mul_comm k 3). rewrite !strain_fold3 by lia.
      destruct r as [|[|[|[|[|[|r]]]]]]; try lia; lra. }
    repeat apply f_equal2; try reflexivity.
    + rewrite (rsum_ext n _ _ (fun k Hk => E 0%nat k Hk ltac:(lia))). lra.
    + rewrite (rsum_ext n _ _ (fun k Hk => E 1%nat k Hk ltac:(lia))). lra.
    + rewrite (rsum_ext n _ _ (fun k Hk => E 2%nat k Hk ltac:(lia))). lra.
    + rewrite (rsum_ext n _ _ (fun k Hk => E 3%nat k Hk ltac:(lia))). rewrite rsum_plus. lra.
    + rewrite (rsum_ext n _ _ (fun k Hk => E 4%nat k Hk ltac:(lia))). rewrite rsum_plus. lra.
    + rewrite (rsum_ext n _ _ (fun k Hk => E 5%nat k Hk ltac:(lia))). rewrite rsum_plus. lra.
Qed.

Theorem strain_is_symmetric_gradient dim n N x dN u : (1 <= dim <= 3)%nat ->
  (forall k j, (k < n)%nat -> (j < dim)%nat -> is_partial (N k) x j (dN k j)) ->
  exists rows B G,
    nabla_strain dim n dN = Ok (rows, B)
    /\ (forall i j, (i < dim)%nat -> (j < dim)%nat -> is_partial (interpolated n N u i) x j (G i j))
    /\ map (mvmul (n * dim) B (fun c => nth c (extract_node_values dim n u) 0)) (seq 0 rows) = voigt_components dim G.
Proof.
  intros Hd HN.
  assert (exists rows B, nabla_strain dim n dN = Ok (rows, B)) as (rows & B & E).
  { destruct dim as [|[|[|[|dim]]]]; try lia; simpl; eauto. }
  exists rows, B, (fun a b => rsum n (fun k => dN k b * u k a)). split; [exact E|]. split.
  - intros i j Hi Hj. apply interpolated_partial. intros k Hk. apply HN; assumption.
  - apply strain_product. exact E.
Qed.

Theorem gradient_is_gradient dim n N x dN (u : nat -> R) :
  (forall k j, (k < n)%nat -> (j < dim)%nat -> is_partial (N k) x j (dN k j)) ->
  forall j, (j < dim)%nat ->
  is_partial (fun y => rsum n (fun k => N k y * u k)) x j (mvmul n (nabla_gradient dN) u j).
Proof.
  intros HN j Hj. exact (interpolated_partial n N (fun k _ => u k) 0 x j dN (fun k Hk => HN k j Hk Hj)).
Qed.

(** ** Integration *)
Lemma obind_Ok {A B} (o : outcome A) (f : A -> outcome B) b :
  obind o f = Ok b <-> exists a, o = Ok a /\ f a = Ok b.
Proof.
  destruct o; simpl; split; intros H; eauto; try discriminate.
  - destruct H as (x & Hx & Hf). inversion Hx; subst. exact Hf.
  - destruct H as (x & Hx & _). discriminate.
  - destruct H as (x & Hx & _). discriminate.
Qed.

Section Int.
  Variables (cellId : Z) (numIps : nat) (ipCoord : nat -> list R) (ipWeight : nat -> R).
  Variables (coordinates : list R) (numNodes : nat) (interpolationDim : nat) (dShape : list R -> mfun).
  Notation mkip := (make_ip cellId ipCoord coordinates numNodes interpolationDim dShape).

  Lemma integrate_app {S V} add scale (f : S -> ipdata -> S * V) l1 l2 s r :
    integrate_loop cellId ipCoord ipWeight coordinates numNodes interpolationDim dShape add scale f (l1 ++ l2) s r
    = obind (integrate_loop cellId ipCoord ipWeight coordinates numNodes interpolationDim dShape add scale f l1 s r)
        (fun p => integrate_loop cellId ipCoord ipWeight coordinates numNodes interpolationDim dShape add scale f l2 (fst p) (snd p)).
  Proof.
    revert s r. induction l1 as [|i l1 IH]; intros s r; simpl; [reflexivity|].
    destruct (mkip i) as [ip| |]; simpl; auto. destruct (f s ip) as (s1, v).
    destruct (add r _); simpl; auto.
  Qed.

  Lemma integrate_scalar {S} (f : S -> ipdata -> S * R) (ips : nat -> ipdata) s :
    (forall i, (i < numIps)%nat -> mkip i = Ok (ips i)) ->
    integrate cellId numIps ipCoord ipWeight coordinates numNodes interpolationDim dShape
       (fun a b => Ok (a + b)) Rmult f 0 s
    = Ok (state_at f ips s numIps,
          rsum numIps (fun i => snd (f (state_at f ips s i) (ips i)) * jDet (ipJac (ips i)) * ipWeight i)).
  Proof.
    unfold integrate. induction numIps as [|n IH]; intros H; [reflexivity|].
    rewrite seq_S, integrate_app, IH by auto. simpl. rewrite (H n) by lia. simpl.
    destruct (f (state_at f ips s n) (ips n)) as (s1, v). reflexivity.
  Qed.

  Lemma apply_loop_spec {S} (f : S -> ipdata -> S) (ips : nat -> ipdata) l s :
    (forall i, In i l -> mkip i = Ok (ips i)) ->
    apply_loop cellId ipCoord coordinates numNodes interpolationDim dShape f l s
    = Ok (fold_left (fun s i => f s (ips i)) l s).
  Proof.
    revert s. induction l as [|i l IH]; intros s H; simpl; [reflexivity|].
    rewrite (H i (or_introl eq_refl)). simpl. apply IH. intros j Hj. apply H. right. exact Hj.
  Qed.

  Lemma eval_app {S V} (f : S -> ipdata -> S * V) l1 l2 s r :
    eval_loop cellId ipCoord coordinates numNodes interpolationDim dShape f (l1 ++ l2) s r
    = obind (eval_loop cellId ipCoord coordinates numNodes interpolationDim dShape f l1 s r)
        (fun p => eval_loop cellId ipCoord coordinates numNodes interpolationDim dShape f l2 (fst p) (snd p)).
  Proof.
    revert s r. induction l1 as [|i l1 IH]; intros s r; simpl; [reflexivity|].
    destruct (mkip i) as [ip| |]; simpl; auto. destruct (f s ip) as (s1, v). apply IH.
  Qed.
  Lemma eval_spec {S V} (f : S -> ipdata -> S * V) (ips : nat -> ipdata) s :
    (forall i, (i < numIps)%nat -> mkip i = Ok (ips i)) ->
    cell_eval cellId numIps ipCoord coordinates numNodes interpolationDim dShape f s
    = Ok (state_at f ips s numIps, map (fun i => snd (f (state_at f ips s i) (ips i))) (seq 0 numIps)).
  Proof.
    unfold cell_eval. induction numIps as [|n IH]; intros H; [reflexivity|].
    rewrite seq_S, eval_app, IH by auto. simpl. rewrite (H n) by lia. simpl.
    destruct (f (state_at f ips s n) (ips n)) as (s1, v) eqn:E. rewrite map_app. simpl. rewrite E. reflexivity.
  Qed.

  Lemma make_ip_fields i ip : mkip i = Ok ip -> ipCell ip = cellId /\ ipId ip = i /\ ipCoords ip = ipCoord i
    /\ make_jacobian coordinates numNodes interpolationDim (dShape (ipCoord i)) = Ok (ipJac ip).
  Proof.
    unfold make_ip. destruct (make_jacobian _ _ _ _); simpl; intros H; inversion H; subst; auto.
  Qed.

  (** a logging integrand sees every ip once, in order *)
  Lemma log_states {V} (h : ipdata -> V) (ips : nat -> ipdata) n :
    (forall i, (i < n)%nat -> mkip i = Ok (ips i)) ->
    state_at (fun (l : list (Z * nat)) ip => (l ++ [(ipCell ip, ipId ip)], h ip)) ips [] n = map (fun i => (cellId, i)) (seq 0 n).
  Proof.
    induction n as [|n IH]; intros H; [reflexivity|]. rewrite seq_S, map_app, <- IH by auto. simpl.
    destruct (make_ip_fields n (ips n) (H n (Nat.lt_succ_diag_r n))) as (-> & -> & _). reflexivity.
  Qed.
  Lemma fold_states {S} (f : S -> ipdata -> S) (ips : nat -> ipdata) s n :
    fold_left (fun s i => f s (ips i)) (seq 0 n) s = state_at (fun s ip => (f s ip, tt)) ips s n.
  Proof. induction n as [|n IH]; [reflexivity|]. rewrite seq_S, fold_left_app, IH. reflexivity. Qed.
End Int.

(** generic accumulation: any component functional *)
Section IntGen.
  Variables (cellId : Z) (numIps : nat) (ipCoord : nat -> list R) (ipWeight : nat -> R).
  Variables (coordinates : list R) (numNodes : nat) (interpolationDim : nat) (dShape : list R -> mfun).
  Notation mkip := (make_ip cellId ipCoord coordinates numNodes interpolationDim dShape).
  Context {V : Type} (add : V -> V -> outcome V) (scale : V -> R -> V) (comp : V -> R).
  Hypothesis Hadd : forall a b c, add a b = Ok c -> comp c = comp a + comp b.
  Hypothesis Hscale : forall a x, comp (scale a x) = comp a * x.
  Lemma integrate_component {S} (f : S -> ipdata -> S * V) s s' zero r :
    comp zero = 0 ->
    integrate cellId numIps ipCoord ipWeight coordinates numNodes interpolationDim dShape add scale f zero s = Ok (s', r) ->
    exists ips, (forall i, (i < numIps)%nat -> mkip i = Ok (ips i)) /\ s' = state_at f ips s numIps
      /\ comp r = rsum numIps (fun i => comp (snd (f (state_at f ips s i) (ips i))) * jDet (ipJac (ips i)) * ipWeight i).
  Proof.
    intros H0.
    set (dfl := mkIp 0 0 [] (mkJac 0 0 (fun _ _ => 0) (fun _ _ => 0) 0 None)).
    set (ips := fun i => match mkip i with Ok ip => ip | _ => dfl end).
    intros H. exists ips. revert s' r H. unfold integrate. induction numIps as [|n IH]; intros s' r H.
    - inversion H; subst. split; [intros; lia|]. split; [reflexivity|exact H0].
    - rewrite seq_S, integrate_app in H. apply obind_Ok in H. destruct H as ((s1, r1) & H1 & H).
      destruct (IH _ _ H1) as (Hips & Hs1 & Hr1). simpl in H. apply obind_Ok in H. destruct H as (ip & Hip & H).
      assert (Ein : ips n = ip) by (unfold ips; rewrite Hip; reflexivity).
      destruct (f s1 ip) as (s2, v) eqn:E. apply obind_Ok in H. destruct H as (r2 & Hr2 & H). inversion H; subst s' r. clear H.
      apply Hadd in Hr2. rewrite !Hscale in Hr2. split; [|split].
      + intros i Hi. destruct (Nat.eq_dec i n) as [->|]; [congruence|apply Hips; lia].
      + simpl. rewrite <- Hs1, Ein, E. reflexivity.
      + simpl. rewrite <- Hs1, Ein, E. simpl. rewrite Hr2, Hr1. reflexivity.
  Qed.
End IntGen.
