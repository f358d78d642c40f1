(** * Proofs for C99 *)
From Coq Require Import List Arith ZArith Reals Lra Lia.
From Coquelicot Require Import Coquelicot.
From Verif Require Import Outcome RSum CellModel CellSpec CellProofs CellProofs2 ElasticModel IntegrandModel InterpolationModel
  InterpolationSpec PropInterpolation EquilibriumModel EquilibriumSpec.
From Coq Require Import List.
Import ListNotations.
Local Open Scope R_scope.

(** ** Derivatives of a partition of unity add up to zero *)
Lemma rlsum_nth l n : length l = n -> rlsum l = rsum n (fun k => nth k l 0).
Proof.
  revert n. induction l as [|a l IH]; intros n H; simpl in H; subst n; [reflexivity|].
  rewrite rsum_front. cbn [nth]. rewrite <- (IH (length l) eq_refl). reflexivity.
Qed.
Lemma is_derive_rsum n (f : nat -> R -> R) (df : nat -> R) x :
  (forall k, (k < n)%nat -> is_derive (f k) x (df k)) -> is_derive (fun t => rsum n (fun k => f k t)) x (rsum n df).
Proof.
  induction n as [|n IH]; intros H.
  - cbn [rsum]. apply @is_derive_const.
  - cbn [rsum]. apply @is_derive_plus; [apply IH; intros; apply H; lia|apply H; lia].
Qed.
Lemma partition_derivative sh de dim n x l : (l < dim)%nat -> (forall y, length (sh y) = n) -> partition_of_unity sh ->
  gradient_at dim sh de x -> rsum n (fun k => nth l (nth k (de x) []) 0) = 0.
Proof.
  intros Hl Hn Hp (_ & Hg).
  assert (D : is_derive (fun t => rsum n (fun k => nth k (sh (move x l t)) 0)) (x l) (rsum n (fun k => nth l (nth k (de x) []) 0))).
  { apply is_derive_rsum. intros k Hk. apply Hg; [rewrite Hn; exact Hk|exact Hl]. }
  assert (D0 : is_derive (fun t => rsum n (fun k => nth k (sh (move x l t)) 0)) (x l) 0).
  { apply (is_derive_ext (fun _ => 1)); [|apply @is_derive_const].
    intros t. symmetry. rewrite <- (rlsum_nth _ n (Hn _)). apply Hp. }
  rewrite <- (is_derive_unique _ _ _ D). apply is_derive_unique. exact D0.
Qed.

Lemma element_lengths : Forall (fun e => (forall x, length (e_shape e x) = length (e_nodes e)) /\ (0 < length (e_nodes e))%nat /\ (1 <= e_dim e <= 3)%nat) (pyramid_linear :: exact_elements).
Proof. repeat (apply List.Forall_cons; [split; [intros x|split; cbn; lia]|]); [..|apply List.Forall_nil]; reflexivity.
Qed.

Lemma usable_facts e numIps ipCoord : usable e numIps ipCoord ->
  (0 < length (e_nodes e))%nat /\ (1 <= e_dim e <= 3)%nat /\
  forall q, (q < numIps)%nat -> forall l, (l < e_dim e)%nat ->
    rsum (length (e_nodes e)) (fun k => as_matrix (e_deriv e (as_point (ipCoord q))) k l) = 0.
Proof.
  intros U.
  assert (I : In e (pyramid_linear :: exact_elements)) by (destruct U as [U|[-> _]]; [right; exact U|left; reflexivity]).
  destruct (proj1 (Forall_forall _ _) element_lengths e I) as (L & P & D).
  pose proof (proj1 (Forall_forall _ _) C36_partition_of_unity e I) as Pu.
  split; [exact P|]. split; [exact D|]. intros q Hq l Hl. unfold as_matrix.
  apply (partition_derivative (e_shape e) (e_deriv e) (e_dim e)); [exact Hl|exact L|exact Pu|].
  destruct U as [U|[-> Hp]].
  - apply (proj1 (Forall_forall _ _) C38_gradient e U).
  - apply C38_pyramid. left. apply Hp. exact Hq.
Qed.

(** ** The integration loops *)
Section Loops.
  Variables (cellId : Z) (ipCoord : nat -> list R) (ipWeight : nat -> R) (coords : list R) (nn dim : nat) (dSh : list R -> mfun).
  Variable ip : nat -> ipdata.
  Let detw (q : nat) : R := jDet (ipJac (ip q)) * ipWeight q.

  Lemma vec_loop_Ok (g : ipdata -> outcome vec) (gs : nat -> vec) ips :
    (forall q, In q ips -> make_ip cellId ipCoord coords nn dim dSh q = Ok (ip q)) ->
    (forall q, In q ips -> g (ip q) = Ok (gs q)) ->
    forall r, exists h, obind (integrate_loop cellId ipCoord ipWeight coords nn dim dSh vec_add vec_scale (fun (_ : unit) p => (tt, g p)) ips tt (Ok r)) snd = Ok h
      /\ forall i, h i = r i + rlsum (map (fun q => gs q i * detw q) ips).
  Proof.
    induction ips as [|q ips IH]; intros Hm Hg r; cbn [integrate_loop obind].
    - exists r. split; [reflexivity|]. intros i. cbn. lra.
    - rewrite (Hm q) by (left; reflexivity). cbn [obind]. rewrite (Hg q) by (left; reflexivity).
      unfold vec_scale. cbn [omap obind vec_add].
      destruct (IH (fun q' H => Hm q' (or_intror H)) (fun q' H => Hg q' (or_intror H))
                   (fun i => r i + gs q i * jDet (ipJac (ip q)) * ipWeight q)) as (h & E & V).
      exists h. split; [exact E|]. intros i. rewrite V. unfold detw. cbn [map rlsum fold_right]. unfold rlsum. cbn [fold_right]. lra.
  Qed.
  Lemma vec_loop_inv (g : ipdata -> outcome vec) ips :
    (forall q, In q ips -> make_ip cellId ipCoord coords nn dim dSh q = Ok (ip q)) ->
    forall r f, obind (integrate_loop cellId ipCoord ipWeight coords nn dim dSh vec_add vec_scale (fun (_ : unit) p => (tt, g p)) ips tt (Ok r)) snd = Ok f ->
    forall q, In q ips -> exists v, g (ip q) = Ok v.
  Proof.
    induction ips as [|q ips IH]; intros Hm r f H q' Hq'; [destruct Hq'|].
    cbn [integrate_loop] in H. rewrite (Hm q) in H by (left; reflexivity). cbn [obind] in H.
    destruct (g (ip q)) as [v| |] eqn:E; unfold vec_scale in H; cbn [omap obind vec_add] in H; try discriminate.
    destruct Hq' as [<-|Hq']; [eauto|]. eapply IH; [|exact H|exact Hq']. intros. apply Hm. right. assumption.
  Qed.
  Lemma mat_loop_Ok (g : ipdata -> outcome mat) (gs : nat -> mat) ips :
    (forall q, In q ips -> make_ip cellId ipCoord coords nn dim dSh q = Ok (ip q)) ->
    (forall q, In q ips -> g (ip q) = Ok (gs q)) ->
    forall r, exists h, obind (integrate_loop cellId ipCoord ipWeight coords nn dim dSh mat_add mat_scale (fun (_ : unit) p => (tt, g p)) ips tt (Ok r)) snd = Ok h
      /\ forall i j, h i j = r i j + rlsum (map (fun q => gs q i j * detw q) ips).
  Proof.
    induction ips as [|q ips IH]; intros Hm Hg r; cbn [integrate_loop obind].
    - exists r. split; [reflexivity|]. intros i j. cbn. lra.
    - rewrite (Hm q) by (left; reflexivity). cbn [obind]. rewrite (Hg q) by (left; reflexivity).
      unfold mat_scale. cbn [omap obind mat_add].
      destruct (IH (fun q' H => Hm q' (or_intror H)) (fun q' H => Hg q' (or_intror H))
                   (fun i j => r i j + gs q i j * jDet (ipJac (ip q)) * ipWeight q)) as (h & E & V).
      exists h. split; [exact E|]. intros i j. rewrite V. unfold detw, rlsum. cbn [map fold_right]. lra.
  Qed.
  Lemma eval_loop_Ok (g : ipdata -> outcome vec) ips :
    (forall q, In q ips -> make_ip cellId ipCoord coords nn dim dSh q = Ok (ip q)) ->
    forall l, eval_loop cellId ipCoord coords nn dim dSh (fun (_ : unit) p => (tt, g p)) ips tt l = Ok (tt, l ++ map (fun q => g (ip q)) ips).
  Proof.
    induction ips as [|q ips IH]; intros Hm l; cbn [eval_loop map].
    - rewrite app_nil_r. reflexivity.
    - rewrite (Hm q) by (left; reflexivity). cbn [obind]. rewrite IH by (intros; apply Hm; right; assumption).
      rewrite <- app_assoc. reflexivity.
  Qed.
End Loops.

Lemma nabla_strain_ok d n dN : (1 <= d <= 3)%nat -> exists B, nabla_strain d n dN = Ok (Voigt_Dim d, B).
Proof. intros H. destruct d as [|[|[|[|d]]]]; try lia; eexists; reflexivity. Qed.

Lemma voigt_length d G : (1 <= d <= 3)%nat -> length (voigt_components d G) = Voigt_Dim d.
Proof. intros H. destruct d as [|[|[|[|d]]]]; try lia; reflexivity. Qed.
Lemma voigt_skew d G : (1 <= d <= 3)%nat -> skew d G -> voigt_components d G = repeat 0 (Voigt_Dim d).
Proof.
  intros H S. assert (E : forall i j, (i < d)%nat -> (j < d)%nat -> eps G i j = 0) by (intros i j Hi Hj; unfold eps; rewrite (S i j Hi Hj); lra).
  destruct d as [|[|[|[|d]]]]; try lia; unfold voigt_components; rewrite !E by lia; cbn; repeat apply f_equal2; try reflexivity; lra.
Qed.
Lemma voigt_zero_skew d G : (1 <= d <= 3)%nat -> voigt_components d G = repeat 0 (Voigt_Dim d) -> skew d G.
Proof.
  intros H E i j Hi Hj. destruct d as [|[|[|[|d]]]]; try lia; unfold voigt_components, eps in E; cbn in E; injection E; intros;
    destruct i as [|[|[|i]]]; destruct j as [|[|[|j]]]; try lia; lra.
Qed.
Lemma voigt_ext d G G' : (1 <= d <= 3)%nat -> (forall i j, (i < d)%nat -> (j < d)%nat -> G i j = G' i j) -> voigt_components d G = voigt_components d G'.
Proof. intros H E. destruct d as [|[|[|[|d]]]]; try lia; unfold voigt_components, eps; rewrite !E by lia; reflexivity. Qed.

Lemma map_eq_nth n (f g : nat -> R) : map f (seq 0 n) = map g (seq 0 n) <-> forall i, (i < n)%nat -> f i = g i.
Proof.
  split; intros H.
  - intros i Hi. assert (N : forall h : nat -> R, nth i (map h (seq 0 n)) 0 = h i).
    { intros h. rewrite (nth_indep _ 0 (h 0%nat)) by (rewrite map_length, seq_length; lia). rewrite map_nth, seq_nth by lia. reflexivity. }
    rewrite <- (N f), H. apply N.
  - apply map_ext_in. intros i Hi. apply in_seq in Hi. apply H. lia.
Qed.
Lemma repeat_map n : repeat 0 n = map (fun _ => 0) (seq 0 n).
Proof. induction n as [|n IH]; [reflexivity|]. cbn [repeat seq map]. rewrite <- seq_shift, map_map, <- IH. reflexivity. Qed.
