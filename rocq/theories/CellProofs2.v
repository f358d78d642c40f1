(** * Proofs about Jacobians and the evaluation caches *)
From Coq Require Import List ZArith Arith Bool Reals Lia Lra Psatz.
From Verif Require Import Outcome DofModel DofSpec DofProofs RSum CellModel CellSpec CellProofs.
Import ListNotations.
Local Open Scope R_scope.

Lemma div_dim n d : (0 < n)%nat -> ((n * d) / n)%nat = d.
Proof. intros. rewrite Nat.mul_comm. apply Nat.div_mul. lia. Qed.

Lemma jacobian_is_derivative d n coords dN i j :
  jacobian_matrix d n (fun i => nth i coords 0) dN i j = geometry_derivative d n coords dN i j.
Proof. unfold jacobian_matrix, geometry_derivative. apply rsum_ext. intros. lra. Qed.

Lemma det2_leibniz J : det2 J = leibniz 2 J.
Proof. unfold det2, leibniz. ring. Qed.
Lemma det3_leibniz J : det3 J = leibniz 3 J.
Proof. unfold det3, cof3, leibniz. simpl. ring. Qed.
Lemma leibniz_ext d A B : (forall i j, A i j = B i j) -> leibniz d A = leibniz d B.
Proof. intros H. destruct d as [|[|[|[|d]]]]; simpl; rewrite ?H; reflexivity. Qed.

Ltac idx i := destruct i as [|[|[|i]]]; try lia.

Lemma inv2_left J i j : det2 J <> 0 -> (i < 2)%nat -> (j < 2)%nat -> mmul 2 (inv2 J) J i j = kron i j.
Proof.
  intros H Hi Hj. unfold mmul, inv2, kron. assert (H' := H). unfold det2 in H'.
  idx i; idx j; cbn [rsum Nat.eqb]; unfold det2; field; exact H'.
Qed.
Lemma inv2_right J i j : det2 J <> 0 -> (i < 2)%nat -> (j < 2)%nat -> mmul 2 J (inv2 J) i j = kron i j.
Proof.
  intros H Hi Hj. unfold mmul, inv2, kron. assert (H' := H). unfold det2 in H'.
  idx i; idx j; cbn [rsum Nat.eqb]; unfold det2; field; exact H'.
Qed.
Lemma inv3_left J i j : det3 J <> 0 -> (i < 3)%nat -> (j < 3)%nat -> mmul 3 (inv3 J) J i j = kron i j.
Proof.
  intros H Hi Hj. unfold mmul, inv3, kron. assert (H' := H). unfold det3, cof3 in H'. simpl in H'.
  idx i; idx j; cbn [rsum Nat.eqb]; unfold det3, cof3; simpl; field; exact H'.
Qed.
Lemma inv3_right J i j : det3 J <> 0 -> (i < 3)%nat -> (j < 3)%nat -> mmul 3 J (inv3 J) i j = kron i j.
Proof.
  intros H Hi Hj. unfold mmul, inv3, kron. assert (H' := H). unfold det3, cof3 in H'. simpl in H'.
  idx i; idx j; cbn [rsum Nat.eqb]; unfold det3, cof3; simpl; field; exact H'.
Qed.

Theorem square_jacobian d n coords dN : (1 <= d <= 3)%nat -> (0 < n)%nat -> length coords = (n * d)%nat ->
  exists j, make_jacobian coords n d dN = Ok j
    /\ jRows j = d /\ jCols j = d
    /\ (forall a b, jGet j a b = geometry_derivative d n coords dN a b)
    /\ jDet j = leibniz d (geometry_derivative d n coords dN)
    /\ (jDet j <> 0 -> forall a b, (a < d)%nat -> (b < d)%nat ->
          mmul d (jInv j) (jGet j) a b = kron a b /\ mmul d (jGet j) (jInv j) a b = kron a b).
Proof.
  intros Hd Hn Hl. unfold make_jacobian. destruct (Nat.eqb_spec n 0) as [|_]; [lia|].
  rewrite Hl, div_dim by exact Hn. rewrite Nat.eqb_refl.
  set (J := jacobian_matrix d n (fun i => nth i coords 0) dN).
  assert (HJ : forall a b, J a b = geometry_derivative d n coords dN a b).
  { intros. apply jacobian_is_derivative. }
  destruct d as [|[|[|[|d]]]]; try lia; eexists; (split; [reflexivity|]); cbn [jRows jCols jGet jInv jDet];
    (split; [reflexivity|]); (split; [reflexivity|]); (split; [exact HJ|]);
    (split; [rewrite ?det2_leibniz, ?det3_leibniz; first [apply HJ | apply leibniz_ext; exact HJ]|]); intros H a b Ha Hb.
  - replace a with 0%nat by lia. replace b with 0%nat by lia. unfold mmul, kron. simpl. rewrite !Rplus_0_l.
    split; [apply Rinv_l|apply Rinv_r]; exact H.
  - split; [apply inv2_left|apply inv2_right]; auto.
  - split; [apply inv3_left|apply inv3_right]; auto.
Qed.

(** lines in the plane and surfaces in space *)
Lemma sqrt_pos_sq x : 0 < x -> 0 < sqrt x /\ sqrt x * sqrt x = x.
Proof. intros H. split; [apply sqrt_lt_R0; exact H|apply sqrt_sqrt; lra]. Qed.

Theorem codim1_jacobian d n coords dN : (d = 1 \/ d = 2)%nat -> (0 < n)%nat -> length coords = (n * (d + 1))%nat ->
  0 < gram (d + 1) d (geometry_derivative (d + 1) n coords dN) ->
  exists j nrm, make_jacobian coords n d dN = Ok j /\ jac_normal j = Ok nrm
    /\ jRows j = (d + 1)%nat /\ jCols j = d
    /\ (forall a b, jGet j a b = geometry_derivative (d + 1) n coords dN a b)
    /\ jDet j = sqrt (gram (d + 1) d (geometry_derivative (d + 1) n coords dN))
    /\ (forall a b, (a < d)%nat -> (b < d)%nat -> mmul (d + 1) (jInv j) (jGet j) a b = kron a b)
    /\ (forall a, (a < d)%nat -> rsum (d + 1) (fun i => jInv j a i * nrm i) = 0)
    /\ (forall b, (b < d)%nat -> rsum (d + 1) (fun i => nrm i * jGet j i b) = 0)
    /\ rsum (d + 1) (fun i => nrm i * nrm i) = 1.
Proof.
  intros Hd Hn Hl Hg. unfold make_jacobian. destruct (Nat.eqb_spec n 0) as [|_]; [lia|].
  rewrite Hl, div_dim by exact Hn. destruct (Nat.eqb_spec d (d + 1)) as [|_]; [lia|]. rewrite Nat.eqb_refl.
  set (J := jacobian_matrix (d + 1) n (fun i => nth i coords 0) dN).
  assert (HJ : forall a b, J a b = geometry_derivative (d + 1) n coords dN a b).
  { intros. apply jacobian_is_derivative. }
  assert (HG : gram (d + 1) d (geometry_derivative (d + 1) n coords dN) = gram (d + 1) d J).
  { unfold gram. destruct Hd as [-> | ->]; cbn [rsum Nat.add]; rewrite <- !HJ; reflexivity. }
  rewrite HG in *. clear HG. destruct Hd as [-> | ->]; cbn [Nat.add] in *.
  - assert (Hs : gram 2 1 J = J 1%nat 0%nat * J 1%nat 0%nat + - J 0%nat 0%nat * - J 0%nat 0%nat).
    { unfold gram. cbn [rsum]. ring. }
    unfold norm2v. rewrite Hs in *. set (x := J 0%nat 0%nat) in *. set (y := J 1%nat 0%nat) in *.
    destruct (sqrt_pos_sq _ Hg) as (Hp & Hq). set (l := sqrt (y * y + - x * - x)) in *.
    eexists; eexists. split; [reflexivity|]. split; [reflexivity|]. cbn [jRows jCols jGet jInv jDet].
    assert (Hl0 : l <> 0) by lra.
    assert (D : forall n0 n1, det2 (fun i j => match j with 0%nat => J i 0%nat | S _ => match i with 0%nat => n0 | S _ => n1 end end)
                     = x * n1 - y * n0) by (intros; unfold det2, x, y; ring).
    assert (Dv : x * (- x / l) - y * (y / l) = - l).
    { replace (x * (- x / l) - y * (y / l)) with (- (y * y + - x * - x) / l) by (field; exact Hl0).
      rewrite <- Hq. field. exact Hl0. }
    split; [reflexivity|]; split; [reflexivity|]; split; [exact HJ|]; split; [|split; [|split; [|split]]].
    + rewrite D, Dv. ring.
    + intros a b Ha Hb. replace a with 0%nat by lia. replace b with 0%nat by lia. unfold mmul, inv2, kron.
      rewrite D, Dv. cbn [rsum Nat.eqb]. fold x y.
      replace (0 + / - l * (- x / l) * x + / - l * - (y / l) * y) with ((y * y + - x * - x) / (l * l)) by (field; exact Hl0).
      rewrite <- Hq. field. exact Hl0.
    + intros a Ha. replace a with 0%nat by lia. unfold inv2. rewrite D, Dv. cbn [rsum]. field. exact Hl0.
    + intros b Hb. replace b with 0%nat by lia. cbn [rsum]. fold x y. field. exact Hl0.
    + cbn [rsum]. replace (0 + y / l * (y / l) + - x / l * (- x / l)) with ((y * y + - x * - x) / (l * l)) by (field; exact Hl0).
      rewrite <- Hq. field. exact Hl0.
  - set (ax := J 0%nat 0%nat) in *. set (ay := J 1%nat 0%nat) in *. set (az := J 2%nat 0%nat) in *.
    set (bx := J 0%nat 1%nat) in *. set (by_ := J 1%nat 1%nat) in *. set (bz := J 2%nat 1%nat) in *.
    set (cx := ay * bz - az * by_). set (cy := az * bx - ax * bz). set (cz := ax * by_ - ay * bx).
    assert (Hs : gram 3 2 J = cx * cx + cy * cy + cz * cz).
    { unfold gram. cbn [rsum]. fold ax ay az bx by_ bz. unfold cx, cy, cz. ring. }
    unfold norm3v. rewrite Hs in *.
    destruct (sqrt_pos_sq _ Hg) as (Hp & Hq). set (l := sqrt (cx * cx + cy * cy + cz * cz)) in *.
    eexists; eexists. split; [reflexivity|]. split; [reflexivity|]. cbn [jRows jCols jGet jInv jDet].
    assert (Hl0 : l <> 0) by lra.
    set (E := fun i j => match j with 0%nat => J i 0%nat | 1%nat => J i 1%nat
                 | _ => match i with 0%nat => cx / l | 1%nat => cy / l | _ => cz / l end end).
    assert (D : det3 E = l).
    { unfold det3, cof3, E. simpl. fold ax ay az bx by_ bz.
      transitivity ((cx * cx + cy * cy + cz * cz) / l); [unfold cx, cy, cz; field; exact Hl0|].
      rewrite <- Hq. field. exact Hl0. }
    assert (HD : det3 E <> 0) by (rewrite D; exact Hl0).
    split; [reflexivity|]; split; [reflexivity|]; split; [exact HJ|]; split; [|split; [|split; [|split]]].
    + exact D.
    + intros a b Ha Hb. rewrite <- (inv3_left E a b HD) by lia. unfold mmul. apply rsum_ext. intros i Hi.
      f_equal. idx b; reflexivity.
    + intros a Ha. transitivity (mmul 3 (inv3 E) E a 2%nat); [reflexivity|]. rewrite (inv3_left E a 2%nat HD) by lia.
      unfold kron. destruct (Nat.eqb_spec a 2%nat); [lia|reflexivity].
    + intros b Hb. idx b; cbn [rsum]; fold ax ay az bx by_ bz; unfold cx, cy, cz; field; exact Hl0.
    + cbn [rsum]. transitivity ((cx * cx + cy * cy + cz * cz) / (l * l)); [field; exact Hl0|].
      rewrite <- Hq. field. exact Hl0.
Qed.

Theorem other_dimensions_throw d e n coords dN : (0 < n)%nat -> length coords = (n * e)%nat ->
  (e <> d)%nat -> (e <> d + 1)%nat -> make_jacobian coords n d dN = Throw.
Proof.
  intros Hn Hl H1 H2. unfold make_jacobian. destruct (Nat.eqb_spec n 0) as [|_]; [lia|].
  rewrite Hl, div_dim by exact Hn. destruct (Nat.eqb_spec d e); [congruence|].
  destruct (Nat.eqb_spec e (d + 1)); [congruence|reflexivity].
Qed.

(** chain rule: the transformed derivatives are the only ones whose product with
    the Jacobian gives the natural derivatives *)
Theorem transform_chain_rule d (j : jacobian) (dN : mfun) (n : nat) (u : nat -> R) :
  jCols j = d -> jRows j = d ->
  (forall a b, (a < d)%nat -> (b < d)%nat -> mmul d (jInv j) (jGet j) a b = kron a b /\ mmul d (jGet j) (jInv j) a b = kron a b) ->
  let natural := fun l => rsum n (fun k => dN k l * u k) in
  let global := fun i => rsum n (fun k => transform_derivatives j dN k i * u k) in
  (forall l, (l < d)%nat -> rsum d (fun i => global i * jGet j i l) = natural l)
  /\ (forall g, (forall l, (l < d)%nat -> rsum d (fun i => g i * jGet j i l) = natural l) ->
        forall i, (i < d)%nat -> g i = global i).
Proof.
  intros Hc Hr Hinv natural global.
  assert (Hglob : forall i, global i = rsum d (fun l => natural l * jInv j l i)).
  { intros i. unfold global, transform_derivatives, natural. rewrite Hc.
    rewrite (rsum_ext n _ (fun k => rsum d (fun l => dN k l * u k * jInv j l i))).
    2:{ intros k Hk. rewrite <- rsum_scal_r. apply rsum_ext. intros. ring. }
    rewrite rsum_swap. apply rsum_ext. intros l Hl. rewrite <- rsum_scal_r. reflexivity. }
  split.
  - intros l Hl.
    rewrite (rsum_ext d _ (fun i => rsum d (fun m => natural m * (jInv j m i * jGet j i l)))).
    2:{ intros i Hi. rewrite Hglob, <- rsum_scal_r. apply rsum_ext. intros. ring. }
    rewrite rsum_swap. rewrite (rsum_single d l); [|exact Hl|].
    + rewrite rsum_scal. change (rsum d (fun i => jInv j l i * jGet j i l)) with (mmul d (jInv j) (jGet j) l l).
      rewrite (proj1 (Hinv l l Hl Hl)). unfold kron. rewrite Nat.eqb_refl. ring.
    + intros m Hm Hne. rewrite rsum_scal. change (rsum d (fun i => jInv j m i * jGet j i l)) with (mmul d (jInv j) (jGet j) m l).
      rewrite (proj1 (Hinv m l Hm Hl)). unfold kron. destruct (Nat.eqb_spec m l); [congruence|ring].
  - intros g Hg i Hi. rewrite Hglob.
    rewrite (rsum_ext d _ (fun l => rsum d (fun m => g m * (jGet j m l * jInv j l i)))).
    2:{ intros l Hl. rewrite <- (Hg l Hl), <- rsum_scal_r. apply rsum_ext. intros. ring. }
    rewrite rsum_swap. symmetry. rewrite (rsum_single d i); [|exact Hi|].
    + rewrite rsum_scal. change (rsum d (fun l => jGet j i l * jInv j l i)) with (mmul d (jGet j) (jInv j) i i).
      rewrite (proj2 (Hinv i i Hi Hi)). unfold kron. rewrite Nat.eqb_refl. ring.
    + intros m Hm Hne. rewrite rsum_scal. change (rsum d (fun l => jGet j m l * jInv j l i)) with (mmul d (jGet j) (jInv j) m i).
      rewrite (proj2 (Hinv m i Hm Hi)). unfold kron. destruct (Nat.eqb_spec m i); [congruence|ring].
Qed.

(** ** Caches *)
Section CacheProofs.
  Context {M V Op : Type} (msize : M -> nat) (vsize : V -> nat) (m0 : M) (v0 : V) (mul : M -> V -> V).
  Hypothesis Hm0 : msize m0 = 0%nat.
  Hypothesis Hv0 : vsize v0 = 0%nat.
  Variables (elN : Z -> outcome M) (elB : Z -> Op -> outcome M) (elV : Z -> nat -> outcome V).

  Definition cache_ok (rs : list (@request Op)) (c : @cache M V) : Prop :=
    dsorted (cN c) /\ dsorted (cB c) /\ dsorted (cV c)
    /\ (forall d x, mfind lt_dof d (cN c) = Some x -> msize x <> 0%nat -> elN d = Ok x)
    /\ (forall d x, mfind lt_dof d (cB c) = Some x -> msize x <> 0%nat ->
          exists r op, In r rs /\ uses r = Some (d, op) /\ elB d op = Ok x)
    /\ (forall d vs k, mfind lt_dof d (cV c) = Some vs -> vsize (nth k vs v0) <> 0%nat -> elV d k = Ok (nth k vs v0)).

  Lemma dset_find {A} k k0 (v : A) m : dsorted m -> mfind lt_dof k (mset lt_dof k0 v m) = if Z.eqb k k0 then Some v else mfind lt_dof k m.
  Proof.
    intros H. rewrite dfind_dset by exact H. destruct (Z.eqb_spec k k0), (Z.eqb_spec k0 k); congruence.
  Qed.

  Lemma get_N_ok rs c d : cache_ok rs c ->
    cache_ok rs (fst (get_N msize m0 elN c d)) /\ snd (get_N msize m0 elN c d) = elN d.
  Proof.
    intros (S1 & S2 & S3 & HN & HB & HV). unfold get_N, dc_index.
    assert (Hins : dsorted (mset lt_dof d m0 (cN c))) by (apply dsorted_mset; exact S1).
    destruct (mfind lt_dof d (cN c)) as [cur|] eqn:E.
    - destruct (Nat.eqb_spec (msize cur) 0) as [Hz|Hz].
      + destruct (elN d) as [x| |] eqn:Ed; simpl; (split; [|reflexivity]); (split; [|split; [|split; [|split; [|split]]]]); simpl; auto.
        * apply dsorted_mset; exact S1.
        * intros d' x' Hf Hs. rewrite dset_find in Hf by exact S1. destruct (Z.eqb_spec d' d) as [->|]; [|eauto].
          inversion Hf; subst. exact Ed.
      + simpl. split; [split; [|split; [|split; [|split; [|split]]]]; auto|]. symmetry. apply HN; assumption.
    - rewrite Hm0. simpl. destruct (elN d) as [x| |] eqn:Ed; simpl; (split; [|reflexivity]); (split; [|split; [|split; [|split; [|split]]]]); simpl; auto.
      + apply dsorted_mset; exact Hins.
      + intros d' x' Hf Hs. rewrite !dset_find in Hf by assumption. destruct (Z.eqb_spec d' d) as [->|]; [|eauto].
        inversion Hf; subst. exact Ed.
      + intros d' x' Hf Hs. rewrite dset_find in Hf by assumption. destruct (Z.eqb_spec d' d) as [->|]; [|eauto].
        inversion Hf; subst. congruence.
      + intros d' x' Hf Hs. rewrite dset_find in Hf by assumption. destruct (Z.eqb_spec d' d) as [->|]; [|eauto].
        inversion Hf; subst. congruence.
  Qed.

  Lemma get_B_ok rs c d op r : one_operator rs -> In r rs -> uses r = Some (d, op) -> cache_ok rs c ->
    cache_ok rs (fst (get_B msize m0 elB c d op)) /\ snd (get_B msize m0 elB c d op) = elB d op.
  Proof.
    intros Hone Hin Hu (S1 & S2 & S3 & HN & HB & HV). unfold get_B, dc_index.
    assert (Hins : dsorted (mset lt_dof d m0 (cB c))) by (apply dsorted_mset; exact S2).
    destruct (mfind lt_dof d (cB c)) as [cur|] eqn:E.
    - destruct (Nat.eqb_spec (msize cur) 0) as [Hz|Hz].
      + destruct (elB d op) as [x| |] eqn:Ed; simpl; (split; [|reflexivity]); (split; [|split; [|split; [|split; [|split]]]]); simpl; auto.
        * apply dsorted_mset; exact S2.
        * intros d' x' Hf Hs. rewrite dset_find in Hf by exact S2. destruct (Z.eqb_spec d' d) as [->|]; [|eauto].
          inversion Hf; subst. exists r, op. auto.
      + simpl. split; [split; [|split; [|split; [|split; [|split]]]]; auto|]. destruct (HB d cur E Hz) as (r' & op' & Hr' & Hu' & He).
        rewrite (Hone r r' d op op' Hin Hr' Hu Hu'). symmetry. exact He.
    - rewrite Hm0. simpl. destruct (elB d op) as [x| |] eqn:Ed; simpl; (split; [|reflexivity]); (split; [|split; [|split; [|split; [|split]]]]); simpl; auto.
      + apply dsorted_mset; exact Hins.
      + intros d' x' Hf Hs. rewrite !dset_find in Hf by assumption. destruct (Z.eqb_spec d' d) as [->|]; [|eauto].
        inversion Hf; subst. exists r, op. auto.
      + intros d' x' Hf Hs. rewrite dset_find in Hf by assumption. destruct (Z.eqb_spec d' d) as [->|]; [|eauto].
        inversion Hf; subst. congruence.
      + intros d' x' Hf Hs. rewrite dset_find in Hf by assumption. destruct (Z.eqb_spec d' d) as [->|]; [|eauto].
        inversion Hf; subst. congruence.
  Qed.

  Lemma put_at_nth (l : list V) n k x : nth k (put_at l n x) v0 = if Nat.eqb k n then (if Nat.ltb n (length l) then x else v0) else nth k l v0.
  Proof.
    revert n k. induction l as [|y l IH]; intros n k; simpl.
    - destruct (Nat.eqb k n); destruct k; reflexivity.
    - destruct n as [|n], k as [|k]; simpl; auto. rewrite IH. reflexivity.
  Qed.
  Lemma nth_repeat_app (l : list V) k m : nth k (l ++ repeat v0 m) v0 = nth k l v0.
  Proof.
    destruct (Nat.lt_ge_cases k (length l)).
    - apply app_nth1. exact H.
    - rewrite app_nth2 by exact H. rewrite nth_repeat. symmetry. apply nth_overflow. exact H.
  Qed.

  Lemma get_V_ok rs c d k : cache_ok rs c ->
    cache_ok rs (fst (get_V vsize v0 elV c d k)) /\ snd (get_V vsize v0 elV c d k) = elV d k.
  Proof.
    intros (S1 & S2 & S3 & HN & HB & HV). unfold get_V.
    assert (exists vs m1, @dc_index (list V) [] (cV c) d = (vs, m1) /\ dsorted m1
       /\ (forall k, vsize (nth k vs v0) <> 0%nat -> elV d k = Ok (nth k vs v0))
       /\ (forall d' vs k, d' <> d -> mfind lt_dof d' m1 = Some vs -> vsize (nth k vs v0) <> 0%nat -> elV d' k = Ok (nth k vs v0)))
      as (vs & m1 & Ei & Sm & Hvs & Hoth).
    { unfold dc_index. destruct (mfind lt_dof d (cV c)) as [vs|] eqn:E.
      - exists vs, (cV c). repeat split; eauto.
      - exists [], (mset lt_dof d [] (cV c)). repeat split.
        + apply dsorted_mset; exact S3.
        + intros k' Hk'. destruct k'; simpl in Hk'; congruence.
        + intros d' vs k' Hne Hf. rewrite dset_find in Hf by exact S3.
          destruct (Z.eqb_spec d' d); [congruence|]. eapply HV; eauto. }
    rewrite Ei. set (vs' := if Nat.leb (length vs) k then vs ++ repeat v0 (k + 1 - length vs) else vs).
    assert (Hn : forall i, nth i vs' v0 = nth i vs v0).
    { intros i. unfold vs'. destruct (Nat.leb (length vs) k); [apply nth_repeat_app|reflexivity]. }
    assert (Hlen : (k < length vs')%nat).
    { unfold vs'. destruct (Nat.leb_spec (length vs) k); [|assumption]. rewrite app_length, repeat_length. lia. }
    destruct (Nat.eqb_spec (vsize (nth k vs' v0)) 0) as [Hz|Hz].
    - destruct (elV d k) as [x| |] eqn:Ed; simpl; (split; [|reflexivity]); (split; [|split; [|split; [|split; [|split]]]]); simpl; auto;
        try (apply dsorted_mset; exact Sm).
      + intros d' ws i Hf Hs. rewrite dset_find in Hf by exact Sm. destruct (Z.eqb_spec d' d) as [->|]; [|eapply Hoth; eauto].
        injection Hf as Hf'. subst ws. rewrite put_at_nth in Hs |- *. destruct (Nat.eqb_spec i k) as [Eik|].
        * rewrite Eik in *. destruct (Nat.ltb_spec k (length vs')); [exact Ed|lia].
        * rewrite Hn in Hs |- *. apply Hvs. exact Hs.
      + intros d' ws i Hf Hs. rewrite dset_find in Hf by exact Sm. destruct (Z.eqb_spec d' d) as [->|]; [|eapply Hoth; eauto].
        injection Hf as Hf'. subst ws. rewrite Hn in Hs |- *. apply Hvs. exact Hs.
      + intros d' ws i Hf Hs. rewrite dset_find in Hf by exact Sm. destruct (Z.eqb_spec d' d) as [->|]; [|eapply Hoth; eauto].
        injection Hf as Hf'. subst ws. rewrite Hn in Hs |- *. apply Hvs. exact Hs.
    - simpl. split.
      + split; [|split; [|split; [|split; [|split]]]]; simpl; auto; try (apply dsorted_mset; exact Sm).
        intros d' ws i Hf Hs. rewrite dset_find in Hf by exact Sm. destruct (Z.eqb_spec d' d) as [->|]; [|eapply Hoth; eauto].
        injection Hf as Hf'. subst ws. rewrite Hn in Hs |- *. apply Hvs. exact Hs.
      + rewrite Hn in *. symmetry. apply Hvs. exact Hz.
  Qed.

  Lemma serve_ok rs c r : one_operator rs -> In r rs -> cache_ok rs c ->
    cache_ok rs (fst (serve msize vsize m0 v0 mul elN elB elV c r))
    /\ snd (serve msize vsize m0 v0 mul elN elB elV c r) = direct mul elN elB elV r.
  Proof.
    intros Hone Hin Hc. destruct r as [d|d op|d k|d k|d op k]; simpl.
    - destruct (get_N_ok rs c d Hc) as (H1 & H2). destruct (get_N _ _ _ c d). simpl in *. subst. auto.
    - destruct (get_B_ok rs c d op _ Hone Hin eq_refl Hc) as (H1 & H2). destruct (get_B _ _ _ c d op). simpl in *. subst. auto.
    - destruct (get_V_ok rs c d k Hc) as (H1 & H2). destruct (get_V _ _ _ c d k). simpl in *. subst. auto.
    - destruct (get_N_ok rs c d Hc) as (H1 & H2). destruct (get_N _ _ _ c d) as (c1 & m). simpl in *. subst m.
      destruct (elN d) as [x| |]; simpl; auto.
      destruct (get_V_ok rs c1 d k H1) as (H3 & H4). destruct (get_V _ _ _ c1 d k) as (c2 & v). simpl in *. subst. auto.
    - destruct (get_B_ok rs c d op _ Hone Hin eq_refl Hc) as (H1 & H2). destruct (get_B _ _ _ c d op) as (c1 & m). simpl in *. subst m.
      destruct (elB d op) as [x| |]; simpl; auto.
      destruct (get_V_ok rs c1 d k H1) as (H3 & H4). destruct (get_V _ _ _ c1 d k) as (c2 & v). simpl in *. subst. auto.
  Qed.

  Theorem cache_transparent rs : one_operator rs ->
    serve_all msize vsize m0 v0 mul elN elB elV cache_empty rs = map (direct mul elN elB elV) rs.
  Proof.
    intros Hone.
    assert (G : forall l c, incl l rs -> cache_ok rs c ->
      serve_all msize vsize m0 v0 mul elN elB elV c l = map (direct mul elN elB elV) l).
    { induction l as [|r l IH]; intros c Hincl Hc; [reflexivity|]. simpl.
      destruct (serve_ok rs c r Hone (Hincl r (or_introl eq_refl)) Hc) as (H1 & H2).
      destruct (serve _ _ _ _ _ _ _ _ c r) as (c' & a). simpl in *. subst. f_equal. apply IH; [|exact H1].
      intros y Hy. apply Hincl. right. exact Hy. }
    apply G; [intros y Hy; exact Hy|]. repeat split; simpl; try constructor; intros; discriminate.
  Qed.
End CacheProofs.
