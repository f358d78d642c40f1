(** C15 and C16 *)
From Coq Require Import List ZArith Arith Bool Lia Reals Lra.
From Flocq Require Import Core Relative.
From Verif Require Import Algebra Outcome DofModel DofSpec DofProofs
  ConstraintModel ConstraintSpec ConstraintProofs ConstraintProofs2.
Import ListNotations.
Local Open Scope R_scope.

(** ** C15 *)
Lemma sparse_rhs_loop_spec conv h N num t es : forall acc, dsorted acc ->
  (forall e, In e es -> dof_number h (edep e) = Ok (Z.of_nat (num (edep e))) /\ (num (edep e) < N)%nat) ->
  NoDup (map (fun e => num (edep e)) es) ->
  exists v, sparse_rhs_loop conv h N es t acc = Ok v /\ dsorted v /\
    forall i, sparse_at v i = match find (fun e => Nat.eqb (num (edep e)) i) es with
                              | Some e => conv (erhs e t) | None => sparse_at acc i end.
Proof.
  induction es as [|e es IH]; intros acc Hs Hn Hnd; cbn [sparse_rhs_loop find].
  - exists acc. auto.
  - destruct (Hn e) as (-> & Hlt); [simpl; auto|]. cbn [obind].
    destruct (Z.ltb_spec (Z.of_nat (num (edep e))) 0); [lia|].
    destruct (Z.leb_spec (Z.of_nat N) (Z.of_nat (num (edep e)))); [lia|].
    simpl in Hnd. inversion Hnd as [|? ? Hni Hnd']; subst.
    destruct (IH (mset lt_dof (Z.of_nat (num (edep e))) (conv (erhs e t)) acc)) as (v & -> & Hv & Hval); auto.
    { apply dsorted_mset; auto. }
    { intros; apply Hn; simpl; auto. }
    exists v. split; auto. split; auto. intros i. rewrite Hval.
    destruct (Nat.eqb_spec (num (edep e)) i) as [Heq|Hne].
    + destruct (find _ es) as [e'|] eqn:Ef.
      * exfalso. apply find_some in Ef. destruct Ef as (He' & E). apply Nat.eqb_eq in E.
        apply Hni. rewrite Heq, <- E. apply in_map_iff. exists e'; auto.
      * unfold sparse_at. rewrite dfind_dset by auto. rewrite Heq, Z.eqb_refl. auto.
    + destruct (find _ es); auto. unfold sparse_at. rewrite dfind_dset by auto.
      destruct (Z.eqb_spec (Z.of_nat i) (Z.of_nat (num (edep e)))); auto. lia.
Qed.

Lemma to_float_zero : to_float 0 = 0.
Proof. unfold to_float. apply round_0. apply valid_rnd_N. Qed.

Lemma accepted_numbers ops h dof N num : no_self_reference ops ->
  numbered h (equations (cons_run cons_empty ops) dof) N num ->
  (forall e, In e (equations (cons_run cons_empty ops) dof) ->
     dof_number h (edep e) = Ok (Z.of_nat (num (edep e))) /\ (num (edep e) < N)%nat) /\
  NoDup (map (fun e => num (edep e)) (equations (cons_run cons_empty ops) dof)).
Proof.
  intros Hns Hnum. pose proof (cons_run_refines ops) as HR. destruct (accepted_full ops Hns) as (Hnd & _).
  split; [intros e He; apply (proj1 Hnum e); simpl; auto|].
  apply (dep_NoDup h _ N num Hnum). rewrite (rl_eqs _ _ HR). unfold log_of. rewrite map_map. clear -Hnd.
  induction (log_run ops) as [|p l IH]; simpl in *; [constructor|]. inversion Hnd; subst.
  destruct (Z.eqb (fst p) dof); simpl; auto. constructor; auto.
  intros Hi. apply H1. apply in_map_iff in Hi. destruct Hi as (q & He & Hq). apply filter_In in Hq.
  apply in_map_iff. exists q; tauto.
Qed.

Lemma sparse_global_rhs_lemma ops h dof N num t : no_self_reference ops ->
  numbered h (equations (cons_run cons_empty ops) dof) N num ->
  exists v, sparse_global_rhs h (cons_run cons_empty ops) dof N t = Ok v /\
    forall i, sparse_at v i = to_float (prescribed num (equations (cons_run cons_empty ops) dof) t i).
Proof.
  intros Hns Hnum. destruct (accepted_numbers ops h dof N num Hns Hnum) as (H1 & H2).
  destruct (sparse_rhs_loop_spec to_float h N num t (equations (cons_run cons_empty ops) dof) [])
    as (v & Hv & _ & Hval); auto; [constructor|].
  exists v. split; auto. intros i. rewrite Hval. unfold prescribed.
  destruct (find _ _); auto. unfold sparse_at; simpl. rewrite to_float_zero. auto.
Qed.

Definition float_representable (x : R) : Prop := generic_format radix2 (FLT_exp (-149) 24) x.

Lemma to_float_exact x : float_representable x -> to_float x = x.
Proof. intros H. unfold to_float. apply round_generic; auto. apply valid_rnd_N. Qed.

Lemma to_float_error x : bpow radix2 (-126) <= Rabs x -> Rabs (to_float x - x) <= bpow radix2 (-24) * Rabs x.
Proof.
  intros H. unfold to_float.
  pose proof (relative_error_N_FLT radix2 (-149) 24 ltac:(lia) (fun z => negb (Z.even z)) x H) as E.
  replace (bpow radix2 (-24)) with (/ 2 * bpow radix2 (-24 + 1)); [exact E|].
  rewrite bpow_plus. simpl bpow at 2. simpl. lra.
Qed.

(** 1 + 2^-30 is a double but not a float *)
Definition c15_value : R := 1 + bpow radix2 (-30).

Lemma c15_not_float : ~ float_representable c15_value.
Proof.
  unfold float_representable. intros H.
  assert (Hp : Prec_gt_0 24) by reflexivity.
  destruct (FLT_format_generic radix2 (-149) 24 _ H) as [[m e] Hx Hm He].
  simpl in Hm, He. unfold F2R in Hx. simpl in Hx.
  assert (Hv : c15_value = IZR 1073741825 * bpow radix2 (-30)).
  { unfold c15_value. assert (E : bpow radix2 30 * bpow radix2 (-30) = 1) by (rewrite <- bpow_plus; reflexivity).
    rewrite <- E at 1.
    replace (bpow radix2 30) with 1073741824 by (simpl; lra). replace (IZR 1073741825) with (1073741824 + 1) by lra. ring. }
  rewrite Hv in Hx.
  destruct (Z_lt_le_dec (-30) e) as [Hlt|Hge].
  - (* m * 2^(e+30) = 2^30 + 1 *)
    assert (E : (1073741825 = m * 2 ^ (e + 30))%Z).
    { apply eq_IZR. rewrite mult_IZR. replace (IZR (2 ^ (e + 30))) with (bpow radix2 (e + 30))
        by (rewrite <- IZR_Zpower by lia; reflexivity).
      rewrite bpow_plus, <- Rmult_assoc, <- Hx, Rmult_assoc, <- bpow_plus. simpl bpow. ring. }
    replace (e + 30)%Z with (1 + (e + 29))%Z in E by lia. rewrite Z.pow_add_r in E by lia.
    assert (Hodd : Z.odd 1073741825 = true) by reflexivity. rewrite E, !Z.odd_mul in Hodd. simpl in Hodd.
    rewrite andb_false_r in Hodd. discriminate.
  - assert (E : (1073741825 * 2 ^ (-30 - e) = m)%Z).
    { apply eq_IZR. rewrite mult_IZR. replace (IZR (2 ^ (-30 - e))) with (bpow radix2 (-30 - e))
        by (rewrite <- IZR_Zpower by lia; reflexivity).
      replace (-30 - e)%Z with (-30 + - e)%Z by lia. rewrite bpow_plus, <- Rmult_assoc, Hx, Rmult_assoc, <- bpow_plus.
      replace (e + - e)%Z with 0%Z by lia. simpl. ring. }
    assert (1 <= 2 ^ (-30 - e))%Z by (pose proof (Z.pow_pos_nonneg 2 (-30 - e)); lia).
    assert (m < 16777216)%Z by lia. lia.
Qed.

(** ** C16 *)
Lemma max_abs_from_spec l : forall best bv i all,
  (best < i)%nat -> bv = Rabs (nth best all 0) -> (forall k, (k < i)%nat -> Rabs (nth k all 0) <= bv) ->
  skipn i all = l -> (i <= length all)%nat ->
  let '(m, v) := max_abs_from best bv i l in
  (m < length all)%nat /\ v = Rabs (nth m all 0) /\ forall k, (k < length all)%nat -> Rabs (nth k all 0) <= v.
Proof.
  induction l as [|x l IH]; intros best bv i all Hb Hbv Hmax Hs Hi; simpl.
  - assert (length all <= i)%nat.
    { assert (length (skipn i all) = 0)%nat by (rewrite Hs; auto). rewrite skipn_length in H. lia. }
    split; [lia|]. split; auto. intros k Hk. apply Hmax. lia.
  - assert (Hx : nth i all 0 = x).
    { rewrite <- (firstn_skipn i all), Hs. rewrite app_nth2; rewrite firstn_length; [|lia].
      replace (i - Nat.min i (length all))%nat with 0%nat by lia. auto. }
    assert (Hl : (S i <= length all)%nat).
    { assert (length (skipn i all) = S (length l)) by (rewrite Hs; auto). rewrite skipn_length in H. lia. }
    assert (Hs' : skipn (S i) all = l).
    { replace (S i) with (i + 1)%nat by lia. rewrite <- skipn_plus, Hs. reflexivity. }
    destruct (Rlt_dec bv (Rabs x)) as [Hlt|Hge].
    + apply IH; auto; try lia.
      * rewrite Hx. auto.
      * intros k Hk. destruct (Nat.eq_dec k i) as [->|]; [rewrite Hx; lra|].
        apply Rle_trans with bv; [apply Hmax; lia|lra].
    + apply IH; auto; try lia. intros k Hk.
      destruct (Nat.eq_dec k i) as [->|]; [rewrite Hx; lra|]. apply Hmax. lia.
Qed.

Lemma max_abs_spec d : d <> [] -> exists m v, max_abs d = Some (m, v) /\ (m < length d)%nat /\
  v = Rabs (nth m d 0) /\ forall k, (k < length d)%nat -> Rabs (nth k d 0) <= v.
Proof.
  destruct d as [|x d]; [congruence|]. intros _. unfold max_abs.
  pose proof (max_abs_from_spec d 0 (Rabs x) 1 (x :: d)) as H.
  destruct (max_abs_from 0 (Rabs x) 1 d) as [m v]. exists m, v. split; auto. apply H; auto; simpl; try lia.
  intros k Hk. assert (k = 0)%nat by lia. subst. lra.
Qed.

(** sum over the components other than [m] *)
Fixpoint others (m i : nat) (l u : list R) : R :=
  match l with
  | [] => 0
  | x :: l' => (if Nat.eqb i m then 0 else x * nth i u 0) + others m (S i) l' u
  end.

Lemma others_dot_gen m l : forall i u, (i <= m < i + length l)%nat -> (i + length l <= length u)%nat ->
  others m i l u = dot l (skipn i u) - nth (m - i) l 0 * nth m u 0.
Proof.
  assert (Hdot : forall x l i u, (i < length u)%nat -> dot (x :: l) (skipn i u) = x * nth i u 0 + dot l (skipn (S i) u)).
  { intros x l' i u Hi. unfold dot.
    assert (E : skipn i u = nth i u 0 :: skipn (S i) u).
    { clear -Hi. revert u Hi; induction i as [|i IH]; intros [|y u] Hi; simpl in *; try lia; auto. apply IH; lia. }
    rewrite E. simpl. auto. }
  assert (Hrest : forall l i u, (m < i)%nat -> (i + length l <= length u)%nat -> others m i l u = dot l (skipn i u)).
  { clear l. induction l as [|x l IH]; intros i u Hm Hu; simpl in Hu; [reflexivity|].
    rewrite Hdot by lia. simpl others. rewrite IH by lia. destruct (Nat.eqb_spec i m); [lia|]. auto. }
  induction l as [|x l IH]; intros i u Hm Hu; simpl in Hm, Hu; [lia|].
  rewrite Hdot by lia. simpl others. destruct (Nat.eqb_spec i m) as [->|Hne].
  - rewrite Hrest by lia. rewrite Nat.sub_diag. simpl. ring.
  - rewrite IH by lia. replace (m - i)%nat with (S (m - S i)) by lia. simpl. ring.
Qed.

Lemma direction_terms_spec h node m dm l : forall i,
  (i + length l <= length (h node))%nat ->
  exists ts, direction_terms h node m dm i l = Ok ts /\
    forall u : list R, fold_right (fun tm s => coef tm * nth (Z.to_nat (snd (tkey tm))) u 0 + s) 0 ts
      = - others m i l u / dm.
Proof.
  induction l as [|x l IH]; intros i Hi; cbn [direction_terms]; simpl in Hi.
  - exists []. split; auto. intros u. simpl. unfold Rdiv. ring.
  - destruct (IH (S i)) as (ts & Hts & Hs); [lia|]. destruct (Rlt_dec 0 (Rabs x)) as [Hx|Hx].
    + destruct (Nat.eqb_spec i m) as [->|Hne].
      * rewrite Hts. exists ts. split; auto. intros u. rewrite Hs. simpl. rewrite Nat.eqb_refl. unfold Rdiv; ring.
      * unfold new_term. destruct (Z.leb_spec (Z.of_nat (length (h node))) (Z.of_nat i)); [lia|].
        cbn [obind]. rewrite Hts. cbn [omap obind]. eexists. split; [reflexivity|].
        intros u. simpl. rewrite Nat2Z.id, Hs. destruct (Nat.eqb_spec i m); [congruence|]. unfold Rdiv. ring.
    + rewrite Hts. exists ts. split; auto. intros u. rewrite Hs. simpl.
      assert (x = 0). { destruct (Req_dec x 0); auto. exfalso. apply Hx. apply Rabs_pos_lt; auto. }
      subst x. destruct (Nat.eqb i m); unfold Rdiv; ring.
Qed.

Lemma sumsq_nonneg d : 0 <= fold_right (fun x s => x * x + s) 0 d.
Proof. induction d as [|x d IH]; simpl; [lra|]. pose proof (Rle_0_sqr x). unfold Rsqr in *. lra. Qed.

Lemma sumsq_ge d k : (k < length d)%nat -> (nth k d 0) * (nth k d 0) <= fold_right (fun x s => x * x + s) 0 d.
Proof.
  revert k; induction d as [|x d IH]; intros k Hk; simpl in *; [lia|].
  pose proof (Rle_0_sqr x) as Hx. unfold Rsqr in Hx. destruct k as [|k].
  - pose proof (sumsq_nonneg d). lra.
  - specialize (IH k ltac:(lia)). lra.
Qed.

Lemma norm2_pos d k : (k < length d)%nat -> nth k d 0 <> 0 -> 0 < norm2 d.
Proof.
  intros Hk Hx. unfold norm2. apply sqrt_lt_R0. pose proof (sumsq_ge d k Hk).
  pose proof (Rlt_0_sqr _ Hx). unfold Rsqr in *. lra.
Qed.

Lemma nth_normalize d k : (k < length d)%nat -> nth k (normalize d) 0 = nth k d 0 / norm2 d.
Proof.
  intros Hk. unfold normalize.
  rewrite (nth_indep _ 0 (0 / norm2 d)) by (rewrite map_length; auto).
  apply (map_nth (fun x => x / norm2 d)).
Qed.

Lemma ten6_pos : 0 < / 10 ^ 6. Proof. apply Rinv_0_lt_compat. apply pow_lt. lra. Qed.

Lemma direction_lemma h node d rhs : d <> [] -> (length d <= length (h node))%nat ->
  ((forall k, (k < length d)%nat -> Rabs (nth k d 0) < / 10 ^ 6) /\ direction h node d rhs = Throw) \/
  (exists m e, direction h node d rhs = Ok e /\ (m < length d)%nat /\
     / 10 ^ 6 <= Rabs (nth m d 0) /\
     (forall k, (k < length d)%nat -> Rabs (nth k d 0) <= Rabs (nth m d 0)) /\
     edep e = (node, Z.of_nat m) /\
     forall u t, length u = length d ->
       (holds_at_node u t e <-> 2 * (nth m (normalize d) 0 * nth m u 0) - dot (normalize d) u = rhs t)).
Proof.
  intros Hd Hl. destruct (max_abs_spec d Hd) as (m & v & Hm & Hlt & Hv & Hmax).
  unfold direction. rewrite Hm. destruct (Rlt_dec v (/ 10 ^ 6)) as [Hsmall|Hbig].
  - left. split; auto. intros k Hk. eapply Rle_lt_trans; [apply Hmax; auto|auto].
  - right. assert (Hpos : / 10 ^ 6 <= Rabs (nth m d 0)) by (rewrite <- Hv; lra).
    pose proof ten6_pos as H6.
    assert (Hnz : nth m d 0 <> 0). { intros E. rewrite E, Rabs_R0 in Hpos. lra. }
    pose proof (norm2_pos d m Hlt Hnz) as Hn.
    set (dm := nth m (normalize d) 0).
    assert (Hdm : dm <> 0).
    { unfold dm. rewrite nth_normalize by auto. unfold Rdiv. apply Rmult_integral_contrapositive_currified; auto.
      apply Rinv_neq_0_compat. lra. }
    assert (Hlen : length (normalize d) = length d) by (unfold normalize; apply map_length).
    destruct (direction_terms_spec h node m dm (normalize d) 0) as (ts & Hts & Hs); [lia|].
    unfold new_equation, new_term. destruct (Z.leb_spec (Z.of_nat (length (h node))) (Z.of_nat m)); [lia|].
    cbn [omap obind tkey]. fold dm. rewrite Hts. cbn [omap obind].
    exists m. eexists. split; [reflexivity|]. split; auto. split; auto. split; [intros; rewrite <- Hv; auto|].
    cbn [edep eind erhs app]. split; auto. intros u t Hu. unfold holds_at_node. cbn [edep eind erhs].
    cbn [snd]. rewrite Hs, Nat2Z.id.
    rewrite (others_dot_gen m (normalize d) 0 u) by lia. rewrite Nat.sub_0_r. fold dm. cbn [skipn].
    split; intros E.
    + replace (rhs t) with (dm * (rhs t / dm)) by (field; auto). rewrite <- E. field. auto.
    + rewrite <- E. field. auto.
Qed.

(** with a single nonzero component the equation is the documented one *)
Lemma dot_single m d : forall u, (m < length d)%nat -> length u = length d ->
  (forall k, (k < length d)%nat -> k <> m -> nth k d 0 = 0) -> dot d u = nth m d 0 * nth m u 0.
Proof.
  revert m; induction d as [|x d IH]; intros m [|y u] Hm Hu Hz; simpl in Hm, Hu; try lia.
  unfold dot. simpl. fold (dot d u). destruct m as [|m].
  - assert (E : dot d u = 0).
    { assert (Hz' : forall k, (k < length d)%nat -> nth k d 0 = 0).
      { intros k Hk. apply (Hz (S k)); simpl; lia. }
      clear -Hz'. revert u. induction d as [|x d IH]; intros u; [reflexivity|].
      destruct u as [|y u]; [reflexivity|]. unfold dot. simpl. fold (dot d u).
      rewrite IH by (intros k Hk; apply (Hz' (S k)); simpl; lia).
      pose proof (Hz' 0%nat ltac:(simpl; lia)) as E. simpl in E. rewrite E. ring. }
    rewrite E. simpl. ring.
  - rewrite (IH m) by (try lia; intros k Hk Hne; apply (Hz (S k)); simpl; lia).
    pose proof (Hz 0%nat ltac:(simpl; lia) ltac:(lia)) as E. simpl in E. rewrite E. simpl. ring.
Qed.

Lemma direction_axis_lemma h node d rhs j : (j < length d)%nat -> (length d <= length (h node))%nat ->
  / 10 ^ 6 <= Rabs (nth j d 0) -> (forall k, (k < length d)%nat -> k <> j -> nth k d 0 = 0) ->
  exists e, direction h node d rhs = Ok e /\
    forall u t, length u = length d -> (holds_at_node u t e <-> dot (normalize d) u = rhs t).
Proof.
  intros Hj Hl Hbig Hz. assert (Hd : d <> []) by (intros ->; simpl in Hj; lia).
  destruct (direction_lemma h node d rhs Hd Hl) as [(Hs & _)|(m & e & He & Hm & Hmb & _ & _ & Hh)].
  - specialize (Hs j Hj). lra.
  - exists e. split; auto. intros u t Hu. rewrite (Hh u t Hu).
    assert (m = j).
    { destruct (Nat.eq_dec m j); auto. rewrite (Hz m Hm n), Rabs_R0 in Hmb. pose proof ten6_pos. lra. }
    subst m.
    assert (Hlen : length (normalize d) = length d) by (unfold normalize; apply map_length).
    rewrite (dot_single j (normalize d) u); try lia.
    + split; intros E; lra.
    + intros k Hk Hne. rewrite nth_normalize by lia. rewrite Hz by (auto; lia). unfold Rdiv. ring.
Qed.

Definition c16_nodes : nodes := fun _ => [0; 1]%Z.

Lemma direction_refuted_lemma :
  exists (h : nodes) node d u (rhs : R -> R) t e, length u = length d /\ (length d <= length (h node))%nat /\
    direction h node d rhs = Ok e /\ holds_at_node u t e /\ dot (normalize d) u <> rhs t.
Proof.
  exists c16_nodes, 1%Z, [1; 1], [1; 1], (fun _ => 0), 0.
  destruct (direction_lemma c16_nodes 1 [1; 1] (fun _ => 0)) as [(Hs & _)|(m & e & He & Hm & _ & _ & _ & Hh)].
  - discriminate.
  - simpl. lia.
  - specialize (Hs 0%nat ltac:(simpl; lia)). simpl in Hs. rewrite Rabs_R1 in Hs. lra.
  - exists e. split; auto. split; [simpl; lia|]. split; auto.
    assert (Hn : 0 < norm2 [1; 1]) by (apply (norm2_pos [1; 1] 0); simpl; [lia|lra]).
    assert (Hdot : dot (normalize [1; 1]) [1; 1] = 2 / norm2 [1; 1]).
    { unfold normalize, dot. simpl map at 2. set (n := norm2 [1; 1]) in *. simpl. field. lra. }
    assert (Hnth : nth m (normalize [1; 1]) 0 = 1 / norm2 [1; 1] /\ nth m [1; 1] 0 = 1).
    { rewrite nth_normalize by auto. simpl in Hm. destruct m as [|[|m]]; [..|lia]; auto. }
    destruct Hnth as (E1 & E2). split.
    + apply Hh; auto. rewrite E1, E2, Hdot. field. lra.
    + rewrite Hdot. intros E. assert (2 / norm2 [1; 1] > 0); [|lra].
      apply Rdiv_lt_0_compat; lra.
Qed.
