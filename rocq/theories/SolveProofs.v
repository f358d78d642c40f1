(** * Proofs for C24, C25 *)
From Coq Require Import List ZArith Arith Bool Reals Lia Lra Sorted.
From Verif Require Import Algebra Outcome DofModel DofSpec DofProofs ConstraintModel ConstraintSpec ConstraintProofs
  ConstraintProofs2 ConstraintProofs3 SolveModel SolveSpec RSum CellProofs.
Import ListNotations.
Local Open Scope R_scope.

Lemma sum_n_rsum n f : @sum_n RR n f = rsum n f.
Proof. induction n as [|n IH]; [reflexivity|]. rewrite sum_n_S. simpl rsum. rewrite <- IH. reflexivity. Qed.
Lemma mat_vec_rsum (M : smat RR) (x : nat -> R) i : @mat_vec RR M x i = rsum (scols M) (fun j => mentry M i j * x j).
Proof. unfold mat_vec. exact (sum_n_rsum (scols M) (fun j => mentry M i j * x j)). Qed.

(** ** dense algebra *)
Lemma reduced_work N n (C K : nat -> nat -> R) (X V F : nat -> R) :
  (forall i, (i < n)%nat -> rsum n (fun j => rsum N (fun a => rsum N (fun b => C a i * K a b * C b j)) * X j)
                            = rsum N (fun a => C a i * F a)) ->
  rsum N (fun a => rsum n (fun i => C a i * V i) * (rsum N (fun b => K a b * rsum n (fun j => C b j * X j)) - F a)) = 0.
Proof.
  intros H.
  assert (E : forall i, rsum N (fun a => C a i * (rsum N (fun b => K a b * rsum n (fun j => C b j * X j)) - F a))
                        = rsum n (fun j => rsum N (fun a => rsum N (fun b => C a i * K a b * C b j)) * X j) - rsum N (fun a => C a i * F a)).
  { intros i. rewrite <- (rsum_ext N (fun a => C a i * rsum N (fun b => K a b * rsum n (fun j => C b j * X j)) - C a i * F a))
      by (intros; ring).
    rewrite rsum_minus. f_equal.
    transitivity (rsum N (fun a => rsum n (fun j => rsum N (fun b => C a i * K a b * C b j) * X j))).
    - apply rsum_ext. intros a Ha.
      transitivity (rsum N (fun b => rsum n (fun j => C a i * K a b * C b j * X j))).
      + rewrite <- rsum_scal. apply rsum_ext. intros b Hb. rewrite <- !rsum_scal. apply rsum_ext. intros. ring.
      + rewrite rsum_swap. apply rsum_ext. intros j Hj. rewrite rsum_scal_r. reflexivity.
    - rewrite rsum_swap. apply rsum_ext. intros j Hj. rewrite rsum_scal_r. reflexivity. }
  transitivity (rsum N (fun a => rsum n (fun i => V i * (C a i * (rsum N (fun b => K a b * rsum n (fun j => C b j * X j)) - F a))))).
  { apply rsum_ext. intros a Ha. rewrite <- rsum_scal_r. apply rsum_ext. intros. ring. }
  rewrite rsum_swap. apply rsum_zero. intros i Hi. rewrite rsum_scal, E, (H i Hi). ring.
Qed.

(** ** constraint matrix, homogeneous *)
Lemma lhs_add num u g e : lhs num (fun i => u i + g i) e = lhs num u e + lhs num g e.
Proof. unfold lhs. induction (eind e) as [|t ts IH]; simpl; lra. Qed.
Lemma lhs_ext num u g e : (forall k, In k (edep e :: ind_keys e) -> u (num k) = g (num k)) -> lhs num u e = lhs num g e.
Proof.
  unfold lhs, ind_keys. intros H. rewrite (H (edep e)) by (simpl; auto). f_equal.
  assert (H' : forall t, In t (eind e) -> u (num (tkey t)) = g (num (tkey t))).
  { intros t Ht. apply H. right. apply in_map. exact Ht. }
  clear H. induction (eind e) as [|t ts IH]; simpl; [reflexivity|].
  rewrite (H' t) by (simpl; auto). rewrite IH; [reflexivity|]. intros; apply H'; simpl; auto.
Qed.
Lemma lhs_opp num u e : lhs num (fun i => - u i) e = - lhs num u e.
Proof. unfold lhs. induction (eind e) as [|t ts IH]; simpl; lra. Qed.

Lemma homogeneous_param ops h dof N num : no_self_reference ops ->
  let c := cons_run cons_empty ops in let es := equations c dof in
  numbered h es N num ->
  (forall e t, In e es -> In t (eind e) -> coef t = 0 \/ / 10 ^ 18 < Rabs (coef t)) ->
  exists C, unit_constraint_matrix h c dof N = Ok C /\ in_range C /\ srows C = N /\
    forall u, (forall e, In e es -> lhs num u e = 0) <->
      exists v : list R, length v = scols C /\ forall i, (i < N)%nat -> u i = @mat_vec RR C (fun j => nth j v 0) i.
Proof.
  intros Hns c es Hn Hc. destruct (constraint_matrix_lemma ops h dof N num Hns Hn Hc) as (C & HC & Hr & HrN & HcN & Hall).
  exists C. split; [exact HC|]. split; [exact Hr|]. split; [exact HrN|]. fold c es in Hall.
  set (g := prescribed num es 0).
  assert (Hg : forall e, In e es -> lhs num g e = erhs e 0).
  { assert (Hg0 : forall e, In e es -> holds num g 0 e).
    { apply (proj1 (Hall g 0)). exists (repeat 0 (scols C)). split; [apply repeat_length|]. intros i Hi.
      unfold g at 1. rewrite mat_vec_rsum, rsum_zero; [simpl; lra|]. intros j Hj. rewrite nth_repeat. lra. }
    intros e He. exact (Hg0 e He). }
  intros u. split.
  - intros Hu. assert (H : forall e, In e es -> holds num (fun i => u i + g i) 0 e).
    { intros e He. unfold holds. change (lhs num (fun i => u i + g i) e = erhs e 0).
      rewrite lhs_add, Hu, Hg by assumption. lra. }
    apply (proj1 (Hall _ 0)) in H. destruct H as (v & Hl & Hv). exists v. split; [exact Hl|].
    intros i Hi. exact (Rplus_eq_reg_r (g i) _ _ (Hv i Hi)).
  - intros (v & Hl & Hv) e He.
    assert (H : forall e, In e es -> holds num (fun i => u i + g i) 0 e).
    { apply (proj1 (Hall _ 0)). exists v. split; [exact Hl|]. intros i Hi. rewrite Hv by exact Hi. reflexivity. }
    specialize (H e He). unfold holds in H. change (lhs num (fun i => u i + g i) e = erhs e 0) in H.
    rewrite lhs_add, (Hg e He) in H. lra.
Qed.

(** prescribed values with any right hand sides *)
Lemma lhs_prescribed ops h dof N num (val : equation -> R) (g : nat -> R) : no_self_reference ops ->
  let es := equations (cons_run cons_empty ops) dof in
  numbered h es N num ->
  (forall i, g i = match find (fun e => Nat.eqb (num (edep e)) i) es with Some e => val e | None => 0 end) ->
  forall e, In e es -> lhs num g e = val e.
Proof.
  intros Hns es Hn Hg e He.
  destruct (accepted_full ops Hns) as (Hnd & Hind). pose proof (cons_run_refines ops) as HR.
  destruct (accepted_numbers ops h dof N num Hns Hn) as (_ & Hnd2). fold es in Hnd2.
  assert (Hes : es = log_of dof (log_run ops)) by exact (rl_eqs _ _ HR dof).
  assert (Hlog : forall e, In e es -> exists p, In p (log_run ops) /\ snd p = e).
  { intros e' He'. rewrite Hes in He'. unfold log_of in He'. apply in_map_iff in He'. destruct He' as (p & Hp & Hin).
    apply filter_In in Hin. exists p. tauto. }
  assert (Hdep : g (num (edep e)) = val e).
  { rewrite Hg. clear -He Hnd2. induction es as [|e0 l IH]; [destruct He|]. simpl.
    inversion Hnd2 as [|? ? Hni Hnd3]; subst. destruct (Nat.eqb_spec (num (edep e0)) (num (edep e))) as [E|E].
    - destruct He as [->|He]; [reflexivity|]. exfalso. apply Hni. rewrite E. apply (in_map (fun e => num (edep e))). exact He.
    - destruct He as [->|He]; [congruence|]. apply IH; assumption. }
  assert (Hz : forall t, In t (eind e) -> g (num (tkey t)) = 0).
  { intros t Ht. rewrite Hg. destruct (find _ es) as [e'|] eqn:Ef; [|reflexivity]. exfalso.
    apply find_some in Ef. destruct Ef as (He' & E). apply Nat.eqb_eq in E.
    assert (Hk : edep e' = tkey t).
    { apply (proj2 Hn e' e); simpl; auto. right. unfold ind_keys. apply in_map. exact Ht. }
    destruct (Hlog e He) as (p & Hp & Ep). destruct (Hlog e' He') as (q & Hq & Eq).
    apply (Hind q p Hq Hp). rewrite Ep, Eq, Hk. unfold ind_keys. apply in_map. exact Ht. }
  unfold lhs. rewrite Hdep.
  replace (fold_right _ 0 (eind e)) with 0; [lra|]. symmetry. clear Hdep.
  induction (eind e) as [|t ts IH]; simpl; [reflexivity|]. rewrite (Hz t) by (simpl; auto).
  rewrite IH by (intros; apply Hz; simpl; auto). lra.
Qed.

(** ** block matrices *)
Lemma dmset_find (k k' : Z * Z) (m : smat RR) (acc : dofmat RR) : msorted lt_dofpair acc ->
  mfind lt_dofpair k (mset lt_dofpair k' m acc) = if andb (Z.eqb (fst k) (fst k')) (Z.eqb (snd k) (snd k')) then Some m else mfind lt_dofpair k acc.
Proof.
  intros Hs. destruct k as [a b], k' as [a' b']. simpl.
  destruct (andb (Z.eqb a a') (Z.eqb b b')) eqn:E.
  - apply andb_true_iff in E. destruct E as [E1 E2]. apply Z.eqb_eq in E1, E2. subst.
    apply mfind_mset_eq; auto using ltpair_irrefl, ltpair_total.
  - apply mfind_mset_ne; auto using ltpair_irrefl, ltpair_total.
    + intros x y z. apply ltpair_trans.
    + intros E'. injection E' as -> ->. rewrite !Z.eqb_refl in E. discriminate.
Qed.
Lemma dmset_sorted (k : Z * Z) (m : smat RR) (acc : dofmat RR) : msorted lt_dofpair acc -> msorted lt_dofpair (mset lt_dofpair k m acc).
Proof. apply msorted_mset; [intros x y z; apply ltpair_trans|apply ltpair_total]. Qed.

Lemma diag_blocks_spec h c f (Cm : Z -> smat RR) size dofs : forall acc, msorted lt_dofpair acc ->
  (forall d, In d dofs -> @size_of RR f d = Some (size d) /\ unit_constraint_matrix h c d (size d) = Ok (Cm d)) ->
  exists D, diag_blocks h c f dofs acc = Ok D /\ msorted lt_dofpair D
    /\ forall a b, mat_at D a b = if andb (Z.eqb a b) (existsb (Z.eqb a) dofs) then Some (Cm a) else mat_at acc a b.
Proof.
  induction dofs as [|d ds IH]; intros acc Hs H; simpl.
  - exists acc. split; [reflexivity|]. split; [exact Hs|]. intros. rewrite andb_false_r. reflexivity.
  - destruct (H d (or_introl eq_refl)) as (Hsz & HC). unfold size_of in Hsz.
    destruct (mfind lt_dof d f) as [blk|]; [|discriminate]. simpl in Hsz. injection Hsz as Hsz. simpl.
    rewrite Hsz, HC. simpl.
    destruct (IH (mset lt_dofpair (d, d) (Cm d) acc)) as (D & HD & HsD & Hat).
    { apply dmset_sorted. exact Hs. } { intros; apply H; simpl; auto. }
    exists D. split; [exact HD|]. split; [exact HsD|]. intros a b. rewrite Hat. unfold mat_at.
    rewrite dmset_find by exact Hs. simpl.
    destruct (Z.eqb_spec a b) as [->|]; simpl.
    + destruct (existsb (Z.eqb b) ds); simpl; [rewrite orb_true_r; reflexivity|]. rewrite orb_false_r.
      destruct (Z.eqb_spec b d) as [->|]; reflexivity.
    + destruct (Z.eqb_spec a d), (Z.eqb_spec b d); simpl; try reflexivity. congruence.
Qed.

Lemma off_blocks_spec (Cm : Z -> smat RR) (l : list (Z * Z)) : forall acc, msorted lt_dofpair acc ->
  (forall a b, In (a, b) l -> mat_at acc a a = Some (Cm a) /\ mat_at acc b b = Some (Cm b)) ->
  let D := fold_left off_block l acc in
  msorted lt_dofpair D /\
  forall a b, mat_at D a b = if andb (negb (Z.eqb a b)) (existsb (fun p => andb (Z.eqb a (fst p)) (Z.eqb b (snd p))) l)
     then Some (mkMat (F := RR) (srows (Cm a)) (scols (Cm b)) []) else mat_at acc a b.
Proof.
  induction l as [|(r, c) l IH]; intros acc Hs H D.
  - split; [exact Hs|]. intros a b. rewrite andb_false_r. reflexivity.
  - simpl in D. destruct (H r c (or_introl eq_refl)) as (Hr & Hc).
    assert (E : off_block acc (r, c) = if Z.eqb r c then acc else mset lt_dofpair (r, c) (mkMat (F := RR) (srows (Cm r)) (scols (Cm c)) []) acc).
    { unfold off_block. rewrite Hr, Hc. reflexivity. }
    assert (Hs' : msorted lt_dofpair (off_block acc (r, c))).
    { rewrite E. destruct (Z.eqb r c); [exact Hs|apply dmset_sorted; exact Hs]. }
    assert (Hat : forall a b, mat_at (off_block acc (r, c)) a b =
              if andb (negb (Z.eqb a b)) (andb (Z.eqb a r) (Z.eqb b c)) then Some (mkMat (F := RR) (srows (Cm a)) (scols (Cm b)) []) else mat_at acc a b).
    { intros a b. rewrite E. destruct (Z.eqb_spec r c) as [->|Hne].
      - destruct (Z.eqb_spec a c), (Z.eqb_spec b c); subst; simpl; rewrite ?andb_false_r, ?Z.eqb_refl; reflexivity.
      - unfold mat_at. rewrite dmset_find by exact Hs. simpl.
        destruct (Z.eqb_spec a r), (Z.eqb_spec b c); simpl; rewrite ?andb_false_r; try reflexivity. subst.
        destruct (Z.eqb_spec r c); [congruence|reflexivity]. }
    destruct (IH (off_block acc (r, c)) Hs') as (HsD & HatD).
    { intros a b Hab. rewrite !Hat, !Z.eqb_refl. simpl. apply H. right. exact Hab. }
    split; [exact HsD|]. intros a b. unfold D. rewrite HatD, Hat. simpl.
    destruct (Z.eqb_spec a b); simpl; [reflexivity|].
    destruct (existsb _ l); simpl; [rewrite orb_true_r; reflexivity|]. rewrite orb_false_r. reflexivity.
Qed.

Lemma existsb_In d dofs : existsb (Z.eqb d) dofs = true <-> In d dofs.
Proof.
  rewrite existsb_exists. split.
  - intros (x & Hx & E). apply Z.eqb_eq in E. subst. exact Hx.
  - intros H. exists d. split; [exact H|apply Z.eqb_refl].
Qed.
Lemma existsb_prod a b dofs : In a dofs -> In b dofs ->
  existsb (fun p => andb (Z.eqb a (fst p)) (Z.eqb b (snd p))) (list_prod dofs dofs) = true.
Proof.
  intros Ha Hb. apply existsb_exists. exists (a, b). split; [apply in_prod; assumption|]. simpl. rewrite !Z.eqb_refl. reflexivity.
Qed.

Lemma constraint_blocks_spec h c f (Cm : Z -> smat RR) size dofs :
  (forall d, In d dofs -> @size_of RR f d = Some (size d) /\ unit_constraint_matrix h c d (size d) = Ok (Cm d)) ->
  exists D, constraint_blocks h c f dofs = Ok D
    /\ forall a b, In a dofs -> In b dofs ->
         mat_at D a b = Some (if Z.eqb a b then Cm a else mkMat (F := RR) (srows (Cm a)) (scols (Cm b)) []).
Proof.
  intros H. unfold constraint_blocks.
  destruct (diag_blocks_spec h c f Cm size dofs []) as (D0 & HD0 & Hs0 & Hat0); [constructor|exact H|].
  rewrite HD0. simpl. eexists. split; [reflexivity|]. intros a b Ha Hb.
  destruct (off_blocks_spec Cm (list_prod dofs dofs) D0 Hs0) as (_ & Hat).
  { intros x y Hxy. apply in_prod_iff in Hxy. destruct Hxy as (Hx & Hy). rewrite !Hat0, !Z.eqb_refl.
    rewrite (proj2 (existsb_In x dofs) Hx), (proj2 (existsb_In y dofs) Hy). auto. }
  rewrite Hat. rewrite existsb_prod by assumption. rewrite Hat0.
  destruct (Z.eqb_spec a b) as [->|]; simpl; [|reflexivity].
  rewrite (proj2 (existsb_In b dofs) Hb). reflexivity.
Qed.

(** ** flattening *)
Lemma to_eigen_nth (v : dofvec RR) size dofs x : to_eigen v dofs = Some x ->
  (forall d, In d dofs -> @size_of RR v d = Some (size d)) ->
  length x = offset size dofs (length dofs) /\
  forall k d i, nth_error dofs k = Some d -> (i < size d)%nat -> nth (offset size dofs k + i) (x : list R) 0 = dval v d i.
Proof.
  revert x. induction dofs as [|d ds IH]; intros x; simpl.
  - intros H _. injection H as <-. split; [reflexivity|]. intros [|k] d i Hk; discriminate.
  - intros H Hs. unfold size_of in *. pose proof (Hs d (or_introl eq_refl)) as Hd.
    destruct (mfind lt_dof d v) as [blk|] eqn:Ef; [|discriminate]. simpl in Hd. injection Hd as Hd.
    destruct (to_eigen v ds) as [r|] eqn:Er; [|discriminate]. injection H as <-.
    destruct (IH r eq_refl) as (Hl & Hn); [intros; apply Hs; simpl; auto|]. split.
    + rewrite offset_S. etransitivity; [apply app_length|]. etransitivity; [exact (f_equal2 Nat.add Hd Hl)|reflexivity].
    + intros [|k] d' i Hk Hi; simpl in Hk.
      * injection Hk as <-. unfold offset. simpl. unfold dval, val. rewrite Ef.
        assert (Hb : (i < @length R blk)%nat) by (replace (@length R blk) with (size d) by (symmetry; exact Hd); exact Hi).
        exact (app_nth1 (blk : list R) (r : list R) 0 Hb).
      * rewrite offset_S. rewrite <- (Hn k d' i Hk Hi).
        assert (Hb : (@length R blk <= size d + offset size ds k + i)%nat) by (replace (@length R blk) with (size d) by (symmetry; exact Hd); lia).
        etransitivity; [exact (app_nth2 (blk : list R) (r : list R) 0 Hb)|].
        f_equal. replace (@length R blk) with (size d) by (symmetry; exact Hd). lia.
Qed.

Lemma sum_blocks_r (dim : Z -> nat) dofs (f : nat -> R) :
  rsum (offset dim dofs (length dofs)) f =
  rsum (length dofs) (fun n => match nth_error dofs n with
     | Some b => rsum (dim b) (fun j => f (offset dim dofs n + j)%nat) | None => 0 end).
Proof.
  rewrite <- sum_n_rsum. etransitivity; [exact (@sum_blocks RR dim dofs f)|]. rewrite <- sum_n_rsum.
  apply (sum_n_ext RR). intros i Hi. destruct (nth_error dofs i); [apply sum_n_rsum|reflexivity].
Qed.
Lemma rsum_list (dofs : list Z) (g : Z -> R) :
  rsum (length dofs) (fun n => match nth_error dofs n with Some b => g b | None => 0 end) = rlsum (map g dofs).
Proof.
  induction dofs as [|d ds IH]; [reflexivity|]. cbn [length]. rewrite rsum_front. simpl nth_error at 1.
  cbn [map rlsum]. rewrite <- IH. reflexivity.
Qed.
Lemma sum_blocks_list (dim : Z -> nat) dofs (f : nat -> R) (g : Z -> nat -> R) :
  (forall k d i, nth_error dofs k = Some d -> (i < dim d)%nat -> f (offset dim dofs k + i)%nat = g d i) ->
  rsum (offset dim dofs (length dofs)) f = rlsum (map (fun d => rsum (dim d) (g d)) dofs).
Proof.
  intros H. rewrite sum_blocks_r, <- (rsum_list dofs (fun d => rsum (dim d) (g d))).
  apply rsum_ext. intros n Hn. destruct (nth_error dofs n) as [d|] eqn:E; [|reflexivity].
  apply rsum_ext. intros i Hi. apply H; assumption.
Qed.

(** ** the combined system *)
Section System.
  Variables (h : nodes) (ops : list cons_op) (K : dofmat RR) (f : dofvec RR) (dofs : list Z) (size : Z -> nat) (num : Z -> dofkey -> nat).
  Hypothesis Hsys : system_fits K f dofs size.
  Hypothesis Hcon : constraints_fit h ops dofs size num.
  Let c := cons_run cons_empty ops.

  Lemma system_setup_unit : exists Kf ff D C (Cm : Z -> smat RR),
    mat_to_eigen K dofs = Some Kf /\ to_eigen f dofs = Some ff /\ constraint_blocks h c f dofs = Ok D
    /\ mat_to_eigen D dofs = Some C /\ dims_fit C Kf ff = true
    /\ srows C = offset size dofs (length dofs)
    /\ scols C = offset (fun d => scols (Cm d)) dofs (length dofs)
    /\ (forall k d i, nth_error dofs k = Some d -> (i < size d)%nat -> nth (offset size dofs k + i) ff 0 = dval f d i)
    /\ (forall x k d i, nth_error dofs k = Some d -> (i < size d)%nat ->
          @mat_vec RR C x (offset size dofs k + i)%nat = @mat_vec RR (Cm d) (fun j => x (offset (fun d => scols (Cm d)) dofs k + j)%nat) i)
    /\ (forall x u k d i, nth_error dofs k = Some d -> (i < size d)%nat ->
          (forall k d j, nth_error dofs k = Some d -> (j < size d)%nat -> x (offset size dofs k + j)%nat = u d j) ->
          @mat_vec RR Kf x (offset size dofs k + i)%nat = rlsum (map (fun b => rsum (size b) (fun j => kval K d b i j * u b j)) dofs))
    /\ (forall d, In d dofs -> forall u, (forall e, In e (equations c d) -> lhs (num d) u e = 0) <->
          exists v : list R, length v = scols (Cm d) /\ forall i, (i < size d)%nat -> u i = @mat_vec RR (Cm d) (fun j => nth j v 0) i)
    /\ (forall d, In d dofs -> unit_constraint_matrix h c d (size d) = Ok (Cm d)).
  Proof.
    destruct Hsys as (Hasc & Hnd & Hsize & Hfit). destruct Hcon as (Hns & Hper).
    assert (HCm : exists Cm : Z -> smat RR, forall d, In d dofs -> unit_constraint_matrix h c d (size d) = Ok (Cm d)
       /\ in_range (Cm d) /\ srows (Cm d) = size d /\
       forall u, (forall e, In e (equations c d) -> lhs (num d) u e = 0) <->
          exists v : list R, length v = scols (Cm d) /\ forall i, (i < size d)%nat -> u i = @mat_vec RR (Cm d) (fun j => nth j v 0) i).
    { exists (fun d => match unit_constraint_matrix h c d (size d) with Ok m => m | _ => mkMat (F := RR) 0 0 [] end).
      intros d Hd. destruct (Hper d Hd) as (Hn & Hc).
      destruct (homogeneous_param ops h d (size d) (num d) Hns Hn Hc) as (C & HC & Hr & HrN & Hall).
      fold c in HC. rewrite HC. auto. }
    destruct HCm as (Cm & HCm).
    destruct (mat_to_eigen_lemma K size size dofs Hfit) as (Kf & HKf & HKr & HKrows & HKcols & _).
    assert (Hff : exists ff, to_eigen f dofs = Some ff).
    { destruct (to_eigen f dofs) as [ff|] eqn:E; [eauto|]. exfalso. apply (proj2 (to_eigen_defined f dofs)) in E; [exact E|].
      intros d Hd. rewrite (Hsize d Hd). discriminate. }
    destruct Hff as (ff & Hff).
    destruct (constraint_blocks_spec h c f Cm size dofs) as (D & HD & HDat).
    { intros d Hd. split; [apply Hsize; exact Hd|apply HCm; exact Hd]. }
    assert (HDfit : @shapes_fit RR D dofs size (fun d => scols (Cm d))).
    { intros a b Ha Hb. rewrite (HDat a b Ha Hb). destruct (HCm a Ha) as (_ & Hra & Hrowa & _).
      destruct (Z.eqb_spec a b) as [->|]; eexists; (split; [reflexivity|]); simpl; auto.
      repeat split; auto. constructor. }
    destruct (mat_to_eigen_lemma D size (fun d => scols (Cm d)) dofs HDfit) as (C & HC & HCr & HCrows & HCcols & _).
    destruct (to_eigen_nth f size dofs ff Hff Hsize) as (Hfl & Hfn).
    exists Kf, ff, D, C, Cm. repeat (split; [assumption|]).
    split. { unfold dims_fit. rewrite HKrows, HKcols, HCrows. change (@length R ff) with (@length (car RR) ff). rewrite Hfl, !Nat.eqb_refl. reflexivity. }
    split; [exact HCrows|]. split; [exact HCcols|]. split; [exact Hfn|]. split; [|split; [|split]].
    - intros x k d i Hk Hi. etransitivity; [exact (mat_to_eigen_product_lemma D size _ dofs C x HDfit HC k d i Hk Hi)|].
      assert (Hkl : (k < length dofs)%nat) by (apply nth_error_Some; rewrite Hk; discriminate).
      etransitivity; [apply (sum_n_rsum (length dofs))|]. rewrite (rsum_single (length dofs) k); [|exact Hkl|].
      + rewrite Hk. rewrite HDat by (eapply nth_error_In; eauto). rewrite Z.eqb_refl. reflexivity.
      + intros n Hn Hne. destruct (nth_error dofs n) as [b|] eqn:Eb; [|reflexivity].
        rewrite HDat by (eapply nth_error_In; eauto). destruct (Z.eqb_spec d b) as [->|].
        * exfalso. apply Hne. rewrite NoDup_nth_error in Hnd. apply Hnd; [exact Hn|congruence].
        * rewrite mat_vec_rsum. simpl. apply rsum_zero. intros j Hj. unfold mentry, entry. simpl. apply Rmult_0_l.
    - intros x u k d i Hk Hi Hx. etransitivity; [exact (mat_to_eigen_product_lemma K size size dofs Kf x Hfit HKf k d i Hk Hi)|].
      etransitivity; [apply (sum_n_rsum (length dofs))|].
      rewrite <- (rsum_list dofs (fun b => rsum (size b) (fun j => kval K d b i j * u b j))).
      apply rsum_ext. intros n Hn. destruct (nth_error dofs n) as [b|] eqn:Eb; [|reflexivity].
      assert (Ha : In d dofs) by (eapply nth_error_In; eauto). assert (Hb : In b dofs) by (eapply nth_error_In; eauto).
      destruct (Hfit d b Ha Hb) as (m & Hm & Hmr & Hmc & _).
      unfold kval. rewrite Hm, mat_vec_rsum, Hmc. apply rsum_ext. intros j Hj.
      rewrite (Hx n b j Eb Hj). reflexivity.
    - intros d Hd. apply HCm. exact Hd.
    - intros d Hd. apply HCm. exact Hd.
  Qed.
  Lemma system_setup : exists Kf ff D C (Cm : Z -> smat RR),
    mat_to_eigen K dofs = Some Kf /\ to_eigen f dofs = Some ff /\ constraint_blocks h c f dofs = Ok D
    /\ mat_to_eigen D dofs = Some C /\ dims_fit C Kf ff = true
    /\ srows C = offset size dofs (length dofs)
    /\ scols C = offset (fun d => scols (Cm d)) dofs (length dofs)
    /\ (forall k d i, nth_error dofs k = Some d -> (i < size d)%nat -> nth (offset size dofs k + i) ff 0 = dval f d i)
    /\ (forall x k d i, nth_error dofs k = Some d -> (i < size d)%nat ->
          @mat_vec RR C x (offset size dofs k + i)%nat = @mat_vec RR (Cm d) (fun j => x (offset (fun d => scols (Cm d)) dofs k + j)%nat) i)
    /\ (forall x u k d i, nth_error dofs k = Some d -> (i < size d)%nat ->
          (forall k d j, nth_error dofs k = Some d -> (j < size d)%nat -> x (offset size dofs k + j)%nat = u d j) ->
          @mat_vec RR Kf x (offset size dofs k + i)%nat = rlsum (map (fun b => rsum (size b) (fun j => kval K d b i j * u b j)) dofs))
    /\ (forall d, In d dofs -> forall u, (forall e, In e (equations c d) -> lhs (num d) u e = 0) <->
          exists v : list R, length v = scols (Cm d) /\ forall i, (i < size d)%nat -> u i = @mat_vec RR (Cm d) (fun j => nth j v 0) i).
  Proof.
    destruct system_setup_unit as (Kf & ff & D & C & Cm & H). exists Kf, ff, D, C, Cm. tauto.
  Qed.

  (** gluing the parameters of all dof types together *)
  Lemma glue (cdim : Z -> nat) (P : Z -> list R -> Prop) : forall l, (forall d, In d l -> exists v, length v = cdim d /\ P d v) ->
    exists V : list R, length V = offset cdim l (length l) /\
      forall k d, nth_error l k = Some d -> P d (firstn (cdim d) (skipn (offset cdim l k) V)).
  Proof.
    induction l as [|d l IH]; intros H.
    - exists []. split; [reflexivity|]. intros [|k] d Hk; discriminate.
    - destruct (H d (or_introl eq_refl)) as (v & Hv & HP). destruct IH as (V & HV & HPV); [intros; apply H; simpl; auto|].
      exists (v ++ V). cbn [length]. rewrite offset_S. split; [rewrite app_length; lia|].
      intros [|k] d' Hk; simpl in Hk.
      + injection Hk as <-. unfold offset. simpl. rewrite <- Hv, firstn_app, Nat.sub_diag, firstn_O, app_nil_r, firstn_all. exact HP.
      + rewrite offset_S, <- Hv, skipn_app.
        replace (length v + offset cdim l k - length v)%nat with (offset cdim l k) by lia.
        rewrite skipn_all2 by lia. simpl. apply HPV. exact Hk.
  Qed.

  Lemma nth_firstn_lt {A} (l : list A) n i d0 : (i < n)%nat -> nth i (firstn n l) d0 = nth i l d0.
  Proof. revert l i. induction n as [|n IH]; intros [|x l] [|i] H; simpl; auto; try lia. apply IH. lia. Qed.
  Lemma nth_skipn_add {A} (l : list A) n i d0 : nth i (skipn n l) d0 = nth (n + i) l d0.
  Proof. revert l. induction n as [|n IH]; intros [|x l]; simpl; auto. destruct i; reflexivity. Qed.

  (** the solution of the reduced system with right hand side C^T (f + K dB), shifted by -dB *)
  Lemma solution_correct Kf ff D C Cm (X dB : list R) (db : Z -> nat -> R) (r : dofvec RR) :
    (mat_to_eigen K dofs = Some Kf /\ to_eigen f dofs = Some ff /\ constraint_blocks h c f dofs = Ok D
    /\ mat_to_eigen D dofs = Some C /\ dims_fit C Kf ff = true
    /\ srows C = offset size dofs (length dofs)
    /\ scols C = offset (fun d => scols (Cm d)) dofs (length dofs)
    /\ (forall k d i, nth_error dofs k = Some d -> (i < size d)%nat -> nth (offset size dofs k + i) ff 0 = dval f d i)
    /\ (forall x k d i, nth_error dofs k = Some d -> (i < size d)%nat ->
          @mat_vec RR C x (offset size dofs k + i)%nat = @mat_vec RR (Cm d) (fun j => x (offset (fun d => scols (Cm d)) dofs k + j)%nat) i)
    /\ (forall x u k d i, nth_error dofs k = Some d -> (i < size d)%nat ->
          (forall k d j, nth_error dofs k = Some d -> (j < size d)%nat -> x (offset size dofs k + j)%nat = u d j) ->
          @mat_vec RR Kf x (offset size dofs k + i)%nat = rlsum (map (fun b => rsum (size b) (fun j => kval K d b i j * u b j)) dofs))
    /\ (forall d, In d dofs -> forall u, (forall e, In e (equations c d) -> lhs (num d) u e = 0) <->
          exists v : list R, length v = scols (Cm d) /\ forall i, (i < size d)%nat -> u i = @mat_vec RR (Cm d) (fun j => nth j v 0) i)) ->
    length X = scols C ->
    (forall i, (i < scols C)%nat ->
       rsum (scols C) (fun j => reduced_matrix C Kf i j * nth j X 0) = rsum (srows C) (fun a => mentry C a i * (nth a ff 0 + @mat_vec RR Kf (fun b => nth b dB 0) a))) ->
    (forall k d i, nth_error dofs k = Some d -> (i < size d)%nat -> nth (offset size dofs k + i) dB 0 = db d i) ->
    (forall d i, In d dofs -> (i < size d)%nat -> exists k, nth_error dofs k = Some d /\
         dval r d i = @mat_vec RR C (fun j => nth j X 0) (offset size dofs k + i)%nat - db d i) ->
    admissible c dofs num (fun d i => dval r d i + db d i) /\
    forall w, admissible c dofs num w -> virtual_work size dofs w (residual K size dofs (dval r) (dval f)) = 0.
  Proof.
    intros (HKf & Hff & HD & HC & Hdim & Hrows & Hcols & Hfn & HCv & HKv & Hpar) HX Hsol HdB Hr.
    unfold dims_fit in Hdim. apply andb_true_iff in Hdim. destruct Hdim as (Hdim & Hd3). apply andb_true_iff in Hdim. destruct Hdim as (Hd1 & Hd2).
    apply Nat.eqb_eq in Hd1, Hd2, Hd3.
    pose proof Hsys as (Hasc & Hnd & Hsize & Hfit).
    set (cdim := fun d => scols (Cm d)) in *.
    assert (Hr' : forall k d i, nth_error dofs k = Some d -> (i < size d)%nat ->
        dval r d i = @mat_vec RR C (fun j => nth j X 0) (offset size dofs k + i)%nat - db d i).
    { intros k d i Hk Hi. destruct (Hr d i (nth_error_In _ _ Hk) Hi) as (k' & Hk' & E).
      replace k with k'; [exact E|]. rewrite NoDup_nth_error in Hnd. apply Hnd; [|congruence].
      apply nth_error_Some. rewrite Hk'. discriminate. }
    split.
    - intros d e Hd He. destruct (In_nth_error _ _ Hd) as (k & Hk).
      set (v := firstn (cdim d) (skipn (offset cdim dofs k) X)).
      assert (Hlen : length v = cdim d).
      { unfold v. rewrite firstn_length, skipn_length, HX, Hcols.
        assert (offset cdim dofs k + cdim d <= offset cdim dofs (length dofs))%nat; [|lia].
        clear -Hk. revert k Hk. induction dofs as [|d0 l IH]; intros [|k] Hk; simpl in Hk; try discriminate.
        - injection Hk as ->. cbn [length]. rewrite offset_S. unfold offset at 1. simpl. lia.
        - cbn [length]. rewrite !offset_S. specialize (IH k Hk). lia. }
      apply (proj2 (Hpar d Hd (fun i => dval r d i + db d i))); [|exact He].
      exists v. split; [exact Hlen|]. intros i Hi. rewrite (Hr' k d i Hk Hi), (HCv _ k d i Hk Hi), !mat_vec_rsum.
      transitivity (rsum (scols (Cm d)) (fun j => mentry (Cm d) i j * nth (offset cdim dofs k + j) X 0)); [lra|].
      apply rsum_ext. intros j Hj. f_equal. unfold v. rewrite nth_firstn_lt by exact Hj. rewrite nth_skipn_add. reflexivity.
    - intros w Hw.
      destruct (glue cdim (fun d v => forall i, (i < size d)%nat -> w d i = @mat_vec RR (Cm d) (fun j => nth j v 0) i) dofs) as (V & HV & HPV).
      { intros d Hd. apply (proj1 (Hpar d Hd (w d))). intros e He. apply Hw; assumption. }
      assert (Hwv : forall k d i, nth_error dofs k = Some d -> (i < size d)%nat ->
         w d i = @mat_vec RR C (fun j => nth j V 0) (offset size dofs k + i)%nat).
      { intros k d i Hk Hi. rewrite (HPV k d Hk i Hi), (HCv _ k d i Hk Hi), !mat_vec_rsum. apply rsum_ext. intros j Hj.
        f_equal. rewrite nth_firstn_lt by exact Hj. rewrite nth_skipn_add. reflexivity. }
      set (N := srows C). set (U := fun a => @mat_vec RR C (fun j => nth j X 0) a - nth a dB 0).
      assert (HU : forall k d i, nth_error dofs k = Some d -> (i < size d)%nat -> U (offset size dofs k + i)%nat = dval r d i).
      { intros k d i Hk Hi. unfold U. rewrite (Hr' k d i Hk Hi), (HdB k d i Hk Hi). reflexivity. }
      set (F := fun a => nth a ff 0 + @mat_vec RR Kf (fun b => nth b dB 0) a).
      unfold virtual_work.
      rewrite <- (sum_blocks_list size dofs (fun a => @mat_vec RR C (fun j => nth j V 0) a * (@mat_vec RR Kf U a - nth a ff 0))).
      2:{ intros k d i Hk Hi. rewrite <- (Hwv k d i Hk Hi). f_equal. unfold residual. rewrite (Hfn k d i Hk Hi). f_equal.
          apply (HKv U (dval r) k d i Hk Hi). exact HU. }
      rewrite <- Hrows. fold N.
      transitivity (rsum N (fun a => rsum (scols C) (fun i => mentry C a i * nth i V 0) *
          (rsum N (fun b => mentry Kf a b * rsum (scols C) (fun j => mentry C b j * nth j X 0)) - F a))).
      + apply rsum_ext. intros a Ha. rewrite (mat_vec_rsum C (fun j => nth j V 0) a). f_equal.
        unfold F. rewrite !mat_vec_rsum, Hd2. fold N.
        rewrite <- (rsum_ext N (fun b => mentry Kf a b * rsum (scols C) (fun j => mentry C b j * nth j X 0) - mentry Kf a b * nth b dB 0)).
        * rewrite rsum_minus. lra.
        * intros b Hb. unfold U. rewrite mat_vec_rsum. lra.
      + apply reduced_work. intros i Hi. etransitivity; [|exact (Hsol i Hi)]. apply rsum_ext. intros j Hj. f_equal.
        unfold reduced_matrix, rsumn. fold N. rewrite sum_n_rsum. apply rsum_ext. intros a Ha. symmetry. apply sum_n_rsum.
  Qed.
End System.

Lemma total_rows_size (f : dofvec RR) size dofs : (forall d, In d dofs -> @size_of RR f d = Some (size d)) ->
  total_rows f dofs = Some (offset size dofs (length dofs)).
Proof.
  induction dofs as [|d l IH]; intros H; [reflexivity|]. simpl. pose proof (H d (or_introl eq_refl)) as Hd.
  unfold size_of in Hd. destruct (mfind lt_dof d f) as [b|]; [|discriminate]. simpl in Hd. injection Hd as Hd.
  rewrite IH by (intros; apply H; simpl; auto). simpl. rewrite offset_S. f_equal. f_equal. exact Hd.
Qed.

Lemma times_nth C x a : (a < srows C)%nat -> nth a (times C x) 0 = @mat_vec RR C (fun j => nth j x 0) a.
Proof.
  intros H. unfold times.
  rewrite nth_indep with (d' := @mat_vec RR C (fun j => nth j x 0) 0%nat) by (rewrite map_length, seq_length; exact H).
  rewrite (map_nth (fun i => @mat_vec RR C (fun j => nth j x 0) i)). rewrite seq_nth by exact H. reflexivity.
Qed.
Lemma nth_map_seq (g : nat -> R) n a : (a < n)%nat -> nth a (map g (seq 0 n)) 0 = g a.
Proof.
  intros H. rewrite nth_indep with (d' := g 0%nat) by (rewrite map_length, seq_length; exact H).
  rewrite (map_nth g), seq_nth by exact H. reflexivity.
Qed.
Lemma offset_lt size : forall dofs k d i, nth_error dofs k = Some d -> (i < size d)%nat -> (offset size dofs k + i < offset size dofs (length dofs))%nat.
Proof.
  induction dofs as [|d0 l IH]; intros [|k] d i Hk Hi; simpl in Hk; try discriminate.
  - injection Hk as ->. cbn [length]. rewrite offset_S. unfold offset at 1. simpl. lia.
  - cbn [length]. rewrite !offset_S. specialize (IH k d i Hk Hi). lia.
Qed.

Lemma reduced_rhs_nth C y i : (i < scols C)%nat -> nth i (reduced_rhs C y) 0 = rsum (srows C) (fun a => mentry C a i * nth a y 0).
Proof. intros H. unfold reduced_rhs. rewrite nth_map_seq by exact H. apply sum_n_rsum. Qed.

Lemma keys_nodup (f : dofvec RR) : ascending f -> NoDup (bv_keys f).
Proof.
  unfold ascending, bv_keys. induction f as [|[d b] l IH]; simpl; intros H; constructor.
  - inversion H as [|? ? Hs Hall]; subst. intros Hin. rewrite Forall_forall in Hall. specialize (Hall _ Hin). simpl in Hall. lia.
  - apply IH. inversion H; assumption.
Qed.

Section Main.
  Variable linsolve : nat -> (nat -> nat -> R) -> list R -> outcome (list R).
  Hypothesis Hls : solver_correct linsolve.

  Lemma solve_lemma h ops K f dofs size num :
    system_fits K f dofs size -> constraints_fit h ops dofs size num -> dofs = bv_keys f ->
    let c := cons_run cons_empty ops in
    (solve linsolve h c K f dofs = Throw -> exists n A b, linsolve n A b = Throw) /\
    (solve linsolve h c K f dofs = UB -> exists n A b, linsolve n A b = UB) /\
    forall r, solve linsolve h c K f dofs = Ok r ->
      (forall d, @size_of RR r d = @size_of RR f d) /\
      admissible c dofs num (dval r) /\
      forall w, admissible c dofs num w -> virtual_work size dofs w (residual K size dofs (dval r) (dval f)) = 0.
  Proof.
    intros Hsys Hcon Hk c.
    destruct (system_setup h ops K f dofs size num Hsys Hcon) as (Kf & ff & D & C & Cm & Hall).
    pose proof Hall as (HKf & Hff & HD & HC & Hdim & Hrows & Hcols & _).
    destruct Hsys as (Hasc & Hnd & Hsize & Hfit) eqn:Esys. clear Esys.
    assert (E : solve linsolve h c K f dofs = obind (linsolve (scols C) (reduced_matrix C Kf) (reduced_rhs C ff)) (fun x =>
      oassert (from_eigen (F := RR) (times C x) (bv_keys f) f))).
    { unfold solve, c. rewrite HKf. cbn [olift obind]. rewrite Hff. cbn [olift obind]. rewrite HD. cbn [obind]. rewrite HC. cbn [olift obind].
      rewrite Hdim. reflexivity. }
    rewrite E. rewrite <- Hk.
    assert (HF : forall x, exists r, from_eigen (F := RR) (times C x) dofs f = Some r /\ ascending r /\
      to_eigen r dofs = Some (times C x) /\ (forall d, @size_of RR r d = @size_of RR f d)).
    { intros x. destruct (from_to_eigen_lemma (F := RR) (times C x) dofs f Hasc Hnd) as (r & H1 & H2 & H3 & H4 & _).
      - rewrite (total_rows_size f size dofs Hsize). f_equal. unfold times. rewrite map_length, seq_length. symmetry. exact Hrows.
      - exists r. auto. }
    destruct (linsolve (scols C) (reduced_matrix C Kf) (reduced_rhs C ff)) as [X| |] eqn:EX; cbn [obind].
    - destruct (HF X) as (r & Hr & Hra & Hto & Hsz). rewrite Hr. cbn [oassert].
      split; [discriminate|]. split; [discriminate|]. intros r' [= <-].
      destruct (Hls _ _ _ _ EX) as (HXl & HXs).
      split; [exact Hsz|].
      destruct (to_eigen_nth r size dofs (times C X) Hto) as (_ & Hn). { intros d Hd. rewrite Hsz. apply Hsize. exact Hd. }
      set (z := repeat 0 (srows C)).
      assert (Hz : forall a, nth a z 0 = 0). { intros a. unfold z. apply nth_repeat. }
      destruct (solution_correct h ops K f dofs size num (conj Hasc (conj Hnd (conj Hsize Hfit))) Kf ff D C Cm X z (fun _ _ => 0) r Hall HXl) as (Hadm & Hvw).
      + intros i Hi. rewrite (HXs i Hi), reduced_rhs_nth by exact Hi. apply rsum_ext. intros a Ha. f_equal.
        assert (Hm : @mat_vec RR Kf (fun b => nth b z 0) a = 0).
        { rewrite mat_vec_rsum. apply rsum_zero. intros b Hb. rewrite Hz. apply Rmult_0_r. }
        rewrite Hm. symmetry. apply Rplus_0_r.
      + intros. apply Hz.
      + intros d i Hd Hi. destruct (In_nth_error _ _ Hd) as (k & Hk'). exists k. split; [exact Hk'|].
        rewrite <- (Hn k d i Hk' Hi). rewrite times_nth; [lra|]. rewrite Hrows. apply (offset_lt size dofs k d i Hk' Hi).
      + split; [|exact Hvw]. intros d e Hd He. etransitivity; [|exact (Hadm d e Hd He)]. apply lhs_ext. intros i _. simpl. lra.
    - split; [|split; [discriminate|intros r; discriminate]]. intros _. eauto.
    - split; [discriminate|split; [|intros r; discriminate]]. intros _. eauto.
  Qed.

  Lemma delta_rhs_spec h ops f size num oldT newT : ascending f -> no_self_reference ops ->
    let c := cons_run cons_empty ops in
    let db := fun d i => to_float (prescribed (num d) (equations c d) newT i) - to_float (prescribed (num d) (equations c d) oldT i) in
    forall dofs acc, NoDup dofs -> ascending acc ->
    (forall d, In d dofs -> @size_of RR f d = Some (size d) /\ numbered h (equations c d) (size d) (num d)
        /\ @size_of RR acc d = Some (size d) /\ forall i, dval acc d i = 0) ->
    exists r, delta_rhs h c f oldT newT dofs acc = Ok r /\ ascending r /\ (forall d, @size_of RR r d = @size_of RR acc d) /\
      (forall d i, In d dofs -> (i < size d)%nat -> dval r d i = db d i) /\
      forall d, ~ In d dofs -> mfind lt_dof d r = mfind lt_dof d acc.
  Proof.
    intros Hf Hns c db. induction dofs as [|d ds IH]; intros acc Hnd Hacc H.
    - exists acc. simpl. repeat split; auto. intros ? ? [].
    - destruct (H d (or_introl eq_refl)) as (Hsz & Hnum & Hasz & Hz).
      cbn [delta_rhs]. unfold size_of in Hsz, Hasz. destruct (mfind lt_dof d f) as [b|] eqn:Ef; [|discriminate].
      simpl in Hsz. injection Hsz as Hsz. cbn [olift obind].
      destruct (sparse_global_rhs_lemma ops h d (size d) (num d) newT Hns Hnum) as (vn & Hvn & Hnv).
      destruct (sparse_global_rhs_lemma ops h d (size d) (num d) oldT Hns Hnum) as (vo & Hvo & Hov).
      change (@length (car RR) b = size d) in Hsz. rewrite Hsz. fold c in Hvn, Hvo. rewrite Hvn. cbn [obind]. rewrite Hvo. cbn [obind].
      destruct (mfind lt_dof d acc) as [cur|] eqn:Ea; [|discriminate]. simpl in Hasz. injection Hasz as Hasz. cbn [olift obind].
      set (blk := map _ (seq 0 (size d))).
      assert (Hbl : length blk = size d) by (unfold blk; rewrite map_length, seq_length; reflexivity).
      inversion Hnd as [|? ? Hni Hnd']; subst.
      assert (Hsorted : ascending (mset lt_dof d blk acc)) by (apply dsorted_ascending, msorted_mset; [intros x y z; apply ltdof_trans|apply ltdof_total|apply dsorted_ascending; exact Hacc]).
      destruct (IH (mset lt_dof d blk acc) Hnd' Hsorted) as (r & Hr & Hra & Hrs & Hrv & Hro).
      { intros d' Hd'. destruct (H d' (or_intror Hd')) as (H1 & H2 & H3 & H4). 
        assert (Hne : d' <> d) by (intros ->; contradiction).
        split; [exact H1|]. split; [exact H2|].
        unfold size_of, dval, val in *. rewrite dfind_dset by (apply dsorted_ascending; exact Hacc). destruct (Z.eqb_spec d' d); [contradiction|]. auto. }
      exists r. split; [exact Hr|]. split; [exact Hra|]. split; [|split].
      + intros d'. rewrite Hrs. unfold size_of. rewrite dfind_dset by (apply dsorted_ascending; exact Hacc). destruct (Z.eqb_spec d' d) as [->|]; [|reflexivity].
        rewrite Ea. simpl. f_equal. etransitivity; [exact Hbl|]. symmetry. exact Hasz.
      + intros d' i [<-|Hd'] Hi; [|apply Hrv; assumption].
        unfold dval, val. rewrite Hro by exact Hni. rewrite dfind_dset, Z.eqb_refl by (apply dsorted_ascending; exact Hacc).
        change (nth i blk 0 = db d i). unfold blk. rewrite nth_map_seq by exact Hi. rewrite Hnv, Hov. unfold db.
        specialize (Hz i). unfold dval, val in Hz. rewrite Ea in Hz. change (nth i cur 0 = 0) in Hz. rewrite Hz. apply Rplus_0_l.
      + intros d' Hd'. rewrite Hro by (intros Hin; apply Hd'; right; exact Hin). rewrite dfind_dset by (apply dsorted_ascending; exact Hacc).
        destruct (Z.eqb_spec d' d) as [->|]; [exfalso; apply Hd'; left; reflexivity|reflexivity].
  Qed.

  Lemma solve_trial_lemma h ops K f oldT newT dofs size num :
    system_fits K f dofs size -> constraints_fit h ops dofs size num -> dofs = bv_keys f ->
    let c := cons_run cons_empty ops in
    (solve_trial linsolve h c K f oldT newT dofs = Throw -> exists n A b, linsolve n A b = Throw) /\
    (solve_trial linsolve h c K f oldT newT dofs = UB -> exists n A b, linsolve n A b = UB) /\
    forall r, solve_trial linsolve h c K f oldT newT dofs = Ok r ->
      (forall d, @size_of RR r d = @size_of RR f d) /\
      (forall d e, In d dofs -> In e (equations c d) ->
         lhs (num d) (fun i => - dval r d i) e = to_float (erhs e newT) - to_float (erhs e oldT)) /\
      forall w, admissible c dofs num w -> virtual_work size dofs w (residual K size dofs (dval r) (dval f)) = 0.
  Proof.
    intros Hsys Hcon Hk c.
    destruct (system_setup h ops K f dofs size num Hsys Hcon) as (Kf & ff & D & C & Cm & Hall).
    pose proof Hall as (HKf & Hff & HD & HC & Hdim & Hrows & Hcols & _).
    pose proof Hsys as (Hasc & Hnd & Hsize & Hfit). pose proof Hcon as (Hns & Hper).
    destruct (dv_set_zero_lemma f Hasc) as (Hz1 & Hz2 & Hz3).
    destruct (delta_rhs_spec h ops f size num oldT newT Hasc Hns dofs (dv_set_zero f) Hnd Hz1) as (dbv & Hdb & Hdba & Hdbs & Hdbv & _).
    { intros d Hd. split; [apply Hsize; exact Hd|]. split; [apply (Hper d Hd)|]. split; [rewrite Hz2; apply Hsize; exact Hd|].
      intros i. apply Hz3. }
    fold c in Hdb.
    set (db := fun d i => to_float (prescribed (num d) (equations c d) newT i) - to_float (prescribed (num d) (equations c d) oldT i)) in *.
    assert (Hdsz : forall d, In d dofs -> @size_of RR dbv d = Some (size d)) by (intros d Hd; rewrite Hdbs, Hz2; auto).
    assert (HdB : exists dB, to_eigen dbv dofs = Some dB).
    { destruct (to_eigen dbv dofs) as [x|] eqn:Ex; [eauto|]. exfalso. apply (proj2 (to_eigen_defined dbv dofs)) in Ex; [exact Ex|].
      intros d Hd. rewrite (Hdsz d Hd). discriminate. }
    destruct HdB as (dB & HdB). destruct (to_eigen_nth dbv size dofs dB HdB Hdsz) as (_ & HdBn).
    set (rhs := map (fun a => nth a ff 0 + @mat_vec RR Kf (fun b => nth b dB 0) a) (seq 0 (srows C))).
    set (out := fun x => map (fun i => nth i (times C x) 0 - nth i dB 0) (seq 0 (srows C))).
    assert (E : solve_trial linsolve h c K f oldT newT dofs = obind (linsolve (scols C) (reduced_matrix C Kf) (reduced_rhs C rhs)) (fun x =>
      oassert (from_eigen (F := RR) (out x) (bv_keys f) f))).
    { unfold solve_trial. rewrite HKf. cbn [olift obind]. rewrite Hff. cbn [olift obind]. unfold c. rewrite HD. cbn [obind]. rewrite HC. cbn [olift obind].
      fold c. rewrite Hdb. cbn [obind]. rewrite HdB. cbn [olift obind]. rewrite Hdim. reflexivity. }
    rewrite E. rewrite <- Hk.
    assert (HF : forall x, exists r, from_eigen (F := RR) (out x) dofs f = Some r /\ ascending r /\
      to_eigen r dofs = Some (out x) /\ (forall d, @size_of RR r d = @size_of RR f d)).
    { intros x. destruct (from_to_eigen_lemma (F := RR) (out x) dofs f Hasc Hnd) as (r & H1 & H2 & H3 & H4 & _).
      - rewrite (total_rows_size f size dofs Hsize). f_equal. unfold out. rewrite map_length, seq_length. symmetry. exact Hrows.
      - exists r. auto. }
    destruct (linsolve (scols C) (reduced_matrix C Kf) (reduced_rhs C rhs)) as [X| |] eqn:EX; cbn [obind].
    - destruct (HF X) as (r & Hr & Hra & Hto & Hsz). rewrite Hr. cbn [oassert].
      split; [discriminate|]. split; [discriminate|]. intros r' [= <-].
      destruct (Hls _ _ _ _ EX) as (HXl & HXs). split; [exact Hsz|].
      destruct (to_eigen_nth r size dofs (out X) Hto) as (_ & Hn). { intros d Hd. rewrite Hsz. apply Hsize. exact Hd. }
      destruct (solution_correct h ops K f dofs size num Hsys Kf ff D C Cm X dB db r Hall HXl) as (Hadm & Hvw).
      + intros i Hi. rewrite (HXs i Hi), reduced_rhs_nth by exact Hi. apply rsum_ext. intros a Ha. f_equal.
        unfold rhs. rewrite nth_map_seq by exact Ha. reflexivity.
      + intros k d i Hk' Hi. rewrite (HdBn k d i Hk' Hi). apply Hdbv; [eapply nth_error_In; eauto|exact Hi].
      + intros d i Hd Hi. destruct (In_nth_error _ _ Hd) as (k & Hk'). exists k. split; [exact Hk'|].
        pose proof (offset_lt size dofs k d i Hk' Hi) as Hlt. rewrite <- Hrows in Hlt.
        rewrite <- (Hn k d i Hk' Hi). unfold out. rewrite nth_map_seq by exact Hlt. rewrite times_nth by exact Hlt.
        apply (f_equal2 Rminus); [reflexivity|]. etransitivity; [exact (HdBn k d i Hk' Hi)|]. apply Hdbv; assumption.
      + split; [|exact Hvw]. intros d e Hd He. destruct (Hper d Hd) as (Hnum & _).
        pose proof (Hadm d e Hd He) as H0. change (lhs (num d) (fun i => dval r d i + db d i) e = 0) in H0. rewrite lhs_add in H0.
        assert (H1 : lhs (num d) (db d) e = to_float (erhs e newT) - to_float (erhs e oldT)).
        { apply (lhs_prescribed ops h d (size d) (num d) (fun e => to_float (erhs e newT) - to_float (erhs e oldT)) (db d) Hns Hnum); [|exact He].
          intros i. unfold db, prescribed. fold c. destruct (find _ (equations c d)); [reflexivity|lra]. }
        rewrite lhs_opp. lra.
    - split; [|split; [discriminate|intros r; discriminate]]. intros _. eauto.
    - split; [discriminate|split; [|intros r; discriminate]]. intros _. eauto.
  Qed.
End Main.
