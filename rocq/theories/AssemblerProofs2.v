(** * Proofs for C18 and C19 *)
From Coq Require Import List ZArith Arith Bool Lia Ring Sorted Permutation Reals Lra.
From Verif Require Import Algebra Outcome DofModel DofSpec DofProofs AssemblerModel AssemblerSpec AssemblerProofs.
Import ListNotations.

(** ** sums of contributions *)
Section Sums.
  Context {F : CRing}.
  Add Ring Fring2 : (r_theory F).
  Local Open Scope cring_scope.

  Lemma sum_pick N k (x : F) : (0 <= k < Z.of_nat N)%Z -> sum_n N (fun n => if Z.eqb k (Z.of_nat n) then x else 0) = x.
  Proof.
    intros H. rewrite (sum_n_single F N (Z.to_nat k)) by (try lia; intros i Hi Hne; destruct (Z.eqb_spec k (Z.of_nat i)); auto; lia).
    replace (Z.eqb k (Z.of_nat (Z.to_nat k))) with true by (symmetry; apply Z.eqb_eq; lia). reflexivity.
  Qed.

  Lemma sum_contrib nums : forall (x : vec F) N, numbers_below nums N -> length x = length nums ->
    sum_n N (contrib nums x) = lsum x.
  Proof.
    induction nums as [|k ks IH]; intros x N Hb Hl.
    - destruct x; [|discriminate]. apply sum_n_zero. intros. apply contrib_nil.
    - destruct x as [|a x]; [discriminate|]. apply Forall_cons_iff in Hb. destruct Hb as (Hk & Hks).
      rewrite (sum_n_ext F N _ (fun n => (if Z.eqb k (Z.of_nat n) then a else 0) + contrib ks x n))
        by (intros; apply contrib_cons).
      rewrite sum_n_add, sum_pick, IH; auto.
  Qed.

  Lemma nth_numbers_below nums N i : numbers_below nums N -> (i < length nums)%nat -> (0 <= nth i nums 0 < Z.of_nat N)%Z.
  Proof. intros H Hi. unfold numbers_below in H. rewrite Forall_forall in H. apply H. apply nth_In. auto. Qed.

  Lemma sum_contrib2 numI numJ (m : dmat F) N K : numbers_below numI N -> numbers_below numJ K ->
    sum_n N (fun r => sum_n K (fun c => contrib2 numI numJ m r c)) =
    sum_n (length numI) (fun i => sum_n (length numJ) (fun j => dat m i j)).
  Proof.
    intros HI HJ. unfold contrib2.
    rewrite (sum_n_ext F N _ (fun r => sum_n (length numI) (fun i => sum_n (length numJ) (fun j => sum_n K (fun c =>
      if andb (Z.eqb (nth i numI 0%Z) (Z.of_nat r)) (Z.eqb (nth j numJ 0%Z) (Z.of_nat c)) then dat m i j else 0))))).
    2:{ intros r _. rewrite sum_n_swap. apply sum_n_ext. intros i _. apply sum_n_swap. }
    rewrite sum_n_swap. apply sum_n_ext. intros i Hi. rewrite sum_n_swap. apply sum_n_ext. intros j Hj.
    rewrite (sum_n_ext F N _ (fun r => if Z.eqb (nth i numI 0%Z) (Z.of_nat r) then dat m i j else 0)).
    - apply sum_pick. apply nth_numbers_below; auto.
    - intros r _. destruct (Z.eqb (nth i numI 0%Z) (Z.of_nat r)); simpl.
      + apply sum_pick. apply nth_numbers_below; auto.
      + apply sum_n_zero. auto.
  Qed.
End Sums.

(** ** C18 *)
Ltac to_R := match goal with |- @eq _ ?a ?b => change (@eq R a b) end.
Section Lumped.
  Variable num : Z -> nat.
  Local Open Scope R_scope.
  Local Notation RR := R_cring.

  (** the contribution of a cell to the lumped entry [n] of dof type [d] *)
  Definition lumped_contrib (c : mcell RR) (d : Z) (n : nat) : R :=
    match mfind lt_dofpair (d, d) (mc_val c) with
    | Some m => @contrib RR (mc_num c d) (lumped_local num d m) n | None => 0 end.

  Lemma lumped_dofs_ok nums (h : dofdense RR) dofs : forall v : dofvec RR, NoDup dofs -> ascending v ->
    (forall d, In d dofs -> exists m n, mfind lt_dofpair (d, d) h = Some m /\ (length (nums d) <= length (lumped_local num d m))%nat /\
       size_of v d = Some n /\ numbers_below (nums d) n) ->
    exists v', lumped_dofs num nums h dofs v = Ok v' /\ ascending v' /\ (forall d, size_of v' d = size_of v d) /\
      forall d n, val v' d n = (val v d n +
        (if existsb (Z.eqb d) dofs then match mfind lt_dofpair (d, d) h with
           | Some m => @contrib RR (nums d) (lumped_local num d m) n | None => 0 end else 0))%R.
  Proof.
    induction dofs as [|d dofs IH]; intros v Hnd Hv Hd; cbn [lumped_dofs].
    - exists v. repeat split; auto. intros. simpl. lra.
    - inversion Hnd as [|? ? Hni Hnd']; subst.
      destruct (Hd d (or_introl eq_refl)) as (m & n & Ex & Hlen & Hs & Hb). rewrite Ex.
      unfold dc_index, size_of in *. destruct (mfind lt_dof d v) as [vd|] eqn:Ev; [|discriminate].
      simpl in Hs. injection Hs as <-.
      destruct (@scatter_ok RR (nums d) vd (lumped_local num d m) Hb Hlen) as (vd' & E & Hl & Hn). rewrite E. cbn [obind].
      assert (Hdv : dsorted v) by (apply dsorted_ascending; auto).
      destruct (IH (mset lt_dof d vd' v)) as (v' & E' & Ha & Hsz & Hval); auto.
      + apply dsorted_ascending. apply dsorted_mset. auto.
      + intros d' Hd'. destruct (Hd d' (or_intror Hd')) as (xd' & n' & ? & ? & Hs' & ?).
        exists xd', n'. repeat split; auto. rewrite dfind_dset by auto.
        destruct (Z.eqb_spec d' d); [subst; tauto|]. auto.
      + exists v'. split; auto. split; auto. split.
        * intros d'. rewrite Hsz. rewrite dfind_dset by auto.
          destruct (Z.eqb_spec d' d) as [->|]; [|reflexivity]. rewrite Ev. simpl. f_equal. exact Hl.
        * intros d0 k. rewrite Hval. unfold val. rewrite dfind_dset by auto. simpl.
          destruct (Z.eqb_spec d0 d) as [->|Hne]; simpl.
          -- rewrite Ev, Ex. rewrite (in_nodup_existsb d dofs) by auto. rewrite Rplus_0_r. exact (Hn k).
          -- reflexivity.
  Qed.

  Lemma lumped_local_length d (m : dmat RR) k : drows m = k -> dcols m = k -> length (lumped_local num d m) = k.
  Proof.
    intros H1 H2. unfold lumped_local, local_diagonal. rewrite !map_length, seq_length, H1, H2. apply Nat.min_id.
  Qed.

  Lemma build_lumped_lemma info threads cells dofTypes N :
    NoDup dofTypes -> (0 < threads)%nat -> sizes_known info dofTypes N -> Forall (mcell_fits dofTypes N) cells ->
    (exists g, build_lumped num info threads cells dofTypes (Ok g)) /\
    forall r, build_lumped num info threads cells dofTypes r ->
      exists g, r = Ok g /\ ascending g /\
        (forall d, size_of g d = if existsb (Z.eqb d) dofTypes then Some (N d) else None) /\
        (forall d n, In d dofTypes -> val g d n = @sum_over RR _ cells (fun c => lumped_contrib c d n)).
  Proof.
    intros Hnd Ht Hk Hc. unfold build_lumped.
    destruct (properly_resized_ok (F := RR) info N dofTypes Hk [] (SSorted_nil _)) as (zero & -> & Ha & Hs & Hv).
    set (PL := fun l : dofvec RR => ascending l /\ forall d, size_of l d = size_of zero d).
    assert (HP : PL zero) by (split; auto).
    destruct (parallel_lemma (lumped_cell num dofTypes) (fun g l => of_option (dv_add g l)) RR PL PL (mcell_fits dofTypes N)
      (fun l (i : Z * nat) => val l (fst i) (snd i)) (fun l i => val l (fst i) (snd i))
      (fun c i => if existsb (Z.eqb (fst i)) dofTypes then lumped_contrib c (fst i) (snd i) else 0)) with
      (threads := threads) (l0 := zero) (g0 := zero) (cells := cells) as (Hex & Hall); auto.
    - intros l c (Hla & Hls) (Hca & Hcf). unfold lumped_cell. rewrite dof_intersection_filter by auto.
      set (dofs := filter (fun d => existsb (Z.eqb d) dofTypes) (mat_types (mc_val c))).
      assert (Hdofs : forall d, In d dofs <-> In d (mat_types (mc_val c)) /\ In d dofTypes).
      { intros d. unfold dofs. rewrite filter_In, mem_existsb. tauto. }
      destruct (lumped_dofs_ok (mc_num c) (mc_val c) dofs l) as (l' & E & Ha' & Hs' & Hv').
      + apply NoDup_filter, mat_types_NoDup.
      + auto.
      + intros d Hd. apply Hdofs in Hd. destruct Hd as (Hd & Hin).
        destruct (Hcf d d Hin Hin Hd Hd) as (m & Em & Hr & Hcl & HI & _).
        exists m, (N d). repeat split; auto.
        * rewrite (lumped_local_length d m (length (mc_num c d))); auto.
        * rewrite Hls, Hs. apply mem_existsb in Hin. rewrite Hin. reflexivity.
      + exists l'. split; auto. split; [split; auto; intros; rewrite Hs'; auto|].
        intros [d n]. cbn [fst snd]. rewrite Hv'. change (@radd RR) with Rplus. f_equal. unfold lumped_contrib.
        destruct (existsb (Z.eqb d) dofTypes) eqn:E1.
        * destruct (mfind lt_dofpair (d, d) (mc_val c)) as [m|] eqn:Em.
          -- match goal with |- (if ?b then _ else _) = _ => replace b with true; [reflexivity|] end.
             symmetry. apply mem_existsb. apply Hdofs. apply find2_types in Em. apply mem_existsb in E1. tauto.
          -- match goal with |- (if ?b then _ else _) = _ => destruct b; reflexivity end.
        * match goal with |- (if ?b then _ else _) = _ => replace b with false; [reflexivity|] end. symmetry.
          apply in_nodup_existsb. rewrite Hdofs. intros (_ & Hd). apply mem_existsb in Hd. congruence.
    - intros g l Hg Hl. apply merge_vec_ok; auto.
    - intros [d n]. simpl. rewrite Hv. destruct (existsb _ _); auto.
    - split; [exact Hex|]. intros r Hr. destruct (Hall r Hr) as (g & -> & (Hga & Hgs) & Hgv).
      exists g. split; auto. split; auto. split.
      + intros d. rewrite Hgs, Hs. reflexivity.
      + intros d n Hd. pose proof (Hgv (d, n)) as E. cbn [fst snd] in E.
        assert (Hd' : existsb (Z.eqb d) dofTypes = true) by (apply mem_existsb; auto).
        rewrite Hd' in E. rewrite E. rewrite Hv, Hd'. change (@radd RR) with Rplus. change (@r0 RR) with 0. lra.
  Qed.

  Lemma lsum_scale (l : list R) k : @lsum RR (map (fun x => x * k) l) = @lsum RR l * k.
  Proof. induction l as [|x l IH]; simpl; [lra|]. change (@radd RR) with Rplus. rewrite IH. lra. Qed.

  Lemma lumped_local_sum d (m : dmat RR) : @lsum RR (local_diagonal m) <> 0 -> (0 < num d)%nat ->
    @lsum RR (lumped_local num d m) = full_sum m / INR (num d).
  Proof.
    intros H Hn. unfold lumped_local. rewrite lsum_scale. to_R. field. split; auto. apply not_0_INR. lia.
  Qed.

  Lemma nth_nonneg (l : list R) n : Forall (Rle 0) l -> 0 <= nth n l 0.
  Proof. intros H. revert n. induction H; intros [|n]; simpl; auto; lra. Qed.

  Lemma lsum_nonneg (l : list R) : Forall (Rle 0) l -> 0 <= @lsum RR l.
  Proof. induction 1; simpl; [lra|]. change (@radd RR) with Rplus. lra. Qed.

  Lemma lsum_zero_all (l : list R) : Forall (Rle 0) l -> @lsum RR l = 0 -> forall z, In z l -> z = 0.
  Proof.
    induction 1 as [|a l Ha Hl IH]; simpl; [tauto|]. change (@radd RR) with Rplus.
    pose proof (lsum_nonneg _ Hl). intros E z [->|Hz]; [lra|]. apply IH; auto. lra.
  Qed.

  Lemma lumped_local_nonneg d (m : dmat RR) : (0 < num d)%nat -> Forall (Rle 0) (local_diagonal m) -> 0 < full_sum m ->
    Forall (Rle 0) (lumped_local num d m).
  Proof.
    intros Hn Hd Hf. unfold lumped_local. apply Forall_forall. intros x Hx. apply in_map_iff in Hx.
    destruct Hx as (y & <- & Hy). pose proof (lsum_nonneg _ Hd) as Hs.
    assert (0 < INR (num d)) by (apply lt_0_INR; auto).
    rewrite Forall_forall in Hd. pose proof (Hd _ Hy) as Hy0.
    destruct (Rle_lt_or_eq_dec _ _ Hs) as [Hp|Hz].
    - apply Rmult_le_pos; auto. apply Rlt_le. apply Rdiv_lt_0_compat; auto. apply Rdiv_lt_0_compat; auto.
    - rewrite (lsum_zero_all _ (proj2 (Forall_forall _ _) Hd) (eq_sym Hz) y Hy). lra.
  Qed.

  Lemma contrib_nonneg nums : forall (x : vec RR) n, Forall (Rle 0) x -> 0 <= @contrib RR nums x n.
  Proof.
    induction nums as [|k ks IH]; intros x n H.
    - rewrite contrib_nil. simpl. lra.
    - destruct x as [|a x].
      + unfold contrib. rewrite sum_n_zero; [simpl; lra|]. intros i _. destruct i; destruct (Z.eqb _ _); reflexivity.
      + rewrite contrib_cons. inversion H; subst. specialize (IH x n H3).
        change (@radd RR) with Rplus. destruct (Z.eqb _ _); simpl; lra.
  Qed.

  Lemma sum_over_nonneg {A} (l : list A) (f : A -> R) : (forall a, In a l -> 0 <= f a) -> 0 <= @sum_over RR _ l f.
  Proof.
    intros H. apply lsum_nonneg. apply Forall_forall. intros x Hx. apply in_map_iff in Hx.
    destruct Hx as (a & <- & Ha). auto.
  Qed.

  (** the total lumped mass of a dof type is the consistent total divided by its
      number of components *)
  Lemma lumped_total_lemma info threads threads' cells dofTypes N d g K m :
    NoDup dofTypes -> (0 < threads)%nat -> (0 < threads')%nat -> sizes_known info dofTypes N ->
    Forall (mcell_fits dofTypes N) cells -> In d dofTypes -> (0 < num d)%nat ->
    (forall c x, In c cells -> mfind lt_dofpair (d, d) (mc_val c) = Some x -> @lsum RR (local_diagonal x) <> 0) ->
    build_lumped num info threads cells dofTypes (Ok g) ->
    build_matrix info threads' cells dofTypes (Ok K) -> mat_at K d d = Some m ->
    INR (num d) * @sum_n RR (N d) (fun n => val g d n) =
    @sum_n RR (N d) (fun i => @sum_n RR (N d) (fun j => entry m i j)).
  Proof.
    intros Hnd Ht Ht' Hk Hc Hd Hn Hdiag Hg HK Hm.
    destruct (build_lumped_lemma info threads cells dofTypes N Hnd Ht Hk Hc) as (_ & HL).
    destruct (HL _ Hg) as (g' & E & _ & _ & Hval). injection E as <-.
    destruct (build_matrix_lemma (F := RR) info threads' cells dofTypes N Hnd Ht' Hk Hc) as (_ & HM).
    destruct (HM _ HK) as (K' & E & Hent & _). injection E as <-.
    destruct (Hent d d Hd Hd) as (m' & Em' & _ & _ & _ & He). rewrite Hm in Em'. injection Em' as <-.
    rewrite (sum_n_ext RR _ _ (fun n => @sum_over RR _ cells (fun c => lumped_contrib c d n))) by (intros; apply Hval; auto).
    rewrite (sum_n_ext RR _ (fun i => sum_n (N d) (fun j => entry m i j))
      (fun i => @sum_n RR (N d) (fun j => @sum_over RR _ cells (fun c => mcell_contrib c d d i j)))).
    2:{ intros i _. apply sum_n_ext. intros j _. apply He. }
    unfold sum_n at 1. rewrite sum_over_swap.
    rewrite (sum_n_ext RR _ (fun i => sum_n (N d) _)
      (fun i => @sum_over RR _ cells (fun c => @sum_n RR (N d) (fun j => mcell_contrib c d d i j)))).
    2:{ intros i _. unfold sum_n. apply sum_over_swap. }
    unfold sum_n at 1. rewrite (sum_over_swap RR (seq 0 (N d)) cells).
    change Rmult with (@rmul RR). rewrite <- sum_over_scal. apply (sum_over_ext RR). intros c Hin.
    rewrite Forall_forall in Hc. destruct (Hc c Hin) as (Hca & Hcf).
    fold (@sum_n RR (N d) (lumped_contrib c d)).
    change (sum_over (seq 0 (N d)) (fun i => sum_n (N d) (fun j => mcell_contrib c d d i j)))
      with (@sum_n RR (N d) (fun i => @sum_n RR (N d) (fun j => mcell_contrib c d d i j))).
    unfold lumped_contrib, mcell_contrib.
    destruct (mfind lt_dofpair (d, d) (mc_val c)) as [x|] eqn:Ex.
    - destruct (find2_types _ _ _ _ Ex) as (Htd & _).
      destruct (Hcf d d Hd Hd Htd Htd) as (x' & Ex' & Hr & Hcl & HI & _).
      rewrite Ex in Ex'. injection Ex' as <-.
      rewrite sum_contrib2 by auto.
      pose proof (@sum_contrib RR _ (lumped_local num d x) (N d) HI (lumped_local_length d x _ Hr Hcl)) as E.
      transitivity (@rmul RR (INR (num d)) (@lsum RR (lumped_local num d x))); [exact (f_equal (Rmult (INR (num d))) E)|].
      rewrite lumped_local_sum; [|eapply Hdiag; eauto|auto].
      simpl. unfold full_sum. rewrite Hr, Hcl. to_R. field. apply not_0_INR. lia.
    - rewrite (sum_n_zero RR (N d)) by (intros; apply sum_n_zero; auto).
      rewrite (sum_over_zero RR (seq 0 (N d))) by auto. simpl. to_R. lra.
  Qed.

  Lemma lumped_nonneg_lemma info threads cells dofTypes N d g :
    NoDup dofTypes -> (0 < threads)%nat -> sizes_known info dofTypes N ->
    Forall (mcell_fits dofTypes N) cells -> In d dofTypes -> (0 < num d)%nat ->
    (forall c x, In c cells -> mfind lt_dofpair (d, d) (mc_val c) = Some x ->
       Forall (Rle 0) (local_diagonal x) /\ 0 < full_sum x) ->
    build_lumped num info threads cells dofTypes (Ok g) -> forall n, 0 <= val g d n.
  Proof.
    intros Hnd Ht Hk Hc Hd Hn Hpos Hg n.
    destruct (build_lumped_lemma info threads cells dofTypes N Hnd Ht Hk Hc) as (_ & HL).
    destruct (HL _ Hg) as (g' & E & _ & _ & Hval). injection E as <-. rewrite Hval by auto.
    apply sum_over_nonneg. intros c Hin. unfold lumped_contrib.
    destruct (mfind lt_dofpair (d, d) (mc_val c)) as [x|] eqn:Ex; [|lra].
    destruct (Hpos c x Hin Ex). apply contrib_nonneg. apply lumped_local_nonneg; auto.
  Qed.
End Lumped.
