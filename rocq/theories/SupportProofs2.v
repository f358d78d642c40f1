(** * Proofs for C106: systems that are definite on the admissible vectors have exactly one solution *)
From Coq Require Import List Arith ZArith Bool Reals Lra Lia.
From Verif Require Import Outcome RSum Algebra DofModel DofSpec DofProofs ConstraintModel ConstraintSpec ConstraintProofs ConstraintProofs2 SolveModel SolveSpec SolveProofs SupportSpec.
Import ListNotations.
Local Open Scope R_scope.

Lemma rlsum_ext' {A} (l : list A) f g : (forall a, In a l -> f a = g a) -> rlsum (map f l) = rlsum (map g l).
Proof. intros H. f_equal. apply map_ext_in. exact H. Qed.
Lemma rlsum_minus' {A} (l : list A) f g : rlsum (map (fun a => f a - g a) l) = rlsum (map f l) - rlsum (map g l).
Proof. induction l as [|a l IH]; cbn [map rlsum]; [ring|]. rewrite IH. ring. Qed.

Fixpoint position (l : list Z) (d : Z) : nat := match l with [] => O | x :: l' => if Z.eqb x d then O else S (position l' d) end.
Lemma position_in l d : In d l -> nth_error l (position l d) = Some d.
Proof.
  induction l as [|x l IH]; [intros []|]. intros H. cbn [position]. destruct (Z.eqb_spec x d) as [->|N]; [reflexivity|].
  destruct H as [->|H]; [congruence|]. exact (IH H).
Qed.
Lemma position_unique l k d : NoDup l -> nth_error l k = Some d -> position l d = k.
Proof.
  intros ND H. apply (proj1 (NoDup_nth_error l) ND); [|rewrite position_in by (eapply nth_error_In; exact H); symmetry; exact H].
  apply nth_error_Some. rewrite position_in by (eapply nth_error_In; exact H). discriminate.
Qed.
Lemma offset_split dim : forall dofs i, (i < offset dim dofs (length dofs))%nat ->
  exists k d j, nth_error dofs k = Some d /\ (j < dim d)%nat /\ i = (offset dim dofs k + j)%nat.
Proof.
  induction dofs as [|d l IH]; intros i Hi; [unfold offset in Hi; cbn in Hi; lia|]. cbn [length] in Hi. rewrite offset_S in Hi.
  destruct (Nat.lt_ge_cases i (dim d)) as [H|H].
  - exists O, d, i. split; [reflexivity|]. split; [exact H|reflexivity].
  - destruct (IH (i - dim d)%nat ltac:(lia)) as (k & d' & j & Hk & Hj & E). exists (S k), d', j. split; [exact Hk|]. split; [exact Hj|]. rewrite offset_S. lia.
Qed.

Section Regular.
  Variables (h : nodes) (ops : list cons_op) (K : dofmat RR) (f : dofvec RR) (dofs : list Z) (size : Z -> nat) (num : Z -> dofkey -> nat).
  Let c := cons_run cons_empty ops.
  Hypotheses (Hsys : system_fits K f dofs size) (Hcon : constraints_fit h ops dofs size num) (Hdef : definite K c dofs size num).

  Lemma reduced_regular Kf C (Cm : Z -> smat RR) :
    srows C = offset size dofs (length dofs) -> scols C = offset (fun d => scols (Cm d)) dofs (length dofs) -> scols Kf = srows C ->
    (forall x k d i, nth_error dofs k = Some d -> (i < size d)%nat ->
          @mat_vec RR C x (offset size dofs k + i)%nat = @mat_vec RR (Cm d) (fun j => x (offset (fun d => scols (Cm d)) dofs k + j)%nat) i) ->
    (forall x u k d i, nth_error dofs k = Some d -> (i < size d)%nat ->
          (forall k d j, nth_error dofs k = Some d -> (j < size d)%nat -> x (offset size dofs k + j)%nat = u d j) ->
          @mat_vec RR Kf x (offset size dofs k + i)%nat = rlsum (map (fun b => rsum (size b) (fun j => kval K d b i j * u b j)) dofs)) ->
    (forall d, In d dofs -> forall u, (forall e, In e (equations c d) -> lhs (num d) u e = 0) <->
          exists v : list R, length v = scols (Cm d) /\ forall i, (i < size d)%nat -> u i = @mat_vec RR (Cm d) (fun j => nth j v 0) i) ->
    (forall d, In d dofs -> unit_constraint_matrix h c d (size d) = Ok (Cm d)) ->
    forall X : nat -> R, (forall i, (i < scols C)%nat -> rsum (scols C) (fun j => reduced_matrix C Kf i j * X j) = 0) -> forall i, (i < scols C)%nat -> X i = 0.
  Proof.
    intros Hrows Hcols Hd2 HCv HKv Hpar Hunit X HX.
    pose proof Hsys as (Hasc & Hnd & Hsize & Hfit). pose proof Hcon as (Hns & Hper).
    set (cdim := fun d => scols (Cm d)) in *.
    set (part := fun d => map (fun j => X (offset cdim dofs (position dofs d) + j)%nat) (seq 0 (cdim d))).
    assert (Lp : forall d, length (part d) = cdim d) by (intros; unfold part; rewrite map_length, seq_length; reflexivity).
    set (w := fun d i => @mat_vec RR (Cm d) (fun j => nth j (part d) 0) i).
    assert (Hw : forall k d i, nth_error dofs k = Some d -> (i < size d)%nat -> @mat_vec RR C X (offset size dofs k + i)%nat = w d i).
    { intros k d i Hk Hi. rewrite (HCv X k d i Hk Hi). unfold w. rewrite !mat_vec_rsum. apply rsum_ext. intros j Hj. f_equal.
      unfold part. change (scols (Cm d)) with (cdim d) in Hj. rewrite nth_map_seq by exact Hj. rewrite (position_unique dofs k d Hnd Hk). reflexivity. }
    assert (Aw : admissible c dofs num w).
    { intros d e Hd He. apply (proj2 (Hpar d Hd (w d))); [|exact He]. exists (part d). split; [apply Lp|]. intros i Hi. reflexivity. }
    assert (Vw : virtual_work size dofs w (residual K size dofs w (fun _ _ => 0)) = 0).
    { unfold virtual_work. rewrite <- (sum_blocks_list size dofs (fun a => @mat_vec RR C X a * (@mat_vec RR Kf (@mat_vec RR C X) a - 0))).
      2:{ intros k d i Hk Hi. rewrite (Hw k d i Hk Hi). f_equal. unfold residual. f_equal. apply (HKv _ w k d i Hk Hi). exact Hw. }
      rewrite <- Hrows. set (N := srows C).
      transitivity (rsum N (fun a => rsum (scols C) (fun i => mentry C a i * X i) *
          (rsum N (fun b => mentry Kf a b * rsum (scols C) (fun j => mentry C b j * X j)) - 0))).
      - apply rsum_ext. intros a Ha. rewrite (mat_vec_rsum C X a). f_equal. f_equal. rewrite mat_vec_rsum, Hd2. fold N. apply rsum_ext. intros b Hb.
        rewrite mat_vec_rsum. reflexivity.
      - apply (reduced_work N (scols C) (mentry C) (mentry Kf) X X (fun _ => 0)). intros i Hi. rewrite (rsum_zero N) by (intros; ring).
        rewrite <- (HX i Hi). apply rsum_ext. intros j Hj. f_equal. unfold reduced_matrix, rsumn. fold N. rewrite sum_n_rsum. apply rsum_ext. intros a Ha. symmetry. apply sum_n_rsum. }
    pose proof (Hdef w Aw Vw) as Zw.
    intros i Hi. rewrite Hcols in Hi. destruct (offset_split cdim dofs i Hi) as (k & d & j & Hk & Hj & ->).
    assert (Hd : In d dofs) by (eapply nth_error_In; exact Hk). destruct (Hper d Hd) as (Hnum & Hcoef).
    destruct (constraint_matrix_lemma ops h d (size d) (num d) Hns Hnum Hcoef) as (C' & HC' & _ & _ & _ & Hall).
    assert (C' = Cm d). { pose proof (Hunit d Hd) as Hu. unfold c in Hu. rewrite Hu in HC'. injection HC' as <-. reflexivity. } subst C'.
    destruct (Hall (prescribed (num d) (equations c d) 0) 0) as (_ & Huniq).
    assert (E : part d = repeat 0 (cdim d)).
    { apply Huniq; [apply Lp|apply repeat_length| |].
      - intros n Hn. fold (w d n). rewrite (Zw d n Hd Hn). symmetry. apply Rplus_0_l.
      - intros n Hn. rewrite mat_vec_rsum, rsum_zero; [symmetry; apply Rplus_0_l|]. intros m Hm. rewrite nth_repeat. ring. }
    assert (E' : nth j (part d) 0 = 0) by (rewrite E; apply nth_repeat).
    unfold part in E'. rewrite nth_map_seq in E' by exact Hj. rewrite (position_unique dofs k d Hnd Hk) in E'. exact E'.
  Qed.

  Variable linsolve : nat -> (nat -> nat -> R) -> list R -> outcome (list R).
  Hypotheses (Hls : solver_correct linsolve) (Hcp : solver_complete linsolve) (Hk : dofs = bv_keys f).

  Lemma solve_returns : exists r, solve linsolve h c K f dofs = Ok r.
  Proof.
    destruct (system_setup_unit h ops K f dofs size num Hsys Hcon) as (Kf & ff & D & C & Cm & HKf & Hff & HD & HC & Hdim & Hrows & Hcols & Hfn & HCv & HKv & Hpar & Hunit).
    pose proof Hsys as (Hasc & Hnd & Hsize & Hfit).
    pose proof Hdim as Hdim'. unfold dims_fit in Hdim'. apply andb_true_iff in Hdim'. destruct Hdim' as (Hdim' & Hd3). apply andb_true_iff in Hdim'. destruct Hdim' as (Hd1 & Hd2).
    apply Nat.eqb_eq in Hd1, Hd2, Hd3.
    destruct (Hcp (scols C) (reduced_matrix C Kf) (reduced_rhs C ff)) as (x & Ex).
    { unfold reduced_rhs. rewrite map_length, seq_length. reflexivity. }
    { exact (reduced_regular Kf C Cm Hrows Hcols Hd2 HCv HKv Hpar Hunit). }
    destruct (from_to_eigen_lemma (F := RR) (times C x) dofs f Hasc Hnd) as (r & Hr & _).
    { rewrite (total_rows_size f size dofs Hsize). f_equal. unfold times. rewrite map_length, seq_length. symmetry. exact Hrows. }
    exists r. unfold solve, c. rewrite HKf. cbn [olift obind]. rewrite Hff. cbn [olift obind]. rewrite HD. cbn [obind]. rewrite HC. cbn [olift obind].
    rewrite Hdim, Ex. cbn [obind]. rewrite <- Hk, Hr. reflexivity.
  Qed.

  Lemma solve_trial_returns oldT newT : exists r, solve_trial linsolve h c K f oldT newT dofs = Ok r.
  Proof.
    destruct (system_setup_unit h ops K f dofs size num Hsys Hcon) as (Kf & ff & D & C & Cm & HKf & Hff & HD & HC & Hdim & Hrows & Hcols & Hfn & HCv & HKv & Hpar & Hunit).
    pose proof Hsys as (Hasc & Hnd & Hsize & Hfit). pose proof Hcon as (Hns & Hper).
    pose proof Hdim as Hdim'. unfold dims_fit in Hdim'. apply andb_true_iff in Hdim'. destruct Hdim' as (Hdim' & Hd3). apply andb_true_iff in Hdim'. destruct Hdim' as (Hd1 & Hd2).
    apply Nat.eqb_eq in Hd1, Hd2, Hd3.
    destruct (dv_set_zero_lemma f Hasc) as (Hz1 & Hz2 & Hz3).
    destruct (delta_rhs_spec h ops f size num oldT newT Hasc Hns dofs (dv_set_zero f) Hnd Hz1) as (dbv & Hdb & Hdba & Hdbs & Hdbv & _).
    { intros d Hd. split; [apply Hsize; exact Hd|]. split; [apply (Hper d Hd)|]. split; [rewrite Hz2; apply Hsize; exact Hd|]. intros i. apply Hz3. }
    assert (Hdsz : forall d, In d dofs -> @size_of RR dbv d = Some (size d)) by (intros d Hd; rewrite Hdbs, Hz2; auto).
    assert (HdB : exists dB, to_eigen dbv dofs = Some dB).
    { destruct (to_eigen dbv dofs) as [x|] eqn:Ex; [eauto|]. exfalso. apply (proj2 (to_eigen_defined dbv dofs)) in Ex; [exact Ex|].
      intros d Hd. rewrite (Hdsz d Hd). discriminate. }
    destruct HdB as (dB & HdB).
    set (rhs := map (fun a => nth a ff 0 + @mat_vec RR Kf (fun b => nth b dB 0) a) (seq 0 (srows C))).
    destruct (Hcp (scols C) (reduced_matrix C Kf) (reduced_rhs C rhs)) as (x & Ex).
    { unfold reduced_rhs. rewrite map_length, seq_length. reflexivity. }
    { exact (reduced_regular Kf C Cm Hrows Hcols Hd2 HCv HKv Hpar Hunit). }
    destruct (from_to_eigen_lemma (F := RR) (map (fun i => nth i (times C x) 0 - nth i dB 0) (seq 0 (srows C))) dofs f Hasc Hnd) as (r & Hr & _).
    { rewrite (total_rows_size f size dofs Hsize). f_equal. rewrite map_length, seq_length. symmetry. exact Hrows. }
    exists r. unfold solve_trial, c. rewrite HKf. cbn [olift obind]. rewrite Hff. cbn [olift obind]. rewrite HD. cbn [obind]. rewrite HC. cbn [olift obind].
    rewrite Hdb. cbn [obind]. rewrite HdB. cbn [olift obind]. rewrite Hdim. fold rhs. rewrite Ex. cbn [obind]. rewrite <- Hk, Hr. reflexivity.
  Qed.

  Lemma residual_sub u v p d i : residual K size dofs u p d i - residual K size dofs v p d i = residual K size dofs (fun d i => u d i - v d i) (fun _ _ => 0) d i.
  Proof.
    unfold residual.
    rewrite (rlsum_ext' dofs (fun b => rsum (size b) (fun j => kval K d b i j * (u b j - v b j))) (fun b => rsum (size b) (fun j => kval K d b i j * u b j) - rsum (size b) (fun j => kval K d b i j * v b j))).
    - rewrite rlsum_minus'. ring.
    - intros b _. rewrite <- rsum_minus. apply rsum_ext. intros j Hj. ring.
  Qed.
  Lemma unique u v p : admissible c dofs num (fun d i => u d i - v d i) ->
    (forall w, admissible c dofs num w -> virtual_work size dofs w (residual K size dofs u p) = 0) ->
    (forall w, admissible c dofs num w -> virtual_work size dofs w (residual K size dofs v p) = 0) ->
    forall d i, In d dofs -> (i < size d)%nat -> u d i = v d i.
  Proof.
    intros A Hu Hv d i Hd Hi. assert (Z : u d i - v d i = 0); [|lra].
    apply (Hdef (fun d i => u d i - v d i) A); [|exact Hd|exact Hi].
    transitivity (virtual_work size dofs (fun d i => u d i - v d i) (residual K size dofs u p) - virtual_work size dofs (fun d i => u d i - v d i) (residual K size dofs v p)).
    - unfold virtual_work. rewrite <- rlsum_minus'. apply rlsum_ext'. intros b _. rewrite <- rsum_minus. apply rsum_ext. intros j Hj.
      rewrite <- residual_sub with (p := p). ring.
    - rewrite (Hu _ A), (Hv _ A). ring.
  Qed.
End Regular.
