From Coq Require Import List ZArith Arith Bool Reals Lra Lia Sorted.
From Verif Require Import RSum Algebra Outcome DofModel DofSpec DofProofs ConstraintModel ConstraintSpec ConstraintProofs ConstraintProofs2 ConstraintProofs3.
From Verif Require Import SolveModel SolveSpec SolveProofs SupportSpec SupportProofs2 AdaptiveModel NewtonModel NewtonProofs QuasiModel QuasiSpec QuasiProofs.
Import ListNotations.
Local Open Scope R_scope.

(** ** sums *)
Lemma rsum_injection m N (f : nat -> nat) (g : nat -> R) : (forall j, (j < m)%nat -> (f j < N)%nat) ->
  (forall j k, (j < m)%nat -> (k < m)%nat -> f j = f k -> j = k) -> (forall i, 0 <= g i) -> rsum m (fun j => g (f j)) <= rsum N g.
Proof.
  intros Hf Hi Hg. apply Rle_trans with (rsum m (fun j => rsum N (fun i => if Nat.eqb (f j) i then g i else 0))).
  - apply Req_le. apply rsum_ext. intros j Hj. symmetry. rewrite (rsum_single N (f j)); [rewrite Nat.eqb_refl; reflexivity|apply Hf; exact Hj|].
    intros i _ Hne. destruct (Nat.eqb_spec (f j) i); [congruence|reflexivity].
  - rewrite rsum_swap. apply rsum_le. intros i Hi'. clear Hf.
    assert (K : forall n, (n <= m)%nat -> rsum n (fun j => if Nat.eqb (f j) i then g i else 0) = 0 \/ (exists j, (j < n)%nat /\ f j = i) /\ rsum n (fun j => if Nat.eqb (f j) i then g i else 0) = g i).
    { induction n as [|n IH]; intros Hn; [left; reflexivity|]. cbn [rsum]. destruct (IH ltac:(lia)) as [E|((j & Hj & Ej) & E)]; rewrite E.
      - destruct (Nat.eqb_spec (f n) i); [right; split; [exists n; split; [lia|assumption]|ring]|left; ring].
      - destruct (Nat.eqb_spec (f n) i) as [En|En]; [exfalso; assert (j = n) by (apply Hi; [lia|lia|congruence]); lia|].
        right. split; [exists j; split; [lia|exact Ej]|ring]. }
    destruct (K m (le_n _)) as [E|(_ & E)]; rewrite E; [apply Hg|lra].
Qed.

Lemma sum_squares n (f : nat -> R) : 0 <= rsum n (fun i => f i * f i).
Proof. apply rsum_nonneg. intros i _. nra. Qed.
Lemma cauchy_schwarz n (v y : nat -> R) : Rabs (rsum n (fun i => v i * y i)) <= sqrt (rsum n (fun i => v i * v i)) * sqrt (rsum n (fun i => y i * y i)).
Proof.
  set (A := rsum n (fun i => v i * v i)). set (B := rsum n (fun i => y i * y i)). set (S := rsum n (fun i => v i * y i)).
  pose proof (sum_squares n v) as HA. pose proof (sum_squares n y) as HB. fold A in HA. fold B in HB.
  assert (Q : forall s t, 0 <= s * s * A - 2 * (s * t) * S + t * t * B).
  { intros s t. pose proof (sum_squares n (fun i => s * v i - t * y i)) as K.
    rewrite (rsum_ext n _ (fun i => s * s * (v i * v i) - 2 * (s * t) * (v i * y i) + t * t * (y i * y i))) in K by (intros; ring).
    rewrite rsum_plus, rsum_minus, !rsum_scal in K. exact K. }
  assert (K : S * S <= A * B).
  { destruct (Req_EM_T B 0) as [E|E].
    - destruct (Req_EM_T S 0) as [E0|N]; [rewrite E, E0; lra|exfalso].
      pose proof (Q 1 ((A + 1) / S)) as Q1. rewrite E in Q1. replace (1 * 1 * A - 2 * (1 * ((A + 1) / S)) * S + (A + 1) / S * ((A + 1) / S) * 0) with (A - 2 * (A + 1)) in Q1 by (field; exact N). lra.
    - pose proof (Q B S) as Q1. assert (0 < B) by lra. assert (K : 0 <= B * (A * B - S * S)) by nra. destruct (Rle_or_lt (S * S) (A * B)); [assumption|]. nra. }
  rewrite <- sqrt_mult by assumption. rewrite <- sqrt_Rsqr_abs. apply sqrt_le_1_alt. exact K.
Qed.

(** ** the columns of the unit constraint matrix belong to independent dofs *)
Lemma unit_matrix_free ops h dof N num C : no_self_reference ops ->
  let c := cons_run cons_empty ops in let es := equations c dof in
  numbered h es N num -> (forall e t, In e es -> In t (eind e) -> coef t = 0 \/ / 10 ^ 18 < Rabs (coef t)) ->
  unit_constraint_matrix h c dof N = Ok C ->
  exists f : nat -> nat, (forall j, (j < scols C)%nat -> (f j < N)%nat) /\ (forall j k, (j < scols C)%nat -> (k < scols C)%nat -> f j = f k -> j = k) /\
    forall v j, (j < scols C)%nat -> @mat_vec RR C v (f j) = v j.
Proof.
  intros Hns c es Hnum Hcoef HC.
  pose proof (cons_run_refines ops) as HR. destruct (accepted_full ops Hns) as (Hnd & Hsep).
  assert (Hin : forall e, In e es -> exists d, In (d, e) (log_run ops)).
  { intros e He. unfold es, c in He. rewrite (rl_eqs _ _ HR) in He. unfold log_of in He.
    apply in_map_iff in He. destruct He as ([d e'] & <- & Hp). apply filter_In in Hp. exists d. tauto. }
  assert (Hnd' : NoDup (map edep es)).
  { unfold es, c. rewrite (rl_eqs _ _ HR). unfold log_of. rewrite map_map. clear -Hnd.
    induction (log_run ops) as [|p l IH]; simpl in *; [constructor|]. inversion Hnd; subst.
    destruct (Z.eqb (fst p) dof); simpl; auto. constructor; auto.
    intros Hi. apply H1. apply in_map_iff in Hi. destruct Hi as (q & He & Hq). apply filter_In in Hq.
    apply in_map_iff. exists q; tauto. }
  assert (Hsep' : forall e e', In e es -> In e' es -> ~ In (edep e) (ind_keys e')).
  { intros e e' He He'. destruct (Hin e He) as (d & Hd), (Hin e' He') as (d' & Hd').
    apply (Hsep (d, e) (d', e') Hd Hd'). }
  unfold unit_constraint_matrix in HC. destruct (has_equations c dof) eqn:Eh; cbn [negb] in HC.
  - destruct (jk_facts h es N num Hnum Hnd') as (Hjk & Hperm & Hfl & Hle).
    fold es in HC. rewrite Hjk in HC. cbn [obind] in HC.
    destruct (matrix_ok h es N num Hnum Hnd' Hsep' Hcoef) as (l & Hl & Hr & Hf & Hd).
    set (jk := free_dofs N (map (fun e => num (edep e)) es) ++ map (fun e => num (edep e)) es) in *.
    destruct (equation_triplets h jk _ es) as [l'| |] eqn:El; [|discriminate..].
    cbn [omap obind] in Hl, HC. apply (f_equal (fun o => match o with Ok a => a | _ => [] end)) in Hl. cbv beta iota in Hl. unfold units in Hl.
    apply (f_equal (fun o => match o with Ok a => a | _ => mkMat (F := RR) 0 0 [] end)) in HC. cbv beta iota in HC. fold jk in Hl. rewrite Hl in HC. subst C. cbn [scols].
    assert (JN : NoDup jk) by exact (jk_NoDup h es N num Hnum Hnd').
    assert (JL : length jk = N) by (rewrite <- (Permutation.Permutation_length Hperm), seq_length; reflexivity).
    exists (fun j => nth j jk O). split; [|split].
    + intros j Hj. assert (K : In (nth j jk O) (seq 0 N)) by (apply (Permutation.Permutation_in _ (Permutation.Permutation_sym Hperm)); apply nth_In; lia). apply in_seq in K. lia.
    + intros j k Hj Hk E. apply (proj1 (NoDup_nth jk O) JN); lia || exact E.
    + intros v j Hj. assert (Hmv : forall x i, @mat_vec R_cring (mkMat (F := R_cring) N (N - length es) l) x i = rowsum x i l).
      { intros x i. rewrite mat_vec_rowsum; auto. }
      rewrite Hmv. rewrite (Hf v (fun i => match index_of i jk with Some j => v j | None => 0 end)).
      * cbv beta. rewrite index_of_self by (auto; lia). reflexivity.
      * intros k Hk. cbv beta. fold jk. rewrite index_of_self by (auto; lia). reflexivity.
      * apply (nth_jk_free h es N num Hnum Hnd'). exact Hj.
  - assert (Hr : in_range (F := R_cring) (mkMat (F := R_cring) N N (map (fun i => (i, i, 1)) (seq 0 N)))).
    { apply Forall_forall. intros t Ht. apply in_map_iff in Ht. destruct Ht as (k & <- & Hk). apply in_seq in Hk. simpl. lia. }
    apply (f_equal (fun o => match o with Ok a => a | _ => mkMat (F := RR) 0 0 [] end)) in HC. cbv beta iota in HC. subst C. cbn [scols].
    exists (fun j => j). split; [auto|]. split; [auto|]. intros v j Hj. rewrite mat_vec_rowsum by exact Hr. cbn [trip]. apply rowsum_identity. exact Hj.
Qed.

(** ** the norm for one dof type *)
Section One.
  Context {H : Type}.
  Variables (q : quasi_data H) (ops : list cons_op) (size : Z -> nat) (num : Z -> dofkey -> nat) (d : Z).
  Hypothesis F : fits_together q ops size num.
  Hypothesis One : q_dofs q = [d].
  Let c := cons_run cons_empty ops.

  Lemma one_unit : exists C, unit_constraint_matrix (q_nodes q) c d (size d) = Ok C /\ mat_at (q_unit q) d d = Some C /\ srows C = size d /\
    (forall u, (forall e, In e (equations c d) -> lhs (num d) u e = 0) <->
       exists v : list R, length v = scols C /\ forall i, (i < size d)%nat -> u i = @mat_vec RR C (fun j => nth j v 0) i) /\
    exists f : nat -> nat, (forall j, (j < scols C)%nat -> (f j < size d)%nat) /\ (forall j k, (j < scols C)%nat -> (k < scols C)%nat -> f j = f k -> j = k) /\
    forall v j, (j < scols C)%nat -> @mat_vec RR C v (f j) = v j.
  Proof.
    destruct (ft_numbers _ _ _ _ F) as (Hns & Hper). destruct (Hper d) as (Hn & Hc); [rewrite One; left; reflexivity|].
    destruct (homogeneous_param ops (q_nodes q) d (size d) (num d) Hns Hn Hc) as (C & HC & Hr & HrN & Hall).
    exists C. split; [exact HC|]. split; [|split; [exact HrN|split; [exact Hall|exact (unit_matrix_free ops (q_nodes q) d (size d) (num d) C Hns Hn Hc HC)]]].
    destruct (ft_unit _ _ _ _ F) as (x & (Ax & Sx) & E). rewrite One in E, Sx. specialize (Sx d (or_introl eq_refl)).
    unfold unit_blocks in E. cbn [diag_blocks] in E. unfold size_of in Sx. destruct (mfind lt_dof d x) as [b|]; cbn [option_map] in Sx; [|discriminate].
    cbn [olift obind] in E. assert (Sb : length b = size d) by congruence. change (@length R b) with (@length (car RR) b) in E. rewrite Sb, (ft_constraints _ _ _ _ F) in E. unfold c in HC. fold c in E, HC. rewrite HC in E.
    cbn [obind diag_blocks omap list_prod map app fold_left zero_block] in E. rewrite Z.eqb_refl in E.
    assert (E' : q_unit q = mset lt_dofpair (d, d) C []) by congruence. rewrite E'. unfold mat_at. cbn [mset mfind]. unfold lt_dofpair. cbn [fst snd]. rewrite Z.eqb_refl, Z.ltb_irrefl. reflexivity.
  Qed.

  Lemma one_norm (r : dofvec RR) : has_sizes [d] size r -> exists C, mat_at (q_unit q) d d = Some C /\
    dof_norm (q_unit q) (q_dofs q) r = Ok (sqrt (rsum (scols C) (fun j => rsum (size d) (fun i => mentry C i j * dval r d i) * rsum (size d) (fun i => mentry C i j * dval r d i)))).
  Proof.
    intros (A & S). specialize (S d (or_introl eq_refl)). destruct one_unit as (C & _ & EC & HrN & _). exists C. split; [exact EC|].
    unfold dof_norm. rewrite One. cbn [to_eigen mat_to_eigen]. unfold size_of in S. unfold dval, val. destruct (mfind lt_dof d r) as [b|]; cbn [option_map] in S; [|discriminate].
    cbn [olift obind]. rewrite EC. cbn [olift obind]. rewrite app_nil_r. assert (Sb : length b = size d) by congruence.
    change (@length R b) with (@length (car RR) b). rewrite Sb, HrN, Nat.eqb_refl. f_equal. f_equal. apply rsum_ext. intros j Hj. cbv beta. rewrite <- Rsqr_pow2. reflexivity.
  Qed.

  (** residuals of small norm do little work *)
  Lemma small_work (r : dofvec RR) v w : has_sizes [d] size r -> dof_norm (q_unit q) (q_dofs q) r = Ok v -> admissible c [d] num w ->
    Rabs (virtual_work size [d] w (dval r)) <= v * length_of size [d] w.
  Proof.
    intros Hr Ev Hw. destruct (one_norm r Hr) as (C & EC & En). rewrite En in Ev. assert (Ev' : v = sqrt (rsum (scols C) (fun j => rsum (size d) (fun i => mentry C i j * dval r d i) * rsum (size d) (fun i => mentry C i j * dval r d i)))) by congruence.
    destruct one_unit as (C' & _ & EC' & HrN & Hpar & f & F1 & F2 & F3). assert (C' = C) by congruence. subst C'.
    destruct (proj1 (Hpar (w d))) as (x & Lx & Ex); [intros e He; apply Hw; [left; reflexivity|exact He]|].
    unfold length_of, virtual_work. cbn [map rlsum fold_right]. rewrite !Rplus_0_r.
    set (y := fun j => rsum (size d) (fun i => mentry C i j * dval r d i)) in *.
    assert (E : rsum (size d) (fun i => w d i * dval r d i) = rsum (scols C) (fun j => nth j x 0 * y j)).
    { transitivity (rsum (size d) (fun i => rsum (scols C) (fun j => nth j x 0 * (mentry C i j * dval r d i)))).
      - apply rsum_ext. intros i Hi. rewrite (Ex i Hi), mat_vec_rsum, <- rsum_scal_r. apply rsum_ext. intros j Hj. ring.
      - rewrite rsum_swap. apply rsum_ext. intros j Hj. unfold y. rewrite <- rsum_scal. reflexivity. }
    rewrite E. eapply Rle_trans; [apply cauchy_schwarz|]. rewrite Rmult_comm, Ev'. apply Rmult_le_compat_l; [apply sqrt_pos|].
    apply sqrt_le_1_alt. eapply Rle_trans; [|apply (rsum_injection (scols C) (size d) f (fun i => w d i * w d i) F1 F2); intros i; nra].
    apply Req_le. apply rsum_ext. intros j Hj. rewrite (Ex _ (F1 j Hj)), (F3 _ j Hj). reflexivity.
  Qed.

  (** and residuals that do no work have no norm *)
  Lemma no_work (r : dofvec RR) : has_sizes [d] size r -> (forall w, admissible c [d] num w -> virtual_work size [d] w (dval r) = 0) -> dof_norm (q_unit q) (q_dofs q) r = Ok 0.
  Proof.
    intros Hr Hw. destruct (one_norm r Hr) as (C & EC & En). rewrite En. f_equal. rewrite (rsum_zero (scols C)); [apply sqrt_0|]. intros j Hj.
    destruct one_unit as (C' & _ & EC' & HrN & Hpar & _). assert (C' = C) by congruence. subst C'.
    set (u := fun i => mentry C i j). assert (A : forall e, In e (equations c d) -> lhs (num d) u e = 0).
    { apply (proj2 (Hpar u)). exists (map (fun k => if Nat.eqb k j then 1 else 0) (seq 0 (scols C))). split; [rewrite map_length, seq_length; reflexivity|].
      intros i Hi. rewrite mat_vec_rsum, (rsum_single (scols C) j); [|exact Hj|].
      - rewrite nth_map_seq by exact Hj. rewrite Nat.eqb_refl. unfold u. ring.
      - intros k Hk Hne. rewrite nth_map_seq by exact Hk. destruct (Nat.eqb_spec k j); [contradiction|ring]. }
    assert (E : rsum (size d) (fun i => mentry C i j * dval r d i) = 0).
    { assert (K := Hw (fun _ => u)). unfold virtual_work in K. cbn [map rlsum fold_right] in K. rewrite Rplus_0_r in K. apply K. intros d' e [<-|[]] He. apply A. exact He. }
    rewrite E. ring.
  Qed.
End One.
