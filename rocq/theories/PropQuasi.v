(** * C108: histories of quasi-static steps *)
From Coq Require Import List ZArith Arith Bool Reals Lra Lia Sorted.
From Verif Require Import RSum Algebra Outcome GroupModel GroupSpec DofModel DofSpec DofProofs ConstraintModel ConstraintSpec ConstraintProofs ConstraintProofs2 ConstraintProofs3.
From Verif Require Import GroupProofs CellModel CellSpec IntegrandModel EquilibriumModel SolveModel SolveSpec SolveProofs InterpolationModel AssemblerModel ElasticModel EquilibriumSpec BodyModel BodySpec SupportSpec SupportProofs2 PropSupport AdaptiveModel NewtonModel NewtonProofs PropSolver QuasiModel QuasiSpec QuasiProofs QuasiProofs2 QuasiProofs3.
From Flocq Require Import Core.
Import ListNotations.
Local Open Scope R_scope.

(** C108, constraints: whatever the problem, in every history of DoStep calls (failed ones included) the left hand side of
    each constraint equation changes exactly as its right hand side (in single precision) does between the first and the
    last time reached *)
Theorem C108_constraints_follow : forall H (q : quasi_data H) ops size num, fits_together q ops size num ->
  forall times s s' os x, mX s = Some x -> has_sizes (q_dofs q) size x -> do_steps (quasi_on_dofs q) s times = (s', os) ->
  exists x', mX s' = Some x' /\ has_sizes (q_dofs q) size x' /\
    forall d e, In d (q_dofs q) -> In e (equations (q_constraints q) d) ->
      lhs (num d) (dval x' d) e - lhs (num d) (dval x d) e = to_float (erhs e (mGlobalTime s')) - to_float (erhs e (mGlobalTime s)).
Proof. intros H q ops size num F times s s' os x Ex Hx E. rewrite (ft_constraints _ _ _ _ F). exact (steps_lemma q ops size num F times s s' os x Ex Hx E). Qed.
Print Assumptions C108_constraints_follow.

(** hence constraints that hold at the start hold after every history *)
Theorem C108_constraints_kept_partial : forall H (q : quasi_data H) ops size num, fits_together q ops size num ->
  forall times s s' os x, mX s = Some x -> has_sizes (q_dofs q) size x -> constraints_hold (q_constraints q) (q_dofs q) num x (mGlobalTime s) ->
  do_steps (quasi_on_dofs q) s times = (s', os) ->
  exists x', mX s' = Some x' /\ constraints_hold (q_constraints q) (q_dofs q) num x' (mGlobalTime s').
Proof.
  intros H q ops size num F times s s' os x Ex Hx Hc E. destruct (C108_constraints_follow H q ops size num F times s s' os x Ex Hx E) as (x' & Ex' & _ & L).
  exists x'. split; [exact Ex'|]. intros d e Hd He. specialize (L d e Hd He). rewrite (Hc d e Hd He) in L. lra.
Qed.
Print Assumptions C108_constraints_kept_partial.

(** C108, equilibrium, one dof type: after a successful step the residual at the new solution and time does on every
    displacement that the constraints allow at most the work tolerance times length *)
Theorem C108_balance_partial : forall H (q : quasi_data H) ops size num d, fits_together q ops size num -> q_dofs q = [d] ->
  forall s t s' n x, mX s = Some x -> has_sizes [d] size x -> do_step (quasi_on_dofs q) s t = (s', StepOk n) ->
  exists x' g, mX s' = Some x' /\ mGlobalTime s' = t /\ q_gradient q [d] (mHistory s) x' t (t - mGlobalTime s) = Ok g /\
    forall w, admissible (q_constraints q) [d] num w -> Rabs (virtual_work size [d] w (dval g)) <= q_tolerance q * length_of size [d] w.
Proof.
  intros H q ops size num d F One s t s' n x Ex Hx E.
  assert (Hx' : has_sizes (q_dofs q) size x) by (rewrite One; exact Hx).
  destruct (step_lemma q ops size num F s t s' (StepOk n) x Ex Hx' E) as (x' & Ex' & Hx1 & _).
  destruct (C28_success _ _ _ _ _ (quasi_on_dofs q) s t s' n E) as (Et & (g & Eg & Ng) & _). cbn [Gradient quasi_on_dofs QNorm QTolerance] in Eg, Ng.
  rewrite Ex' in Eg. cbn [oassert obind] in Eg. destruct (ft_gradient _ _ _ _ F _ _ _ _ g Hx1 Eg) as (Hg & _). rewrite One in Eg, Hg.
  exists x', g. split; [exact Ex'|]. split; [exact Et|]. split; [exact Eg|].
  intros w Hw. destruct (one_norm q ops size num d F One g Hg) as (C & _ & EN). rewrite EN in Ng.
  rewrite (ft_constraints _ _ _ _ F) in Hw. eapply Rle_trans; [exact (small_work q ops size num d F One g _ w Hg EN Hw)|].
  apply Rmult_le_compat_r; [apply sqrt_pos|]. apply Rlt_le. exact Ng.
Qed.
Print Assumptions C108_balance_partial.

(** C108, linear problems (one dof type, system definite on the supports): DoStep needs no iteration; unless the solution is
    larger than 1e10 or an update function throws it succeeds, and the new solution is the one and only equilibrium that
    the constraints allow at the new time *)
Theorem C108_linear : forall H (q : quasi_data H) ops size num d K p, fits_together q ops size num -> q_dofs q = [d] ->
  linear_problem q size K p -> definite K (q_constraints q) [d] size num -> solver_complete (q_linsolve q) -> 0 < q_tolerance q ->
  forall s x t, mX s = Some x -> has_sizes [d] size x -> constraints_hold (q_constraints q) [d] num x (mGlobalTime s) ->
  exists y, has_sizes [d] size y /\ constraints_hold (q_constraints q) [d] num y t /\ equilibrium (q_constraints q) [d] size num K (p t) (dval y) /\
    (forall z, (forall e, In e (equations (q_constraints q) d) -> lhs (num d) (z d) e = to_float (erhs e t)) ->
       equilibrium (q_constraints q) [d] size num K (p t) z -> forall i, (i < size d)%nat -> z d i = dval y d i) /\
    (forall v h', dof_norm (q_unit q) [d] y = Ok v -> v <= 10 ^ 10 -> q_update q [d] (mHistory s) y t (t - mGlobalTime s) = (h', false) ->
       do_step (quasi_on_dofs q) s t = (mkQState (Some y) t (t - mGlobalTime s) h', StepOk 0)) /\
    (forall s' n, do_step (quasi_on_dofs q) s t = (s', StepOk n) -> mX s' = Some y /\ mGlobalTime s' = t /\ n = O).
Proof.
  intros H q ops size num d K p F One Lin Def Cpl Tol s x t Ex Hx Hc. pose proof (ft_constraints _ _ _ _ F) as EC. rewrite EC in *.
  destruct (linear_step q ops size num d K p F One Lin Def Cpl Tol s x t Ex Hx) as (y & Hy & Ey & Ly & S1 & S2 & _).
  assert (Cy : constraints_hold (cons_run cons_empty ops) [d] num y t).
  { intros d' e [<-|[]] He. specialize (Ly e He). rewrite (Hc d e (or_introl eq_refl) He) in Ly. lra. }
  exists y. split; [exact Hy|]. split; [exact Cy|]. split; [exact Ey|]. split; [|split; [exact S1|exact S2]].
  intros z Lz Ez. apply (linear_unique ops size num d K p Def z (dval y) t); [|exact Ez|exact Ey].
  intros e He. rewrite (Lz e He). symmetry. apply Cy; [left; reflexivity|exact He].
Qed.
Print Assumptions C108_linear.

(** C108, path independence: two histories of DoStep calls of a linear problem, each with a successful step, that reach the
    same time have the same solution, whatever the steps between and their failures *)
Theorem C108_path : forall H (q : quasi_data H) ops size num d K p, fits_together q ops size num -> q_dofs q = [d] ->
  linear_problem q size K p -> definite K (q_constraints q) [d] size num -> solver_complete (q_linsolve q) -> 0 < q_tolerance q ->
  forall s1 s2 x1 x2 times1 times2 s1' s2' os1 os2, mX s1 = Some x1 -> mX s2 = Some x2 -> has_sizes [d] size x1 -> has_sizes [d] size x2 ->
  constraints_hold (q_constraints q) [d] num x1 (mGlobalTime s1) -> constraints_hold (q_constraints q) [d] num x2 (mGlobalTime s2) ->
  do_steps (quasi_on_dofs q) s1 times1 = (s1', os1) -> do_steps (quasi_on_dofs q) s2 times2 = (s2', os2) ->
  (exists n, In (StepOk n) os1) -> (exists n, In (StepOk n) os2) -> mGlobalTime s1' = mGlobalTime s2' ->
  exists y1 y2, mX s1' = Some y1 /\ mX s2' = Some y2 /\ forall i, (i < size d)%nat -> dval y1 d i = dval y2 d i.
Proof.
  intros H q ops size num d K p F One Lin Def Cpl Tol s1 s2 x1 x2 ts1 ts2 s1' s2' os1 os2 E1 E2 H1 H2 C1 C2 D1 D2 (n1 & I1) (n2 & I2) ET.
  pose proof (ft_constraints _ _ _ _ F) as EC. rewrite EC in *.
  assert (B : forall n os, In (StepOk n) os -> existsb (fun o => match o with StepOk _ => true | _ => false end) os = true).
  { intros n os Hi. apply existsb_exists. exists (StepOk n). split; [exact Hi|reflexivity]. }
  destruct (linear_history q ops size num d K p F One Lin Def Cpl Tol ts1 s1 x1 s1' os1 E1 H1 C1 D1 (or_intror (B _ _ I1))) as (y1 & Y1 & _ & L1 & Q1).
  destruct (linear_history q ops size num d K p F One Lin Def Cpl Tol ts2 s2 x2 s2' os2 E2 H2 C2 D2 (or_intror (B _ _ I2))) as (y2 & Y2 & _ & L2 & Q2).
  exists y1, y2. split; [exact Y1|]. split; [exact Y2|]. rewrite <- ET in L2, Q2.
  apply (linear_unique ops size num d K p Def (dval y1) (dval y2) (mGlobalTime s1')); [|exact Q1|exact Q2].
  intros e He. rewrite (L1 d e (or_introl eq_refl) He). symmetry. apply L2; [left; reflexivity|exact He].
Qed.
Print Assumptions C108_path.

(** the supported elastic bodies of C106 are such problems *)
Theorem C108_supported_body : forall H (q : quasi_data H) d t h g ops h' numInd numDep coordinate place value E nu ps cells mcs threads r p,
  let c := cons_run cons_empty ops in let size := fun _ : Z => Z.to_nat (numInd + numDep) in
  group_ok g -> (forall a, In a (mData g) -> length (h a) = d) -> build_numbering h g t c = Ok (h', numInd, numDep) ->
  (forall e k, In e (equations c t) -> In k (edep e :: ind_keys e) -> (0 <= snd k < Z.of_nat d)%Z) ->
  (forall c, In c cells -> elastic_cell d (mData g) coordinate place c) -> one_piece d cells -> cells <> [] -> (forall a, In a (mData g) -> node_of_cells cells a) ->
  0 < E -> -1 < nu < 1/2 -> supported d c t (mData g) place ->
  local_matrices d t h' (cell_Stiffness d coordinate value (fun _ s => Ok (le_Tangent (le_make d E nu ps) s))) cells = Ok mcs -> (0 < threads)%nat ->
  build_matrix (mkInfo [(t, numInd)] [(t, numDep)]) threads mcs [t] r ->
  fits_together q ops size (fun _ => num_in h') -> q_dofs q = [t] -> (forall K, r = Ok K -> linear_problem q size K p) -> solver_complete (q_linsolve q) -> 0 < q_tolerance q ->
  forall s x time, mX s = Some x -> has_sizes [t] size x -> constraints_hold c [t] (fun _ => num_in h') x (mGlobalTime s) ->
  exists K y, r = Ok K /\ constraints_hold c [t] (fun _ => num_in h') y time /\ equilibrium c [t] size (fun _ => num_in h') K (p time) (dval y) /\
    (forall v hist, dof_norm (q_unit q) [t] y = Ok v -> v <= 10 ^ 10 -> q_update q [t] (mHistory s) y time (time - mGlobalTime s) = (hist, false) ->
       do_step (quasi_on_dofs q) s time = (mkQState (Some y) time (time - mGlobalTime s) hist, StepOk 0)).
Proof.
  intros H q d t h g ops h' numInd numDep coordinate place value E nu ps cells mcs threads r p c size Hg Hs Nb Hk He Op Ne Nc HE Hnu Sup Lm Ht Bm F One Lin Cpl Tol s x time Ex Hx Hc.
  destruct (C106_supports d t h g ops h' numInd numDep coordinate place value E nu ps cells mcs threads r Hg Hs Nb Hk He Op Ne Nc HE Hnu Lm Ht Bm) as (K & EK & Iff).
  assert (EC : q_constraints q = c) by exact (ft_constraints _ _ _ _ F).
  destruct (C108_linear H q ops size (fun _ => num_in h') t K p F One (Lin K EK)) with (s := s) (x := x) (t := time) as (y & _ & Cy & Ey & _ & Sy & _).
  - rewrite EC. apply Iff. exact Sup.
  - exact Cpl.
  - exact Tol.
  - exact Ex.
  - exact Hx.
  - rewrite EC. exact Hc.
  - rewrite EC in Cy, Ey. exists K, y. auto.
Qed.
Print Assumptions C108_supported_body.

(** ** The report WriteTimeDofResidual *)
Lemma values_at_sum : forall (b : list R) numbers vs, values_at b numbers = Some vs ->
  (forall n, In n numbers -> (n < length b)%nat) /\ fold_left Rplus vs 0 = rlsum (map (fun n => nth n b 0) numbers).
Proof.
  intros b numbers vs E. assert (G : (forall n, In n numbers -> (n < length b)%nat) /\ forall a, fold_left Rplus vs a = a + rlsum (map (fun n => nth n b 0) numbers)).
  - revert vs E. induction numbers as [|n ns IH]; intros vs E; cbn [values_at] in E.
    + injection E as <-. split; [intros n []|]. intros a. cbn. ring.
    + destruct (nth_error b n) as [v|] eqn:Ev; [|discriminate]. destruct (values_at b ns) as [vs'|]; [|discriminate]. injection E as <-.
      destruct (IH vs' eq_refl) as (H1 & H2). split.
      * intros m [<-|Hm]; [apply nth_error_Some; congruence|apply H1; exact Hm].
      * intros a. cbn [fold_left map rlsum]. rewrite H2, (nth_error_nth b n 0 Ev). ring.
  - destruct G as (G1 & G2). split; [exact G1|]. rewrite G2. ring.
Qed.

(** C108, report: for gradients that do not depend on time the written line has the time reached, the mean value of the
    dofs and the sum of their residual forces *)
Theorem C108_report_partial : forall H (q : quasi_data H) s d numbers time u f, numbers <> [] ->
  (forall hist x t t' dt, q_gradient q [d] hist x t dt = q_gradient q [d] hist x t' dt) ->
  write_time_dof_residual q s d numbers = Ok (time, u, f) ->
  exists x g, mX s = Some x /\ q_gradient q [d] (mHistory s) x (mGlobalTime s) (mTimeStep s) = Ok g /\ time = mGlobalTime s /\
    u * INR (length numbers) = rlsum (map (dval x d) numbers) /\ f = rlsum (map (dval g d) numbers).
Proof.
  intros H q s d numbers time u f Hn Ht E. unfold write_time_dof_residual in E. destruct (mX s) as [x|] eqn:Ex; [|discriminate]. cbn [oassert obind] in E.
  rewrite (Ht _ _ _ (mGlobalTime s)) in E. destruct (q_gradient q [d] (mHistory s) x (mGlobalTime s) (mTimeStep s)) as [g| |] eqn:Eg; [|discriminate|discriminate]. cbn [obind] in E.
  unfold dof_values in E. destruct (mfind lt_dof d x) as [bx|] eqn:Bx; [|discriminate]. cbn [olift obind] in E. destruct (values_at bx numbers) as [us|] eqn:Eu; [|discriminate]. cbn [oassert obind] in E.
  destruct (mfind lt_dof d g) as [bg|] eqn:Bg; [|discriminate]. cbn [olift obind] in E. destruct (values_at bg numbers) as [rs|] eqn:Er; [|discriminate]. cbn [oassert obind] in E.
  destruct (values_at_sum _ _ _ Eu) as (_ & Su). destruct (values_at_sum _ _ _ Er) as (_ & Sr). rewrite Su, Sr in E.
  exists x, g. split; [reflexivity|]. split; [exact Eg|]. injection E as <- <- <-. split; [reflexivity|].
  assert (Vx : forall n, dval x d n = nth n bx 0) by (intros n; unfold dval, val; rewrite Bx; reflexivity).
  assert (Vg : forall n, dval g d n = nth n bg 0) by (intros n; unfold dval, val; rewrite Bg; reflexivity).
  rewrite (map_ext _ _ Vx), (map_ext _ _ Vg). split; [|reflexivity].
  unfold Rdiv. rewrite Rmult_assoc, Rinv_l; [apply Rmult_1_r|]. apply not_0_INR. rewrite length_zero_iff_nil. exact Hn.
Qed.
Print Assumptions C108_report_partial.

(** ** A spring between the nodes 0 and 1; node 0 follows [r], the load [l] acts on node 1 *)
Definition spring_ops (r : R -> R) : list cons_op := [AddOne 0 (mkEq (0, 0)%Z [] r)].
Definition spring_K : dofmat RR := [((0, 0)%Z, mkMat (F := RR) 2 2 [(0, 0, 1%R); (0, 1, (-1)%R); (1, 0, (-1)%R); (1, 1, 1%R)]%nat)].
Definition spring_size (d : Z) : nat := 2.
Definition spring_num (d : Z) (k : dofkey) : nat := Z.to_nat (fst k).
Definition spring (r l : R -> R) : quasi_data unit :=
  mkData gauss (fun a => [a]) (cons_run cons_empty (spring_ops r)) [0%Z] [((0, 0)%Z, mkMat (F := RR) 2 1 [(1, 0, 1%R)]%nat)] (/ 10 ^ 10)
    (fun _ _ x t _ => Ok [(0%Z, [dval x 0 0 - dval x 0 1; dval x 0 1 - dval x 0 0 - l t])])
    (fun _ _ _ _ _ => Ok spring_K) (fun _ hist _ _ _ => (hist, false)).

Lemma spring_fits r l : fits_together (spring r l) (spring_ops r) spring_size spring_num.
Proof.
  split.
  - exact (proj1 gauss_solver).
  - reflexivity.
  - split; [intros o e [<-|[]] [<-|[]]; simpl; tauto|]. intros d [<-|[]]. split; [split|].
    + intros e k [<-|[]] [<-|[]]. simpl. unfold spring_size. auto.
    + intros e e' k k' [<-|[]] [<-|[]] [<-|[]] [<-|[]] _. auto.
    + intros e t [<-|[]] [].
  - repeat constructor; simpl; tauto.
  - exists [(0%Z, [0; 0])]. split; [split|].
    + repeat constructor.
    + intros d [<-|[]]. reflexivity.
    + reflexivity.
  - intros hist x t dt g Hx E. injection E as <-. split; [split|reflexivity].
    + repeat constructor.
    + intros d [<-|[]]. reflexivity.
  - intros hist x t dt K Hx E. injection E as <-. intros a b [<-|[]] [<-|[]]. eexists. split; [reflexivity|]. split; [reflexivity|]. split; [reflexivity|].
    repeat apply Forall_cons; try apply Forall_nil; simpl; lia.
Qed.
Lemma spring_residual u p i : (i < 2)%nat -> residual spring_K spring_size [0%Z] u p 0 i = (if Nat.eqb i 0 then u 0%Z 0%nat - u 0%Z 1%nat else u 0%Z 1%nat - u 0%Z 0%nat) - p 0%Z i.
Proof.
  intros Hi. unfold residual. cbn [map rlsum]. unfold spring_size. cbn [rsum]. unfold kval. cbn -[Rplus Rmult Rminus Ropp IZR R0 R1].
  destruct i as [|[|i]]; [| |lia]; cbn -[Rplus Rmult Rminus Ropp IZR R0 R1]; ring.
Qed.
Lemma spring_linear r l : linear_problem (spring r l) spring_size spring_K (fun t _ i => if Nat.eqb i 1 then l t else 0).
Proof.
  split; [|reflexivity]. intros hist x t dt _. eexists. split; [reflexivity|]. intros d i [<-|[]] Hi. change (q_dofs (spring r l)) with [0%Z]. rewrite spring_residual by exact Hi.
  unfold spring_size in Hi. destruct i as [|[|i]]; [| |lia]; cbn -[Rminus dval]; unfold dval at 1; cbn -[Rminus dval]; ring.
Qed.
Lemma spring_admissible r w : admissible (cons_run cons_empty (spring_ops r)) [0%Z] spring_num w <-> w 0%Z 0%nat = 0.
Proof.
  split.
  - intros A. specialize (A 0%Z (mkEq (0, 0)%Z [] r) (or_introl eq_refl) (or_introl eq_refl)). unfold lhs in A. cbn in A. lra.
  - intros A d e [<-|[]] [<-|[]]. unfold lhs. cbn. lra.
Qed.
Lemma spring_definite r : definite spring_K (cons_run cons_empty (spring_ops r)) [0%Z] spring_size spring_num.
Proof.
  intros w A W d i [<-|[]] Hi. apply spring_admissible in A. unfold virtual_work in W. cbn [map rlsum] in W. unfold spring_size at 1 in W. cbn [rsum] in W. rewrite !spring_residual in W by lia.
  cbn [Nat.eqb] in W. rewrite A in W. assert (w 0%Z 1%nat = 0) by nra. unfold spring_size in Hi. destruct i as [|[|i]]; [exact A|assumption|lia].
Qed.

(** a step of the spring *)
Lemma spring_step r l s x t : mX s = Some x -> has_sizes [0%Z] spring_size x ->
  let u := dval x 0 0 + (to_float (r t) - to_float (r (mGlobalTime s))) in Rabs (u + l t) <= 10 ^ 10 ->
  exists y, has_sizes [0%Z] spring_size y /\ dval y 0 0 = u /\ dval y 0 1 = u + l t /\
    do_step (quasi_on_dofs (spring r l)) s t = (mkQState (Some y) t (t - mGlobalTime s) tt, StepOk 0).
Proof.
  intros Ex Hx u Hu. destruct (linear_step (spring r l) (spring_ops r) spring_size spring_num 0 spring_K _ (spring_fits r l) eq_refl (spring_linear r l) (spring_definite r)) with (s := s) (x := x) (t := t)
    as (y & Hy & Ey & Ly & S1 & _).
  - exact (proj2 gauss_solver).
  - cbn [q_tolerance spring]. apply Rinv_0_lt_compat. apply pow_lt. lra.
  - exact Ex.
  - exact Hx.
  - specialize (Ly _ (or_introl eq_refl)). unfold lhs in Ly. cbn -[dval to_float Rplus Rminus] in Ly. change (spring_num 0 (0, 0)%Z) with 0%nat in Ly.
    assert (Y0 : dval y 0 0 = u) by (unfold u; lra).
    assert (Y1 : dval y 0 1 = u + l t).
    { specialize (Ey (fun _ i => if Nat.eqb i 1 then 1 else 0)). rewrite spring_admissible in Ey. specialize (Ey eq_refl). unfold virtual_work in Ey. cbn [map rlsum] in Ey. unfold spring_size at 1 in Ey. cbn [rsum] in Ey.
      rewrite !spring_residual in Ey by lia. cbn [Nat.eqb] in Ey. rewrite Y0 in Ey. lra. }
    exists y. split; [exact Hy|]. split; [exact Y0|]. split; [exact Y1|].
    destruct (one_norm (spring r l) (spring_ops r) spring_size spring_num 0 (spring_fits r l) eq_refl y Hy) as (C & EC & En). change (q_dofs (spring r l)) with [0%Z] in En.
    cbn in EC. injection EC as <-. destruct (mHistory s). refine (S1 _ tt En _ eq_refl).
    cbn [scols rsum]. unfold spring_size. cbn [rsum]. rewrite Y0, Y1. unfold mentry. cbn -[Rplus Rmult sqrt pow].
    match goal with |- sqrt ?z <= _ => replace z with ((u + l t) ^ 2) by (cbn [pow]; ring) end.
    rewrite sqrt_pow2_abs || (rewrite <- Rsqr_pow2, sqrt_Rsqr_abs). exact Hu.
Qed.

Definition zero_state : quasi_state (option (dofvec RR)) unit := mkQState (Some [(0%Z, [0; 0])]) 0 0 tt.
Lemma zero_sizes : has_sizes [0%Z] spring_size [(0%Z, [0; 0])].
Proof. split; [repeat constructor|]. intros d [<-|[]]. reflexivity. Qed.

(** C108, constant values: a constraint with a constant right hand side other than the value at the start is never imposed:
    the spring starts at zero, node 0 should be at 1; steps are reported as successful, and after every history node 0 is at 0 *)
Theorem C108_constant_value_refuted :
  exists (q : quasi_data unit) ops size num K p e s, fits_together q ops size num /\ q_dofs q = [0%Z] /\ linear_problem q size K p /\ definite K (q_constraints q) [0%Z] size num /\
    solver_complete (q_linsolve q) /\ In e (equations (q_constraints q) 0) /\ (forall t, erhs e t = 1) /\ mX s = Some [(0%Z, [0; 0])] /\
    (forall t, snd (do_step (quasi_on_dofs q) s t) = StepOk 0) /\
    forall times s' os, do_steps (quasi_on_dofs q) s times = (s', os) -> exists x, mX s' = Some x /\ lhs (num 0%Z) (dval x 0) e = 0.
Proof.
  exists (spring (fun _ => 1) (fun _ => 1)), (spring_ops (fun _ => 1)), spring_size, spring_num, spring_K, (fun t _ i => if Nat.eqb i 1 then 1 else 0), (mkEq (0, 0)%Z [] (fun _ => 1)), zero_state.
  split; [apply spring_fits|]. split; [reflexivity|]. split; [apply (spring_linear (fun _ => 1) (fun _ => 1))|]. split; [apply (spring_definite (fun _ => 1))|].
  split; [exact (proj2 gauss_solver)|]. split; [left; reflexivity|]. split; [reflexivity|]. split; [reflexivity|]. split.
  - intros t. destruct (spring_step (fun _ => 1) (fun _ => 1) zero_state _ t eq_refl zero_sizes) as (y & _ & _ & _ & E); [|rewrite E; reflexivity].
    unfold dval. cbn -[to_float Rplus Rminus Rabs pow]. rewrite Rabs_right by lra. cbn [pow]. lra.
  - intros times s' os E. destruct (C108_constraints_follow _ _ _ _ _ (spring_fits (fun _ => 1) (fun _ => 1)) times zero_state s' os _ eq_refl zero_sizes E) as (x & Ex & _ & L).
    exists x. split; [exact Ex|]. specialize (L 0%Z _ (or_introl eq_refl) (or_introl eq_refl)). cbn [erhs] in L.
    assert (Z : lhs (spring_num 0) (dval [(0%Z, [0; 0])] 0) (mkEq (0, 0)%Z [] (fun _ => 1)) = 0) by (unfold lhs, dval; cbn -[Rplus]; ring).
    rewrite Z in L. lra.
Qed.
Print Assumptions C108_constant_value_refuted.

(** C108, report: the residual is evaluated at the time before the step with the new solution; with a load that grows with
    time the written force at a free node is the change of the load, although the residual there is zero *)
Theorem C108_report_refuted :
  exists (q : quasi_data unit) ops size num s s' x g, fits_together q ops size num /\ q_dofs q = [0%Z] /\ do_step (quasi_on_dofs q) s 1 = (s', StepOk 0) /\
    mX s' = Some x /\ q_gradient q [0%Z] (mHistory s') x (mGlobalTime s') (mTimeStep s') = Ok g /\ dval g 0 1 = 0 /\
    write_time_dof_residual q s' 0 [1%nat] = Ok (1, 1, 1).
Proof.
  destruct (spring_step (fun _ => 0) (fun t => t) zero_state _ 1 eq_refl zero_sizes) as (y & (_ & Hy) & Y0 & Y1 & E).
  { unfold dval. cbn -[to_float Rplus Rminus Rabs pow]. rewrite Rabs_right by lra. cbn [pow]. lra. }
  replace (dval [(0%Z, [0; 0])] 0 0) with 0 in Y0, Y1 by reflexivity. assert (Z0 : dval y 0 0 = 0) by (rewrite Y0; ring). assert (Z1 : dval y 0 1 = 1) by (rewrite Y1; ring). clear Y0 Y1.
  exists (spring (fun _ => 0) (fun t => t)), (spring_ops (fun _ => 0)), spring_size, spring_num, zero_state. eexists. exists y. eexists.
  split; [apply spring_fits|]. split; [reflexivity|]. split; [exact E|]. split; [reflexivity|]. split; [reflexivity|]. split.
  - unfold dval at 1. cbn -[dval Rminus]. rewrite Z0, Z1. ring.
  - unfold write_time_dof_residual. cbn [mX oassert obind]. cbn [q_gradient spring obind mGlobalTime mTimeStep zero_state]. rewrite Z0, Z1.
    specialize (Hy 0%Z (or_introl eq_refl)). unfold size_of in Hy. unfold dof_values. unfold dval, val in Z0, Z1. destruct (mfind lt_dof 0%Z y) as [b|]; [|discriminate]. cbn [option_map] in Hy. injection Hy as Hy.
    destruct b as [|b0 [|b1 [|b2 b]]]; try discriminate Hy. cbn in Z0, Z1. subst b0 b1. cbn -[Rminus Rplus Rdiv Rinv Rmult]. repeat f_equal; field.
Qed.
Print Assumptions C108_report_refuted.

(** ** Two dof types with one dof each, no constraints; the residuals x^2 + x + 1 and - y^2 + y - 1 have no zero *)
Definition pair_K (x y : R) : dofmat RR :=
  [((0, 0)%Z, mkMat (F := RR) 1 1 [(0%nat, 0%nat, 2 * x + 1)]); ((0, 1)%Z, mkMat (F := RR) 1 1 []); ((1, 0)%Z, mkMat (F := RR) 1 1 []); ((1, 1)%Z, mkMat (F := RR) 1 1 [(0%nat, 0%nat, 1 - 2 * y)])].
Definition pair_unit : dofmat RR :=
  [((0, 0)%Z, mkMat (F := RR) 1 1 [(0%nat, 0%nat, 1)]); ((0, 1)%Z, mkMat (F := RR) 0 0 []); ((1, 0)%Z, mkMat (F := RR) 0 0 []); ((1, 1)%Z, mkMat (F := RR) 1 1 [(0%nat, 0%nat, 1)])].
Definition pair_g (x y : R) : dofvec RR := [(0%Z, [x * x + x + 1]); (1%Z, [- (y * y) + y - 1])].
Definition pair : quasi_data unit :=
  mkData gauss (fun a => [a]) cons_empty [0; 1]%Z pair_unit (/ 10 ^ 10)
    (fun _ _ x _ _ => Ok (pair_g (dval x 0 0) (dval x 1 0))) (fun _ _ x _ _ => Ok (pair_K (dval x 0 0) (dval x 1 0))) (fun _ hist _ _ _ => (hist, false)).
Definition pair_size (d : Z) : nat := 1.
Definition pair_num (d : Z) (k : dofkey) : nat := 0.
Definition pair_state : quasi_state (option (dofvec RR)) unit := mkQState (Some [(0%Z, [0]); (1%Z, [0])]) 0 0 tt.

Lemma pair_numbers : constraints_fit (fun a => [a]) [] [0; 1]%Z pair_size pair_num.
Proof. split; [intros o e []|]. intros d Hd. split; [split|]; cbn; try contradiction; intros e; intros; contradiction. Qed.
Lemma pair_shapes x y : @shapes_fit RR (pair_K x y) [0; 1]%Z pair_size pair_size.
Proof.
  intros a b [<-|[<-|[]]] [<-|[<-|[]]]; eexists; (split; [reflexivity|]); (split; [reflexivity|]); (split; [reflexivity|]); repeat apply Forall_cons; try apply Forall_nil; simpl; lia.
Qed.
Lemma pair_fits : fits_together pair [] pair_size pair_num.
Proof.
  split.
  - exact (proj1 gauss_solver).
  - reflexivity.
  - exact pair_numbers.
  - repeat constructor; simpl; intuition discriminate.
  - exists [(0%Z, [0]); (1%Z, [0])]. split; [split|].
    + repeat constructor.
    + intros d [<-|[<-|[]]]; reflexivity.
    + reflexivity.
  - intros hist x t dt g Hx E. injection E as <-. split; [split|reflexivity].
    + repeat constructor.
    + intros d [<-|[<-|[]]]; reflexivity.
  - intros hist x t dt K Hx E. injection E as <-. apply pair_shapes.
Qed.

(** C108, several dof types: the blocks of mCmatUnit overlap, the norm adds the residuals of the two types before it is taken;
    a step is reported as converged, while no values at all bring either residual below 3/4 *)
Theorem C108_two_types_refuted :
  exists (q : quasi_data unit) ops size num s s', fits_together q ops size num /\ q_dofs q = [0; 1]%Z /\ solver_complete (q_linsolve q) /\ q_tolerance q = / 10 ^ 10 /\
    equations (q_constraints q) 0 = [] /\ equations (q_constraints q) 1 = [] /\
    do_step (quasi_on_dofs q) s 1 = (s', StepOk 0) /\
    forall hist x t dt g, q_gradient q [0; 1]%Z hist x t dt = Ok g -> 3 / 4 <= Rabs (dval g 0 0) /\ 3 / 4 <= Rabs (dval g 1 0).
Proof.
  assert (D : definite (pair_K 0 0) (cons_run cons_empty []) [0; 1]%Z pair_size pair_num).
  { intros w _ W d i Hd Hi. unfold virtual_work, residual, pair_size in W. cbn [map rlsum rsum] in W. unfold kval in W. cbn -[Rplus Rmult Rminus Ropp IZR R0 R1] in W.
    assert (w 0%Z 0%nat = 0 /\ w 1%Z 0%nat = 0) as (W0 & W1) by (split; nra).
    unfold pair_size in Hi. assert (i = 0%nat) by lia. subst i. destruct Hd as [<-|[<-|[]]]; assumption. }
  assert (Sf : system_fits (pair_K 0 0) (pair_g 0 0) [0; 1]%Z pair_size).
  { split; [repeat constructor|]. split; [repeat constructor; simpl; intuition discriminate|]. split; [intros d [<-|[<-|[]]]; reflexivity|apply pair_shapes]. }
  destruct (C106_trial gauss (proj1 gauss_solver) (proj2 gauss_solver) (fun a => [a]) [] (pair_K 0 0) (pair_g 0 0) 0 1 [0; 1]%Z pair_size pair_num Sf pair_numbers eq_refl D)
    as (r & Er & _ & Fr & _).
  change (cons_run cons_empty []) with cons_empty in Er.
  assert (R01 : dval r 0 0 = 1 /\ dval r 1 0 = -1).
  { assert (A : forall w, admissible (cons_run cons_empty []) [0; 1]%Z pair_num w) by (intros w d e _ []).
    pose proof (Fr (fun d _ => if Z.eqb d 0 then 1 else 0) (A _)) as F0. pose proof (Fr (fun d _ => if Z.eqb d 1 then 1 else 0) (A _)) as F1.
    unfold virtual_work, residual, pair_size in F0, F1. cbn [map rlsum rsum] in F0, F1. unfold kval in F0, F1.
    replace (dval (pair_g 0 0) 0 0) with 1 in F0, F1 by (unfold dval; cbn -[Rplus Rmult Ropp Rminus]; ring).
    replace (dval (pair_g 0 0) 1 0) with (-1) in F0, F1 by (unfold dval; cbn -[Rplus Rmult Ropp Rminus]; ring).
    cbn -[Rplus Rmult Rminus Ropp IZR R0 R1 dval] in F0, F1. split; lra. }
  assert (Et : trial_state (quasi_on_dofs pair) pair_state 1 = Ok (dof_move (Some [(0%Z, [0]); (1%Z, [0])]) 1 r)).
  { unfold trial_state. cbn [Hessian0 Gradient TrialSolve quasi_on_dofs mX pair_state oassert obind q_hessian q_gradient pair q_linsolve q_nodes q_constraints q_dofs mGlobalTime].
    replace (dval [(0%Z, [0]); (1%Z, [0])] 0 0) with 0 by reflexivity. replace (dval [(0%Z, [0]); (1%Z, [0])] 1 0) with 0 by reflexivity.
    rewrite Er. reflexivity. }
  destruct (fun P => trial_moves pair [] pair_size pair_num pair_fits pair_state 1 _ P Et) as (x0 & y & dx & g' & K' & Ex0 & Ey & (_ & Hy) & Hdx & Eg' & EK' & Es' & Vy & _).
  { eexists. split; [reflexivity|]. split; [repeat constructor|]. intros d [<-|[<-|[]]]; reflexivity. }
  cbn [mX pair_state] in Ex0. injection Ex0 as <-.
  assert (dx = r).
  { cbn [q_gradient q_hessian pair pair_state mX mGlobalTime mHistory mTimeStep q_dofs] in Eg', EK'. injection Eg' as <-. injection EK' as <-.
    cbn [q_linsolve q_nodes q_constraints q_dofs pair mGlobalTime pair_state] in Es'.
    replace (dval [(0%Z, [0]); (1%Z, [0])] 0 0) with 0 in Es' by reflexivity. replace (dval [(0%Z, [0]); (1%Z, [0])] 1 0) with 0 in Es' by reflexivity.
    rewrite Er in Es'. injection Es' as <-. reflexivity. }
  subst dx. rewrite Ey in Et.
  assert (Y0 : dval y 0 0 = -1) by (rewrite Vy, (proj1 R01); unfold dval; cbn -[Rminus]; ring).
  assert (Y1 : dval y 1 0 = 1) by (rewrite Vy, (proj2 R01); unfold dval; cbn -[Rminus]; ring).
  assert (Ng : dof_norm pair_unit [0; 1]%Z (pair_g (-1) 1) = Ok 0).
  { unfold dof_norm. cbn -[Rplus Rmult Rminus Ropp IZR R0 R1 sqrt pow]. f_equal. etransitivity; [|exact sqrt_0]. f_equal. unfold mentry. cbn -[Rplus Rmult Rminus Ropp IZR R0 R1 pow]. ring. }
  assert (Nx : dof_norm pair_unit [0; 1]%Z y = Ok 0).
  { unfold dof_norm. pose proof (Hy 0%Z (or_introl eq_refl)) as S0. pose proof (Hy 1%Z (or_intror (or_introl eq_refl))) as S1. unfold size_of in S0, S1. unfold dval, val in Y0, Y1.
    cbn [to_eigen]. destruct (mfind lt_dof 0%Z y) as [b0|]; [|discriminate]. destruct (mfind lt_dof 1%Z y) as [b1|]; [|discriminate]. cbn [option_map] in S0, S1. injection S0 as S0. injection S1 as S1.
    destruct b0 as [|v0 [|? ?]]; try discriminate S0. destruct b1 as [|v1 [|? ?]]; try discriminate S1. cbn in Y0, Y1. subst v0 v1.
    cbn -[Rplus Rmult Rminus Ropp IZR R0 R1 sqrt pow]. f_equal. etransitivity; [|exact sqrt_0]. f_equal. unfold mentry. cbn -[Rplus Rmult Rminus Ropp IZR R0 R1 pow]. ring. }
  assert (TT : 0 < / 10 ^ 10) by (apply Rinv_0_lt_compat, pow_lt; lra). assert (T2 : 0 <= 10 ^ 10) by (apply pow_le; lra).
  exists pair, [], pair_size, pair_num, pair_state. eexists. split; [exact pair_fits|]. split; [reflexivity|]. split; [exact (proj2 gauss_solver)|]. split; [reflexivity|]. split; [reflexivity|]. split; [reflexivity|]. split.
  - unfold do_step. rewrite Et. cbv zeta. unfold newton. cbn [Residual newton_problem Gradient quasi_on_dofs oassert obind Norm QNorm Tolerance QTolerance q_gradient q_unit q_dofs q_tolerance pair].
    rewrite Y0, Y1, Ng, (rltb_true _ _ TT). cbn [snd XNorm quasi_on_dofs q_unit q_dofs pair Update q_update]. rewrite Nx, (rltb_false _ _ T2). reflexivity.
  - intros hist x t dt g E. cbn [q_gradient pair] in E. injection E as <-. generalize (dval x 0 0) (dval x 1 0). intros u v. unfold dval. cbn -[Rplus Rmult Rminus Ropp Rabs Rdiv].
    assert (N0 : 3 / 4 <= u * u + u + 1) by (pose proof (Rle_0_sqr (u + 1 / 2)) as S; unfold Rsqr in S; lra).
    assert (N1 : - (v * v) + v - 1 <= - (3 / 4)) by (pose proof (Rle_0_sqr (v - 1 / 2)) as S; unfold Rsqr in S; lra). split; [rewrite Rabs_right by lra; exact N0|]. rewrite Rabs_left by lra. lra.
Qed.
Print Assumptions C108_two_types_refuted.

(** ** The hypotheses are met: the spring pulled by node 0 with the load t on node 1 *)
Example C108_example :
  let q := spring (fun t => t) (fun t => t) in
  fits_together q (spring_ops (fun t => t)) spring_size spring_num /\ q_dofs q = [0%Z] /\ linear_problem q spring_size spring_K (fun t _ i => if Nat.eqb i 1 then t else 0) /\
  definite spring_K (q_constraints q) [0%Z] spring_size spring_num /\ solver_complete (q_linsolve q) /\ 0 < q_tolerance q /\
  mX zero_state = Some [(0%Z, [0; 0])] /\ has_sizes [0%Z] spring_size [(0%Z, [0; 0])] /\ constraints_hold (q_constraints q) [0%Z] spring_num [(0%Z, [0; 0])] (mGlobalTime zero_state) /\
  exists s1 s2 y, do_steps (quasi_on_dofs q) zero_state [1; 2] = (s2, [StepOk 0; StepOk 0]) /\ do_steps (quasi_on_dofs q) zero_state [1] = (s1, [StepOk 0]) /\
    mX s2 = Some y /\ dval y 0 0 = 2 /\ dval y 0 1 = 4.
Proof.
  cbv zeta. split; [apply spring_fits|]. split; [reflexivity|]. split; [apply (spring_linear (fun t => t) (fun t => t))|]. split; [apply spring_definite|]. split; [exact (proj2 gauss_solver)|].
  split; [apply Rinv_0_lt_compat, pow_lt; lra|]. split; [reflexivity|]. split; [exact zero_sizes|]. split.
  - intros d e [<-|[]] [<-|[]]. unfold lhs, dval. cbn -[to_float Rplus]. rewrite to_float_zero. ring.
  - assert (F : to_float 1 = 1 /\ to_float 2 = 2).
    { split; apply to_float_exact; unfold float_representable; [change 1 with (bpow radix2 0)|change 2 with (bpow radix2 1)]; (apply generic_format_bpow; unfold FLT_exp; lia). }
    destruct F as (F1 & F2).
    destruct (spring_step (fun t => t) (fun t => t) zero_state _ 1 eq_refl zero_sizes) as (y1 & H1 & A1 & B1 & E1).
    { unfold dval. cbn -[to_float Rplus Rminus Rabs pow]. rewrite to_float_zero, F1, Rabs_right by lra. cbn [pow]. lra. }
    cbn -[to_float Rplus Rminus dval do_step] in A1, B1, E1. replace (dval [(0%Z, [0; 0])] 0 0) with 0 in A1, B1 by reflexivity. rewrite to_float_zero, F1 in A1, B1.
    match type of E1 with _ = (?s, _) => set (s1 := s) in E1 end.
    destruct (spring_step (fun t => t) (fun t => t) s1 y1 2 eq_refl H1) as (y2 & _ & A2 & B2 & E2).
    { change (mGlobalTime s1) with 1. rewrite F1, F2, A1, Rabs_right by lra. cbn [pow]. lra. }
    change (mGlobalTime s1) with 1 in A2, B2. rewrite F1, F2, A1 in A2, B2.
    eexists s1, _, y2. split; [cbn [do_steps]; rewrite E1, E2; reflexivity|]. split; [cbn [do_steps]; rewrite E1; reflexivity|]. split; [reflexivity|]. split; lra.
Qed.
