From Coq Require Import List ZArith Arith Bool Reals Lra Lia Sorted.
From Verif Require Import RSum Algebra Outcome DofModel DofSpec DofProofs ConstraintModel ConstraintSpec ConstraintProofs ConstraintProofs2 ConstraintProofs3.
From Verif Require Import SolveModel SolveSpec SolveProofs SupportSpec SupportProofs2 AdaptiveModel NewtonModel NewtonProofs QuasiModel QuasiSpec QuasiProofs QuasiProofs2.
Import ListNotations.
Local Open Scope R_scope.

Lemma rltb_true a b : a < b -> rltb a b = true.
Proof. intros H. unfold rltb. destruct (Rlt_dec a b); [reflexivity|contradiction]. Qed.
Lemma rltb_false a b : b <= a -> rltb a b = false.
Proof. intros H. unfold rltb. destruct (Rlt_dec a b); [lra|reflexivity]. Qed.

Section Linear.
  Context {H : Type}.
  Variables (q : quasi_data H) (ops : list cons_op) (size : Z -> nat) (num : Z -> dofkey -> nat) (d : Z) (K : dofmat RR) (p : R -> Z -> nat -> R).
  Hypothesis F : fits_together q ops size num.
  Hypothesis One : q_dofs q = [d].
  Hypothesis Lin : linear_problem q size K p.
  Let c := cons_run cons_empty ops.
  Hypothesis Def : definite K c [d] size num.
  Hypothesis Cpl : solver_complete (q_linsolve q).
  Hypothesis Tol : 0 < q_tolerance q.

  Lemma residual_move x dx pp i : residual K size [d] (fun a j => x a j - dx a j) pp d i = residual K size [d] x pp d i - (residual K size [d] dx (fun _ _ => 0) d i).
  Proof.
    unfold residual. cbn [map rlsum fold_right]. rewrite (rsum_ext _ (fun j => kval K d d i j * (x d j - dx d j)) (fun j => kval K d d i j * x d j - kval K d d i j * dx d j)) by (intros; ring).
    rewrite rsum_minus. ring.
  Qed.

  (** the trial state is already the equilibrium *)
  Lemma linear_core s x t : mX s = Some x -> has_sizes [d] size x ->
    exists y, has_sizes [d] size y /\ equilibrium c [d] size num K (p t) (dval y) /\
      (forall e, In e (equations c d) -> lhs (num d) (dval y d) e - lhs (num d) (dval x d) e = to_float (erhs e t) - to_float (erhs e (mGlobalTime s))) /\
      trial_state (quasi_on_dofs q) s t = Ok (Some y) /\
      let s1 := mkQState (mX s) (mGlobalTime s) (t - mGlobalTime s) (mHistory s) in
      snd (newton (newton_problem (quasi_on_dofs q) s1) (line_search (newton_problem (quasi_on_dofs q) s1) 6) 6 (Some y)) = NReturn (Some y) None.
  Proof.
    intros Ex Hx. pose proof Lin as (Lg & LK). rewrite One in Lg, LK.
    destruct (Lg (mHistory s) x t (t - mGlobalTime s) Hx) as (g & Eg & Vg). pose proof (LK (mHistory s) x (mGlobalTime s) (mTimeStep s) Hx) as EK.
    assert (FG : forall hist x t dt g, has_sizes [d] size x -> q_gradient q [d] hist x t dt = Ok g -> has_sizes [d] size g /\ bv_keys g = [d]) by (rewrite <- One; exact (ft_gradient _ _ _ _ F)).
    destruct (FG _ _ _ _ g Hx Eg) as (Hg & Kg).
    assert (Hsys : system_fits K g [d] size).
    { rewrite <- One. apply (gradient_system q ops size num F (mHistory s) x t (t - mGlobalTime s) g K (mHistory s) x (mGlobalTime s) (mTimeStep s)); rewrite One; assumption. }
    assert (Hcon : constraints_fit (q_nodes q) ops [d] size num) by (rewrite <- One; exact (ft_numbers _ _ _ _ F)).
    destruct (solve_trial_returns (q_nodes q) ops K g [d] size num Hsys Hcon Def (q_linsolve q) Cpl (eq_sym Kg) (mGlobalTime s) t) as (dx & Es).
    assert (Et : exists trial, trial_state (quasi_on_dofs q) s t = Ok trial).
    { unfold trial_state. cbn [Hessian0 Gradient TrialSolve quasi_on_dofs]. rewrite Ex, One. cbn [oassert obind]. rewrite EK. cbn [obind]. rewrite Eg. cbn [obind].
      rewrite (ft_constraints _ _ _ _ F), Es. cbn [omap obind]. eauto. }
    destruct Et as (trial & Et).
    destruct (trial_moves q ops size num F s t trial) as (x0 & y & dx' & g' & K' & Ex0 & -> & Hy & Hdx & Eg' & EK' & Es' & Vy & Ly).
    { exists x. split; [exact Ex|]. rewrite One. exact Hx. }
    { exact Et. }
    rewrite One in *. assert (x0 = x) by congruence. subst x0. assert (g' = g) by congruence. subst g'. assert (K' = K) by congruence. subst K'.
    assert (dx' = dx) by (rewrite (ft_constraints _ _ _ _ F) in Es'; congruence). subst dx'.
    destruct (solve_trial_lemma (q_linsolve q) (ft_solver _ _ _ _ F) (q_nodes q) ops K g (mGlobalTime s) t [d] size num Hsys Hcon (eq_sym Kg)) as (_ & _ & HH).
    destruct (HH dx Es) as (_ & _ & Wdx).
    assert (Res : forall i, (i < size d)%nat -> residual K size [d] (dval y) (p t) d i = - residual K size [d] (dval dx) (dval g) d i).
    { intros i Hi. transitivity (residual K size [d] (fun a j => dval x a j - dval dx a j) (p t) d i).
      - unfold residual. cbn [map rlsum fold_right]. f_equal. f_equal. apply rsum_ext. intros j Hj. rewrite Vy. reflexivity.
      - rewrite residual_move, <- (Vg d i (or_introl eq_refl) Hi). unfold residual. ring. }
    assert (Eq : equilibrium c [d] size num K (p t) (dval y)).
    { intros w Hw. pose proof (Wdx w Hw) as W. unfold virtual_work in *. cbn [map rlsum fold_right] in *. rewrite Rplus_0_r in *.
      rewrite (rsum_ext (size d) _ (fun i => -1 * (w d i * residual K size [d] (dval dx) (dval g) d i))).
      - rewrite rsum_scal, W. ring.
      - intros i Hi. rewrite (Res i Hi). ring. }
    exists y. split; [exact Hy|]. split; [exact Eq|]. split; [intros e He; apply Ly; [left; reflexivity|exact He]|]. split; [exact Et|]. cbv zeta.
    set (s1 := mkQState (mX s) (mGlobalTime s) (t - mGlobalTime s) (mHistory s)).
    unfold newton. cbn [Residual newton_problem Gradient quasi_on_dofs oassert obind Norm QNorm Tolerance QTolerance]. rewrite One.
    replace (mGlobalTime s1 + mTimeStep s1) with t by (unfold s1; cbn [mGlobalTime mTimeStep]; ring).
    destruct (Lg (mHistory s1) y t (mTimeStep s1) Hy) as (gy & Egy & Vgy). rewrite Egy.
    destruct (FG _ _ _ _ gy Hy Egy) as (Hgy & _).
    assert (N0 : dof_norm (q_unit q) (q_dofs q) gy = Ok 0).
    { apply (no_work q ops size num d F One gy Hgy). intros w Hw. rewrite <- (Eq w Hw). unfold virtual_work. cbn [map rlsum fold_right]. f_equal. apply rsum_ext.
      intros i Hi. rewrite (Vgy d i (or_introl eq_refl) Hi). reflexivity. }
    rewrite One in N0. rewrite N0, (rltb_true _ _ Tol). reflexivity.
  Qed.

  Lemma linear_unique x x' t : (forall e, In e (equations c d) -> lhs (num d) (x d) e = lhs (num d) (x' d) e) ->
    equilibrium c [d] size num K (p t) x -> equilibrium c [d] size num K (p t) x' -> forall i, (i < size d)%nat -> x d i = x' d i.
  Proof.
    intros L E E' i Hi. apply (unique ops K [d] size num Def x x' (p t)); [|exact E|exact E'|left; reflexivity|exact Hi].
    intros d' e [<-|[]] He. rewrite (lhs_ext (num d) (fun i => x d i - x' d i) (fun i => x d i + (- x' d i)) e) by (intros; ring).
    rewrite lhs_add, lhs_opp, (L e He). ring.
  Qed.

  Lemma linear_step s x t : mX s = Some x -> has_sizes [d] size x ->
    exists y, has_sizes [d] size y /\ equilibrium c [d] size num K (p t) (dval y) /\
      (forall e, In e (equations c d) -> lhs (num d) (dval y d) e - lhs (num d) (dval x d) e = to_float (erhs e t) - to_float (erhs e (mGlobalTime s))) /\
      (forall v h', dof_norm (q_unit q) [d] y = Ok v -> v <= 10 ^ 10 -> q_update q [d] (mHistory s) y t (t - mGlobalTime s) = (h', false) ->
         do_step (quasi_on_dofs q) s t = (mkQState (Some y) t (t - mGlobalTime s) h', StepOk 0)) /\
      (forall s' n, do_step (quasi_on_dofs q) s t = (s', StepOk n) -> mX s' = Some y /\ mGlobalTime s' = t /\ n = O) /\
      (forall s' o, do_step (quasi_on_dofs q) s t = (s', o) -> (forall n, o <> StepOk n) -> mX s' = mX s /\ mGlobalTime s' = mGlobalTime s).
  Proof.
    intros Ex Hx. destruct (linear_core s x t Ex Hx) as (y & Hy & Ey & Ly & Et & En). exists y. split; [exact Hy|]. split; [exact Ey|]. split; [exact Ly|].
    cbv zeta in En. unfold do_step. rewrite Et. cbv zeta. rewrite En.
    replace (mGlobalTime (mkQState (mX s) (mGlobalTime s) (t - mGlobalTime s) (mHistory s)) + mTimeStep (mkQState (mX s) (mGlobalTime s) (t - mGlobalTime s) (mHistory s))) with t by (cbn [mGlobalTime mTimeStep]; ring).
    cbn [XNorm quasi_on_dofs Update mTimeStep mHistory]. rewrite One. split; [|split].
    - intros v h' Ev Hv Eu. rewrite Ev, Eu, (rltb_false _ _ Hv). reflexivity.
    - intros s' n E. destruct (rltb _ _); [discriminate|]. destruct (q_update q [d] (mHistory s) y t (t - mGlobalTime s)) as (h', threw). destruct threw; [discriminate|].
      injection E as <- <-. cbn [mX mGlobalTime]. auto.
    - intros s' o E Hn. destruct (rltb _ _); [injection E as <- _; auto|]. destruct (q_update q [d] (mHistory s) y t (t - mGlobalTime s)) as (h', threw).
      destruct threw; [injection E as <- _; auto|]. injection E as _ <-. exfalso. exact (Hn O eq_refl).
  Qed.

  (** whole histories *)
  Definition at_equilibrium (s : quasi_state (option (dofvec RR)) H) : Prop :=
    exists x, mX s = Some x /\ has_sizes [d] size x /\ constraints_hold c [d] num x (mGlobalTime s) /\ equilibrium c [d] size num K (p (mGlobalTime s)) (dval x).

  Lemma linear_history times : forall s x s' os, mX s = Some x -> has_sizes [d] size x -> constraints_hold c [d] num x (mGlobalTime s) ->
    do_steps (quasi_on_dofs q) s times = (s', os) -> (at_equilibrium s \/ existsb (fun o => match o with StepOk _ => true | _ => false end) os = true) -> at_equilibrium s'.
  Proof.
    induction times as [|t ts IH]; intros s x s' os Ex Hx Hc E Hok; cbn [do_steps] in E.
    - injection E as <- <-. destruct Hok as [Hok|Hok]; [exact Hok|discriminate].
    - destruct (do_step (quasi_on_dofs q) s t) as (s1, o) eqn:E1. destruct (do_steps (quasi_on_dofs q) s1 ts) as (s2, os2) eqn:E2. injection E as <- <-.
      destruct (linear_step s x t Ex Hx) as (y & Hy & Ey & Ly & _ & Sok & Sno).
      assert (D : (exists n, o = StepOk n) \/ (forall n, o <> StepOk n)) by (destruct o; [left; eauto|right; discriminate..]).
      destruct D as [(n & ->)|Hn].
      + destruct (Sok s1 n E1) as (E3 & E4 & ->).
        assert (Hc1 : constraints_hold c [d] num y (mGlobalTime s1)).
        { intros d' e [<-|[]] He. rewrite E4. specialize (Ly e He). rewrite (Hc d e (or_introl eq_refl) He) in Ly. lra. }
        apply (IH s1 y s2 os2 E3 Hy Hc1 E2). left. exists y. split; [exact E3|]. split; [exact Hy|]. split; [exact Hc1|]. rewrite E4. exact Ey.
      + destruct (Sno s1 o E1 Hn) as (E3 & E4).
        apply (IH s1 x s2 os2); [congruence|exact Hx|rewrite E4; exact Hc|exact E2|]. destruct Hok as [(z & Hz)|Hok].
        * left. exists z. rewrite E3, E4. exact Hz.
        * right. destruct o; [exfalso; exact (Hn _ eq_refl)|exact Hok..].
  Qed.
End Linear.
