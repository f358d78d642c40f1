From Coq Require Import List ZArith Arith Bool Reals Lra Lia Sorted.
From Verif Require Import RSum Algebra Outcome DofModel DofSpec DofProofs ConstraintModel ConstraintSpec ConstraintProofs ConstraintProofs2 ConstraintProofs3.
From Verif Require Import SolveModel SolveSpec SolveProofs SupportSpec SupportProofs2 AdaptiveModel NewtonModel NewtonProofs QuasiModel QuasiSpec.
Import ListNotations.
Local Open Scope R_scope.

(** ** invariants of Newton's method *)
Section Invariant.
  Context {X RV DX DR : Type}.
  Variables (P : problem X RV DX DR) (I : X -> Prop) (J : RV -> Prop).
  Hypothesis HJ : forall x r, I x -> Residual P x = Ok r -> J r.
  Hypothesis HM : forall x dr r dx alpha, I x -> Derivative P x = Ok dr -> J r -> LinSolve P dr r = Ok dx -> I (Move P x alpha dx).

  Lemma line_search_loop_inv x0 dx n : (forall alpha, I (Move P x0 alpha dx)) ->
    forall alpha norm r x b r' x', I x -> J r -> line_search_loop P n alpha norm x0 dx r x = Ok (b, r', x') -> I x' /\ J r'.
  Proof.
    intros Hm. induction n as [|n IH]; intros alpha norm r x b r' x' Hx Hr E; cbn [line_search_loop] in E.
    - injection E as <- <- <-. auto.
    - destruct (Residual P (Move P x0 alpha dx)) as [r1| |] eqn:E1; cbn [obind] in E; try discriminate.
      pose proof (HJ _ _ (Hm alpha) E1) as J1. destruct (rltb (Norm P r1) (Tolerance P)); [injection E as <- <- <-; auto|].
      destruct (rltb (Norm P r1) _); [injection E as <- <- <-; auto|]. exact (IH _ _ _ _ _ _ _ (Hm alpha) J1 E).
  Qed.
  Lemma newton_loop_inv k n : forall i r x tr x' m, I x -> J r ->
    newton_loop P (line_search P k) n i r x = (tr, NReturn x' m) -> I x'.
  Proof.
    induction n as [|n IH]; intros i r x tr x' m Hx Hr E; cbn [newton_loop] in E; [discriminate|].
    destruct (Derivative P x) as [dr| |] eqn:Ed; cbn [obind] in E; try discriminate.
    destruct (LinSolve P dr r) as [dx| |] eqn:El; cbn [obind] in E; try discriminate.
    destruct (line_search P k r x dx) as [[[b r1] x1]| |] eqn:Es; try discriminate.
    assert (I x1 /\ J r1) as (I1 & J1).
    { unfold line_search in Es. destruct (Residual P x) as [r0| |] eqn:E0; cbn [obind] in Es; try discriminate.
      eapply line_search_loop_inv; [|exact Hx|exact Hr|exact Es]. intros alpha. eapply HM; eauto. }
    destruct b.
    - injection E as _ <- _. exact I1.
    - destruct (newton_loop P (line_search P k) n (S i) r1 x1) as (tr1, res) eqn:En. injection E as _ ->. eapply IH; eauto.
  Qed.
  Lemma newton_inv k n x0 x' m : I x0 -> snd (newton P (line_search P k) n x0) = NReturn x' m -> I x'.
  Proof.
    intros H0 E. unfold newton in E. destruct (Residual P x0) as [r| |] eqn:Er; try discriminate.
    destruct (rltb (Norm P r) (Tolerance P)); [cbn [snd] in E; injection E as <- _; exact H0|].
    destruct (newton_loop P (line_search P k) (Z.to_nat n) 0 r x0) as (tr, res) eqn:En. cbn [snd] in E. subst res.
    eapply newton_loop_inv; [exact H0|exact (HJ _ _ H0 Er)|exact En].
  Qed.
End Invariant.

(** ** vectors *)
Lemma mset_ascending {V} (k : Z) (v : V) m : ascending m -> ascending (mset lt_dof k v m).
Proof. intros H. apply dsorted_ascending. apply dsorted_ascending in H. apply dsorted_mset. exact H. Qed.
Lemma from_eigen_ascending (x : list R) dofs : forall start (dest r : dofvec RR), ascending dest -> from_eigen_at (F := RR) x start dofs dest = Some r -> ascending r.
Proof.
  induction dofs as [|d ds IH]; intros start dest r Ha E; cbn [from_eigen_at] in E; [injection E as <-; exact Ha|].
  destruct (Nat.leb _ _); [|discriminate]. eapply IH; [|exact E]. apply mset_ascending. unfold dc_index. destruct (mfind lt_dof d dest); [exact Ha|].
  apply mset_ascending. exact Ha.
Qed.
Lemma oassert_ok {A} (o : option A) a : oassert o = Ok a -> o = Some a.
Proof. destruct o; cbn; congruence. Qed.
Lemma solve_ascending ls h c K f dofs r : ascending f -> solve ls h c K f dofs = Ok r -> ascending r.
Proof.
  intros Ha E. unfold solve in E.
  destruct (mat_to_eigen K dofs); cbn [olift obind] in E; try discriminate. destruct (to_eigen f dofs); cbn [olift obind] in E; try discriminate.
  destruct (constraint_blocks h c f dofs); cbn [obind] in E; try discriminate. destruct (mat_to_eigen a dofs) as [C|]; cbn [olift obind] in E; try discriminate.
  destruct (dims_fit C s v); [|discriminate]. destruct (ls (scols C) (reduced_matrix C s) (reduced_rhs C v)) as [x| |]; cbn [obind] in E; try discriminate.
  apply oassert_ok in E. eapply from_eigen_ascending; [exact Ha|exact E].
Qed.
Lemma solve_trial_ascending ls h c K f t0 t1 dofs r : ascending f -> solve_trial ls h c K f t0 t1 dofs = Ok r -> ascending r.
Proof.
  intros Ha E. unfold solve_trial in E.
  destruct (mat_to_eigen K dofs); cbn [olift obind] in E; try discriminate. destruct (to_eigen f dofs); cbn [olift obind] in E; try discriminate.
  destruct (constraint_blocks h c f dofs); cbn [obind] in E; try discriminate. destruct (mat_to_eigen a dofs) as [C|]; cbn [olift obind] in E; try discriminate.
  destruct (delta_rhs h c f t0 t1 dofs (dv_set_zero f)) as [db| |]; cbn [obind] in E; try discriminate.
  destruct (to_eigen db dofs) as [dB|]; cbn [olift obind] in E; try discriminate.
  destruct (dims_fit C s v); [|discriminate]. cbv zeta in E.
  match type of E with context [ls ?a ?b ?c] => destruct (ls a b c) as [x| |]; cbn [obind] in E; try discriminate end.
  apply oassert_ok in E. eapply from_eigen_ascending; [exact Ha|exact E].
Qed.

Lemma size_compatible (x y : dofvec RR) (dofs : list Z) size : has_sizes dofs size x -> has_sizes dofs size y -> (forall d, @size_of RR y d <> None -> In d dofs) -> compatible x y.
Proof.
  intros (_ & Hx) (_ & Hy) Hk d a b Ha Hb. assert (Hd : In d dofs) by (apply Hk; unfold size_of; rewrite Hb; discriminate).
  specialize (Hx d Hd). specialize (Hy d Hd). unfold size_of in Hx, Hy. rewrite Ha in Hx. rewrite Hb in Hy. cbn [option_map] in Hx, Hy. congruence.
Qed.

(** moving a vector *)
Lemma move_spec dofs size (x dx : dofvec RR) (alpha : R) : has_sizes dofs size x -> has_sizes dofs size dx -> (forall d, @size_of RR dx d <> None -> In d dofs) ->
  exists y, dof_move (Some x) alpha dx = Some y /\ has_sizes dofs size y /\ forall d i, dval y d i = dval x d i - alpha * dval dx d i.
Proof.
  intros Hx Hd Hk. destruct (dv_scale_lemma (F := RR) alpha dx (proj1 Hd)) as (S1 & S2 & S3).
  destruct (dv_sub_lemma (F := RR) x (dv_scale dx (alpha : car RR)) (proj1 Hx) S1) as (y & Ey & Ay & Sy & Vy).
  { apply (size_compatible x _ dofs size Hx); [split; [exact S1|intros d Hdd; rewrite S2; apply Hd; exact Hdd]|].
    intros d H. apply Hk. rewrite S2 in H. exact H. }
  exists y. split; [exact Ey|]. split; [split; [exact Ay|]|].
  - intros d Hdd. rewrite Sy, S2. rewrite (proj2 Hx d Hdd), (proj2 Hd d Hdd). reflexivity.
  - intros d i. unfold dval. rewrite Vy, S3. cbn. ring.
Qed.

Lemma lhs_move num (x y dx : nat -> R) alpha e : (forall i, y i = x i - alpha * dx i) -> lhs num y e = lhs num x e + alpha * lhs num (fun i => - dx i) e.
Proof.
  intros E. unfold lhs. rewrite E. assert (K : forall l, fold_right (fun tm s => coef tm * y (num (tkey tm)) + s) 0 l = fold_right (fun tm s => coef tm * x (num (tkey tm)) + s) 0 l + alpha * fold_right (fun tm s => coef tm * - dx (num (tkey tm)) + s) 0 l).
  { induction l as [|a l IH]; cbn [fold_right]; [ring|]. rewrite IH, E. ring. }
  rewrite K. ring.
Qed.

(** ** one step and the constraints *)
Section Step.
  Context {H : Type}.
  Variables (q : quasi_data H) (ops : list cons_op) (size : Z -> nat) (num : Z -> dofkey -> nat).
  Hypothesis F : fits_together q ops size num.
  Let dofs := q_dofs q.
  Let c := cons_run cons_empty ops.

  Lemma gradient_system hist x t dt g K hist' x' t' dt' : has_sizes dofs size x -> has_sizes dofs size x' -> q_gradient q dofs hist x t dt = Ok g -> q_hessian q dofs hist' x' t' dt' = Ok K -> system_fits K g dofs size.
  Proof.
    intros Hx Hx' Eg EK. destruct (ft_gradient _ _ _ _ F hist x t dt g Hx Eg) as ((A & S) & _).
    split; [exact A|]. split; [exact (ft_dofs _ _ _ _ F)|]. split; [exact S|]. exact (ft_hessian _ _ _ _ F _ _ _ _ K Hx' EK).
  Qed.

  Lemma solved_sizes (g r : dofvec RR) : has_sizes dofs size g -> bv_keys g = dofs -> ascending r -> (forall d, @size_of RR r d = @size_of RR g d) ->
    has_sizes dofs size r /\ forall d, @size_of RR r d <> None -> In d dofs.
  Proof.
    intros (Ag & Sg) Kg Ar Sr. split; [split; [exact Ar|intros d Hd; rewrite Sr; apply Sg; exact Hd]|].
    intros d Hd. rewrite Sr in Hd. rewrite <- Kg. apply (proj2 (dv_types_lemma (F := RR) g Ag)). exact Hd.
  Qed.

  Lemma trial_moves s newTime trial : (exists x, mX s = Some x /\ has_sizes dofs size x) -> trial_state (quasi_on_dofs q) s newTime = Ok trial ->
    exists x y dx g K, mX s = Some x /\ trial = Some y /\ has_sizes dofs size y /\ has_sizes dofs size dx /\
      q_gradient q dofs (mHistory s) x newTime (newTime - mGlobalTime s) = Ok g /\ q_hessian q dofs (mHistory s) x (mGlobalTime s) (mTimeStep s) = Ok K /\
      solve_trial (q_linsolve q) (q_nodes q) (q_constraints q) K g (mGlobalTime s) newTime dofs = Ok dx /\
      (forall d i, dval y d i = dval x d i - dval dx d i) /\
      forall d e, In d dofs -> In e (equations c d) -> lhs (num d) (dval y d) e - lhs (num d) (dval x d) e = to_float (erhs e newTime) - to_float (erhs e (mGlobalTime s)).
  Proof.
    intros (x & Ex & Hx) E. unfold trial_state in E. cbn [Hessian0 Gradient TrialSolve QMove quasi_on_dofs] in E. rewrite Ex in E. cbn [oassert obind] in E. fold dofs in E.
    destruct (q_hessian q dofs (mHistory s) x (mGlobalTime s) (mTimeStep s)) as [K| |] eqn:EK; cbn [obind] in E; try discriminate.
    destruct (q_gradient q dofs (mHistory s) x newTime (newTime - mGlobalTime s)) as [g| |] eqn:Eg; cbn [obind] in E; try discriminate.
    destruct (solve_trial (q_linsolve q) (q_nodes q) (q_constraints q) K g (mGlobalTime s) newTime dofs) as [dx| |] eqn:Es; cbn [omap obind] in E; try discriminate.
    destruct (ft_gradient _ _ _ _ F _ _ _ _ g Hx Eg) as (Hg & Kg).
    pose proof (gradient_system _ _ _ _ g K _ _ _ _ Hx Hx Eg EK) as Hsys.
    pose proof Es as Es'. rewrite (ft_constraints _ _ _ _ F) in Es'.
    destruct (solve_trial_lemma (q_linsolve q) (ft_solver _ _ _ _ F) (q_nodes q) ops K g (mGlobalTime s) newTime dofs size num Hsys (ft_numbers _ _ _ _ F) (eq_sym Kg)) as (_ & _ & HH).
    destruct (HH dx Es') as (Sdx & Mdx & _).
    destruct (solved_sizes g dx Hg Kg (solve_trial_ascending _ _ _ _ _ _ _ _ _ (proj1 Hg) Es) Sdx) as (Hdx & Kdx).
    destruct (move_spec dofs size x dx 1 Hx Hdx Kdx) as (y & Ey & Hy & Vy).
    assert (trial = Some y) by congruence. subst trial. exists x, y, dx, g, K.
    assert (Vy' : forall d i, dval y d i = dval x d i - dval dx d i) by (intros d i; rewrite Vy; ring).
    repeat (split; [first [exact Ex|reflexivity|exact Hy|exact Hdx|exact Eg|reflexivity|exact EK|exact Es|exact Vy']|]).
    intros d e Hd He. rewrite (lhs_move (num d) (dval x d) (dval y d) (dval dx d) 1 e) by (intros i; apply Vy).
    rewrite (Mdx d e Hd He). ring.
  Qed.

  Definition shifted (y0 : dofvec RR) (x : option (dofvec RR)) : Prop :=
    exists y, x = Some y /\ has_sizes dofs size y /\ forall d e, In d dofs -> In e (equations c d) -> lhs (num d) (dval y d) e = lhs (num d) (dval y0 d) e.

  Lemma newton_keeps s y0 k n x' m : has_sizes dofs size y0 ->
    snd (newton (newton_problem (quasi_on_dofs q) s) (line_search (newton_problem (quasi_on_dofs q) s) k) n (Some y0)) = NReturn x' m -> shifted y0 x'.
  Proof.
    intros Hy0. apply (newton_inv _ (shifted y0) (fun r => has_sizes dofs size r /\ bv_keys r = dofs)).
    - intros x r (y & -> & Hy & _) E. cbn [Residual newton_problem Gradient quasi_on_dofs oassert obind] in E. exact (ft_gradient _ _ _ _ F _ _ _ _ r Hy E).
    - intros x K r dx alpha (y & -> & Hy & Ly) EK (Hr & Kr) Es. cbn [Derivative newton_problem Hessian0 quasi_on_dofs oassert obind LinSolve QSolve Move QMove] in *.
      fold dofs in EK, Es. assert (Hsys : system_fits K r dofs size).
      { split; [exact (proj1 Hr)|]. split; [exact (ft_dofs _ _ _ _ F)|]. split; [exact (proj2 Hr)|]. exact (ft_hessian _ _ _ _ F _ _ _ _ K Hy EK). }
      pose proof Es as Es'. rewrite (ft_constraints _ _ _ _ F) in Es'.
      destruct (solve_lemma (q_linsolve q) (ft_solver _ _ _ _ F) (q_nodes q) ops K r dofs size num Hsys (ft_numbers _ _ _ _ F) (eq_sym Kr)) as (_ & _ & HH).
      destruct (HH dx Es') as (Sdx & Mdx & _).
      destruct (solved_sizes r dx Hr Kr (solve_ascending _ _ _ _ _ _ _ (proj1 Hr) Es) Sdx) as (Hdx & Kdx).
      destruct (move_spec dofs size y dx alpha Hy Hdx Kdx) as (z & Ez & Hz & Vz). exists z. split; [exact Ez|]. split; [exact Hz|].
      intros d e Hd He. rewrite (lhs_move (num d) (dval y d) (dval z d) (dval dx d) alpha e) by (intros i; apply Vz).
      rewrite lhs_opp, (Mdx d e Hd He), (Ly d e Hd He). ring.
    - exists y0. split; [reflexivity|]. split; [exact Hy0|]. reflexivity.
  Qed.

  (** one call *)
  Lemma step_lemma s t s' o x : mX s = Some x -> has_sizes dofs size x -> do_step (quasi_on_dofs q) s t = (s', o) ->
    exists x', mX s' = Some x' /\ has_sizes dofs size x' /\
      forall d e, In d dofs -> In e (equations c d) -> lhs (num d) (dval x' d) e - lhs (num d) (dval x d) e = to_float (erhs e (mGlobalTime s')) - to_float (erhs e (mGlobalTime s)).
  Proof.
    intros Ex Hx E. unfold do_step in E.
    assert (K0 : forall s1 : quasi_state (option (dofvec RR)) H, mX s1 = mX s -> mGlobalTime s1 = mGlobalTime s -> s' = s1 -> exists x', mX s' = Some x' /\ has_sizes dofs size x' /\
      forall d e, In d dofs -> In e (equations c d) -> lhs (num d) (dval x' d) e - lhs (num d) (dval x d) e = to_float (erhs e (mGlobalTime s')) - to_float (erhs e (mGlobalTime s))).
    { intros s1 E1 E2 ->. exists x. split; [congruence|]. split; [exact Hx|]. intros d e _ _. rewrite E2. ring. }
    destruct (trial_state (quasi_on_dofs q) s t) as [trial| |] eqn:Et; [|apply (K0 s); congruence|apply (K0 s); congruence].
    destruct (trial_moves s t trial (ex_intro _ x (conj Ex Hx)) Et) as (x0 & y & dx & g & K & Ex0 & -> & Hy & _ & _ & _ & _ & _ & Ly).
    assert (x0 = x) by congruence. subst x0. cbv zeta in E.
    set (s1 := mkQState (mX s) (mGlobalTime s) (t - mGlobalTime s) (mHistory s)) in *.
    destruct (snd (newton (newton_problem (quasi_on_dofs q) s1) (line_search (newton_problem (quasi_on_dofs q) s1) 6) 6 (Some y))) as [tmp m| | |] eqn:En;
      [|apply (K0 s1); [reflexivity|reflexivity|congruence]|apply (K0 s1); [reflexivity|reflexivity|congruence]|apply (K0 s1); [reflexivity|reflexivity|congruence]].
    destruct (rltb (10 ^ 10) (XNorm (quasi_on_dofs q) tmp)); [apply (K0 s1); [reflexivity|reflexivity|congruence]|].
    destruct (Update (quasi_on_dofs q) (mHistory s1) tmp (mGlobalTime s1 + mTimeStep s1) (mTimeStep s1)) as (h', threw).
    destruct threw; [apply (K0 (mkQState (mX s) (mGlobalTime s) (mTimeStep s1) h')); [reflexivity|reflexivity|congruence]|].
    destruct (newton_keeps s1 y _ _ tmp m Hy En) as (x' & -> & Hx' & Lx'). injection E as <- _. exists x'. split; [reflexivity|]. split; [exact Hx'|].
    intros d e Hd He. cbn [mGlobalTime]. rewrite (Lx' d e Hd He). apply Ly; assumption.
  Qed.

  Lemma steps_lemma times : forall s s' os x, mX s = Some x -> has_sizes dofs size x -> do_steps (quasi_on_dofs q) s times = (s', os) ->
    exists x', mX s' = Some x' /\ has_sizes dofs size x' /\
      forall d e, In d dofs -> In e (equations c d) -> lhs (num d) (dval x' d) e - lhs (num d) (dval x d) e = to_float (erhs e (mGlobalTime s')) - to_float (erhs e (mGlobalTime s)).
  Proof.
    induction times as [|t ts IH]; intros s s' os x Ex Hx E; cbn [do_steps] in E.
    - injection E as <- _. exists x. split; [exact Ex|]. split; [exact Hx|]. intros; ring.
    - destruct (do_step (quasi_on_dofs q) s t) as (s1, o) eqn:E1. destruct (do_steps (quasi_on_dofs q) s1 ts) as (s2, os2) eqn:E2. injection E as <- _.
      destruct (step_lemma s t s1 o x Ex Hx E1) as (x1 & Ex1 & Hx1 & L1). destruct (IH s1 s2 os2 x1 Ex1 Hx1 E2) as (x2 & Ex2 & Hx2 & L2).
      exists x2. split; [exact Ex2|]. split; [exact Hx2|]. intros d e Hd He. specialize (L1 d e Hd He). specialize (L2 d e Hd He). lra.
  Qed.
End Step.
