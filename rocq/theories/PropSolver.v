(** * C26-C28: adaptive time stepping, Newton-Raphson, quasi-static steps *)
From Coq Require Import List ZArith Reals Lra Lia Sorted.
From Verif Require Import Outcome AdaptiveModel AdaptiveSpec AdaptiveProofs NewtonModel NewtonSpec NewtonProofs.
Import ListNotations.
Local Open Scope R_scope.

(** C26.  There is a bound N such that for every sequence of responses the loop ends within N
    iterations, with a legal trace: postprocessing at the start and after each success. *)
Theorem C26_adaptive_partial :
  forall p dt0 tEnd tStart, good_controller p -> 0 < dt0 ->
  exists N, forall resp, exists tr it,
    adaptive_solve N p dt0 tEnd tStart resp = (EPost tStart :: tr, Some it) /\
    legal (Rmax dt0 (dtMax p)) tStart tr /\
    post_times tr = success_times tr /\ StronglySorted Rlt (tStart :: post_times tr) /\
    match it with
    | Return t' _ => tEnd <= t' /\ last (post_times tr) tStart = t' /\ (dt0 <= tEnd - tStart -> t' = tEnd)
    | ThrowSmall t' dt' => dt0 <= tEnd - tStart -> dt' < dtMin p /\ t' = last (post_times tr) tStart
         /\ last tr (EPost tStart) = EStep (t' + dt' / decreaseFactor p) NoConvergence
    | ThrowOther t' _ => dt0 <= tEnd - tStart -> t' = last (post_times tr) tStart /\ exists t'', last tr (EPost tStart) = EStep t'' OtherException
    | Continue _ _ => False
    end.
Proof. exact adaptive_lemma. Qed.
Print Assumptions C26_adaptive_partial.

(** the result does not depend on where the loop would be cut *)
Theorem C26_bound_irrelevant :
  forall p dt0 tEnd tStart resp n n' tr it, (n <= n')%nat ->
  adaptive_solve n p dt0 tEnd tStart resp = (tr, Some it) -> adaptive_solve n' p dt0 tEnd tStart resp = (tr, Some it).
Proof. exact adaptive_fuel. Qed.
Print Assumptions C26_bound_irrelevant.

(** the first step is not limited by the end time *)
Theorem C26_exact_end_refuted :
  exists p dt0 tEnd tStart N resp tr t' dt', good_controller p /\ 0 < dt0 /\ dt0 <= dtMax p /\ tStart < tEnd /\
    adaptive_solve N p dt0 tEnd tStart resp = (tr, Some (Return t' dt')) /\ t' <> tEnd.
Proof.
  exists (mkController 1 (1 / 1000) (3 / 2) (1 / 2)), 1, (1 / 2), 0, 1%nat, (fun _ => Converged 5), [EPost 0; EStep (0 + 1) (Converged 5); EPost (0 + 1)], (0 + 1), 1.
  split; [unfold good_controller; simpl; lra|]. split; [lra|]. split; [simpl; lra|]. split; [lra|]. split; [|lra].
  unfold adaptive_solve. simpl. destruct (rleb_spec (1 / 2) (0 + 1)) as [(-> & _)|(_ & H)]; [reflexivity|lra].
Qed.
Print Assumptions C26_exact_end_refuted.

Example C26_example :
  good_controller (mkController (1 / 10) (1 / 1000000) (3 / 2) (1 / 2)) /\
  let p := mkController 1 (1 / 4) (3 / 2) (1 / 2) in
  let resp := fun k => match k with 0%nat => NoConvergence | _ => Converged 5 end in
  good_controller p /\
  adaptive_solve 3 p 1 1 0 resp =
    ([EPost 0; EStep (0 + 1) NoConvergence; EStep (0 + 1 * (1 / 2)) (Converged 5); EPost (0 + 1 * (1 / 2));
      EStep (0 + 1 * (1 / 2) + 1 * (1 / 2)) (Converged 5); EPost (0 + 1 * (1 / 2) + 1 * (1 / 2))],
     Some (Return (0 + 1 * (1 / 2) + 1 * (1 / 2)) (1 * (1 / 2)))).
Proof.
  split; [unfold good_controller; simpl; lra|]. cbn zeta. split; [unfold good_controller; simpl; lra|].
  unfold adaptive_solve. simpl. unfold next_dt. simpl.
  repeat match goal with
  | |- context [rltb ?a ?b] => destruct (rltb_spec a b) as [(-> & ?)|(-> & ?)]; try lra; simpl
  | |- context [rleb ?a ?b] => destruct (rleb_spec a b) as [(-> & ?)|(-> & ?)]; try lra; simpl
  end. reflexivity.
Qed.

(** C27.  The trace holds all iterates.  Every one is reached from its predecessor by a damped
    Newton update, all before the returned one have not converged. *)
Theorem C27_newton_postcondition :
  forall X RV DX DR (P : problem X RV DX DR) maxIter x0 tr res,
  (newton P (no_line_search P) maxIter x0 = (tr, res) \/ exists n, (0 < n)%nat /\ newton P (line_search P n) maxIter x0 = (tr, res)) ->
  consecutive (fun a b => exists k, newton_update P (halved k) a b) tr /\
  (Z.of_nat (length tr) <= Z.max 0 maxIter + 1)%Z /\
  match res with
  | NReturn y num => converged P y /\ last tr x0 = y /\ hd_error tr = Some x0 /\ Forall (not_converged P) (removelast tr) /\
      num = match tr with [_] => None | _ => Some (length tr - 1)%nat end
  | NNoConvergence num => Z.of_nat num = Z.max 0 maxIter /\ length tr = S num /\ hd_error tr = Some x0 /\ Forall (not_converged P) tr
  | NThrow | NUB => ~ never_fails P
  end.
Proof.
  intros X RV DX DR P maxIter x0 tr res Hn.
  match goal with |- ?g => assert (G : forall search acc, search_ok P search acc -> (never_fails P -> forall r x dx, exists y, search r x dx = Ok y) ->
    newton P search maxIter x0 = (tr, res) -> g) end; [|destruct Hn as [Hn|(n & Hn0 & Hn)];
    [exact (G _ _ (no_line_search_ok P) (no_line_search_total P) Hn)|exact (G _ _ (line_search_ok P n Hn0) (line_search_total P n) Hn)]].
  clear Hn. intros search acc Hs Ht E. destruct (newton_spec P search acc Hs _ _ _ _ E) as (Hc & Hl & Hm).
  split; [|split; [exact Hl|]].
  - revert Hc. clear. induction tr as [|x tr IH]; simpl; [auto|]. destruct tr as [|y tr]; [auto|]. intros ((k & Hk & _) & Hc). split; [eauto|auto].
  - destruct res as [y num|num| |]; try exact Hm; intros Hnf;
      destruct (newton_total P search acc maxIter x0 tr _ Hs Hnf (Ht Hnf) E) as [(y & num & Hr)|(num & Hr)]; discriminate.
Qed.
Print Assumptions C27_newton_postcondition.

(** with line search: a step of length 2^-k, accepted because it converged or reduced the residual
    by the factor 1 - 2^-(k+1), or because the maximal number n of trials was reached *)
Theorem C27_line_search_partial :
  forall X RV DX DR (P : problem X RV DX DR) n maxIter x0 tr res, (0 < n)%nat ->
  newton P (line_search P n) maxIter x0 = (tr, res) ->
  consecutive (fun a b => exists k, newton_update P (halved k) a b /\ (k < n)%nat /\
    (converged P b \/ sufficient_decrease P (halved (S k)) a b \/ S k = n)) tr.
Proof. intros X RV DX DR P n maxIter x0 tr res Hn E. exact (proj1 (newton_spec P _ _ (line_search_ok P n Hn) _ _ _ _ E)). Qed.
Print Assumptions C27_line_search_partial.

(** in the last case there is no decrease: the largest reduction is accepted although it did not help *)
Definition flat_problem : problem R R R R :=
  mkProblem R R R R (fun _ => Ok 1) (fun _ => Ok 1) Rabs (1 / 10) (fun _ _ => Ok 1) (fun x a dx => x - a * dx).
Theorem C27_sufficient_decrease_refuted :
  exists (P : problem R R R R) maxIter x0 a b, never_fails P /\
    fst (newton P (line_search P 6) maxIter x0) = [a; b] /\ ~ converged P b /\
    forall c, 0 <= c -> ~ sufficient_decrease P c a b.
Proof.
  exists flat_problem, 1%Z, 0. eexists _, _. split; [|split].
  - repeat split; simpl; eauto.
  - unfold newton, line_search. simpl.
    repeat match goal with
    | |- context [rltb ?a ?b] => destruct (rltb_spec a b) as [(-> & Hl)|(-> & Hl)];
         [exfalso; revert Hl; try rewrite Rabs_R1; lra|clear Hl]; simpl
    end. reflexivity.
  - split.
    + intros (r & [= <-] & Hr). simpl in Hr. rewrite Rabs_R1 in Hr. lra.
    + intros c Hc (r & r' & [= <-] & [= <-] & Hr). simpl in Hr. rewrite Rabs_R1 in Hr. lra.
Qed.
Print Assumptions C27_sufficient_decrease_refuted.

(** x^2 - 2 from 3/2: converges in one iteration *)
Definition sqrt_problem : problem R R R R :=
  mkProblem R R R R (fun x => Ok (x * x - 2)) (fun x => Ok (2 * x)) Rabs (1 / 100) (fun d r => Ok (r / d)) (fun x a dx => x - a * dx).
Example C27_example : never_fails sqrt_problem /\
  exists y, snd (newton sqrt_problem (line_search sqrt_problem 6) 20 (3 / 2)) = NReturn y (Some 1%nat) /\ y = 17 / 12.
Proof.
  split; [repeat split; simpl; eauto|].
  unfold newton, line_search. simpl.
  match goal with |- context [rltb ?a ?b] => destruct (rltb_spec a b) as [(-> & Hl)|(-> & Hl)] end.
  - exfalso. rewrite Rabs_right in Hl by lra. lra.
  - clear Hl. simpl. match goal with |- context [rltb ?a ?b] => destruct (rltb_spec a b) as [(-> & Hl)|(-> & Hl)] end.
    + simpl. eexists. split; [reflexivity|]. lra.
    + exfalso. match type of Hl with _ <= Rabs ?e => replace e with (1 / 144) in Hl by lra end. rewrite Rabs_right in Hl; lra.
Qed.

(** C28 *)
Theorem C28_success :
  forall X RV DX DR H (Q : quasi_problem X RV DX DR H) s t s' n, do_step Q s t = (s', StepOk n) ->
  mGlobalTime s' = t /\
  (exists r, Gradient Q (mHistory s) (mX s') t (t - mGlobalTime s) = Ok r /\ QNorm Q r < QTolerance Q) /\
  XNorm Q (mX s') <= 10 ^ 10 /\
  Update Q (mHistory s) (mX s') t (t - mGlobalTime s) = (mHistory s', false) /\ (n <= 6)%nat.
Proof. intros X RV DX DR H. exact do_step_success. Qed.
Print Assumptions C28_success.

Theorem C28_failure_partial :
  forall X RV DX DR H (Q : quasi_problem X RV DX DR H) s t s' o, updates_never_throw Q ->
  do_step Q s t = (s', o) -> succeeded o = false -> same_state s s'.
Proof. intros X RV DX DR H. exact do_step_failure. Qed.
Print Assumptions C28_failure_partial.

(** an exception of an update function leaves at least time and solution *)
Theorem C28_failure_keeps_solution_partial :
  forall X RV DX DR H (Q : quasi_problem X RV DX DR H) s t s' o, do_step Q s t = (s', o) -> succeeded o = false ->
  mX s' = mX s /\ mGlobalTime s' = mGlobalTime s.
Proof. intros X RV DX DR H. exact do_step_failure_solution. Qed.
Print Assumptions C28_failure_keeps_solution_partial.

(** over whole histories: failed calls could as well be left out *)
Theorem C28_transaction_history_partial :
  forall X RV DX DR H (Q : quasi_problem X RV DX DR H), hessian_ignores_time_step Q -> updates_never_throw Q ->
  forall times s sf os, do_steps Q s times = (sf, os) ->
  exists sf' os', do_steps Q s (successful times os) = (sf', os') /\ same_state sf sf' /\ Forall (fun o => succeeded o = true) os'.
Proof. intros X RV DX DR H Q Hh Hu times s sf os E. apply (do_steps_successful Q Hh Hu times s s sf os); [repeat split|exact E]. Qed.
Print Assumptions C28_transaction_history_partial.

(** C28, one Newton step: the iteration uses the gradient and the Hessian of the end of the step.  If there (and only there) the
    linearisation is exact, then the step succeeds with at most one iteration. *)
Theorem C28_one_iteration :
  forall X RV DX DR H (Q : quasi_problem X RV DX DR H) s t u r K dx r', updates_never_throw Q -> (forall y, XNorm Q y <= 10 ^ 10) ->
  trial_state Q s t = Ok u ->
  Gradient Q (mHistory s) u t (t - mGlobalTime s) = Ok r -> Hessian0 Q (mHistory s) u t (t - mGlobalTime s) = Ok K -> QSolve Q K r = Ok dx ->
  Gradient Q (mHistory s) (QMove Q u 1 dx) t (t - mGlobalTime s) = Ok r' -> QNorm Q r' < QTolerance Q ->
  exists s' n, do_step Q s t = (s', StepOk n) /\ (n <= 1)%nat /\ (mX s' = u \/ mX s' = QMove Q u 1 dx).
Proof.
  intros X RV DX DR H Q s t u r K dx r' NT NX ET EG EH ES EG' HT. unfold do_step. rewrite ET. cbv zeta.
  set (s1 := mkQState (mX s) (mGlobalTime s) (t - mGlobalTime s) (mHistory s)).
  assert (Et : mGlobalTime s1 + mTimeStep s1 = t) by (cbn [s1 mGlobalTime mTimeStep]; ring).
  assert (NB : forall y, rltb (10 ^ 10) (XNorm Q y) = false) by (intros y; unfold rltb; destruct (Rlt_dec (10 ^ 10) (XNorm Q y)); [specialize (NX y); lra|reflexivity]).
  assert (TB : rltb (QNorm Q r') (QTolerance Q) = true) by (unfold rltb; destruct (Rlt_dec (QNorm Q r') (QTolerance Q)); [reflexivity|contradiction]).
  assert (Fin : forall y n, exists s' n', (if rltb (10 ^ 10) (XNorm Q y) then (s1, StepNoConvergence) else
     let (h', threw) := Update Q (mHistory s1) y (mGlobalTime s1 + mTimeStep s1) (mTimeStep s1) in
     if threw then (mkQState (mX s) (mGlobalTime s) (mTimeStep s1) h', StepThrow) else (mkQState y t (mTimeStep s1) h', StepOk n)) = (s', StepOk n') /\ n' = n /\ mX s' = y).
  { intros y n. rewrite NB. specialize (NT (mHistory s1) y (mGlobalTime s1 + mTimeStep s1) (mTimeStep s1)).
    destruct (Update Q (mHistory s1) y (mGlobalTime s1 + mTimeStep s1) (mTimeStep s1)) as (h', threw). cbn [snd] in NT. rewrite NT. do 2 eexists. split; [reflexivity|]. split; reflexivity. }
  assert (RS : forall v, Residual (newton_problem Q s1) v = Gradient Q (mHistory s) v t (t - mGlobalTime s)) by (intros v; cbn [newton_problem Residual]; rewrite Et; reflexivity).
  assert (DS : forall v, Derivative (newton_problem Q s1) v = Hessian0 Q (mHistory s) v t (t - mGlobalTime s)) by (intros v; cbn [newton_problem Derivative]; rewrite Et; reflexivity).
  change (rltb (Norm (newton_problem Q s1) r') (Tolerance (newton_problem Q s1)) = true) in TB. change (LinSolve (newton_problem Q s1) K r = Ok dx) in ES.
  change (QMove Q) with (Move (newton_problem Q s1)) in EG', Fin. change (QMove Q u 1 dx) with (Move (newton_problem Q s1) u 1 dx).
  unfold newton. rewrite RS, EG. destruct (rltb (Norm (newton_problem Q s1) r) (Tolerance (newton_problem Q s1))) eqn:E0.
  - cbn [snd]. destruct (Fin u 0%nat) as (s' & n' & E & -> & E'). exists s', 0%nat. split; [exact E|]. split; [lia|left; exact E'].
  - change (Z.to_nat 6) with 6%nat. cbn [newton_loop]. rewrite DS, EH. cbn [obind]. rewrite ES. cbn [obind]. unfold line_search. rewrite RS, EG. cbn [obind].
    cbn [line_search_loop]. rewrite RS, EG'. cbn [obind]. rewrite TB. cbn [snd].
    destruct (Fin (Move (newton_problem Q s1) u 1 dx) 1%nat) as (s' & n' & E & -> & E'). exists s', 1%nat. split; [exact E|]. split; [lia|right; exact E'].
Qed.
Print Assumptions C28_one_iteration.
(** a spring whose stiffness 1 + t grows with time, loaded by t *)
Example C28_one_iteration_example :
  let Q := mkQuasi R R R R unit (fun _ u t _ => Ok ((1 + t) * u - t)) (fun _ _ t _ => Ok (1 + t)) (fun h _ _ _ => (h, false)) Rabs (fun _ => 0) (1 / 10)
    (fun K r => Ok (r / K)) (fun K r _ _ => Ok (r / K)) (fun x a dx => x - a * dx) in
  let s := mkQState 0 0 0 tt in
  updates_never_throw Q /\ (forall y, XNorm Q y <= 10 ^ 10) /\ trial_state Q s 1 = Ok (0 - 1 * (((1 + 1) * 0 - 1) / (1 + 0))) /\
  Rabs ((1 + 1) * (0 - 1 * (((1 + 1) * 0 - 1) / (1 + 0))) - 1) = 1 /\
  exists dx r', QSolve Q (1 + 1) ((1 + 1) * (0 - 1 * (((1 + 1) * 0 - 1) / (1 + 0))) - 1) = Ok dx /\
    Gradient Q tt (QMove Q (0 - 1 * (((1 + 1) * 0 - 1) / (1 + 0))) 1 dx) 1 (1 - 0) = Ok r' /\ QNorm Q r' < QTolerance Q.
Proof.
  cbv zeta. split; [intros h x t dt; reflexivity|]. split; [intros y; cbn [XNorm]; lra|]. split; [reflexivity|]. split; [rewrite Rabs_right; [field|lra]|].
  do 2 eexists. split; [reflexivity|]. split; [reflexivity|]. cbn [QNorm QMove QTolerance]. rewrite Rabs_right; lra.
Qed.

(** the time step of a failed call is kept and used in the Hessian of the next trial state: the same
    call fails first and then succeeds *)
Definition rate_problem : quasi_problem R R R R unit :=
  mkQuasi R R R R unit
    (fun _ x _ _ => Ok (x - 1))
    (fun _ x _ dt => if Req_EM_T x 0 then if Req_EM_T dt 0 then Ok 2 else Ok 1 else Ok 0)
    (fun h _ _ _ => (h, false)) Rabs Rabs (1 / 10)
    (fun dr r => if Req_EM_T dr 0 then Throw else Ok (r / dr))
    (fun dr r _ _ => if Req_EM_T dr 0 then Throw else Ok (r / dr))
    (fun x a dx => x - a * dx).
Theorem C28_repeat_refuted :
  exists (Q : quasi_problem R R R R unit) s t, updates_never_throw Q /\
    let (s1, o1) := do_step Q s t in let (s2, o2) := do_step Q s1 t in
    o1 = StepNoConvergence /\ o2 = StepOk 0.
Proof.
  exists rate_problem, (mkQState 0 0 0 tt), 1. split; [intros h x t dt; reflexivity|].
  assert (E : do_step rate_problem (mkQState 0 0 0 tt) 1 = (mkQState 0 0 (1 - 0) tt, StepNoConvergence)).
  { unfold do_step, trial_state. simpl. destruct (Req_EM_T 0 0) as [_|]; [|congruence]. simpl.
    destruct (Req_EM_T 2 0); [lra|]. simpl. unfold newton. simpl.
    match goal with |- context [rltb ?a ?b] => destruct (rltb_spec a b) as [(-> & Hl)|(-> & Hl)] end.
    - exfalso. match type of Hl with Rabs ?e < _ => replace e with (- (1 / 2)) in Hl by lra end. rewrite Rabs_Ropp, Rabs_right in Hl; lra.
    - simpl. destruct (Req_EM_T (0 - 1 * ((0 - 1) / 2)) 0); [lra|]. simpl. destruct (Req_EM_T 0 0) as [_|]; [|congruence]. reflexivity. }
  rewrite E.
  assert (E2 : exists s2, do_step rate_problem (mkQState 0 0 (1 - 0) tt) 1 = (s2, StepOk 0)).
  { unfold do_step, trial_state. simpl. destruct (Req_EM_T 0 0) as [_|]; [|congruence]. simpl.
    destruct (Req_EM_T (1 - 0) 0); [lra|]. simpl. destruct (Req_EM_T 1 0); [lra|]. simpl. unfold newton. simpl.
    match goal with |- context [rltb ?a ?b] => destruct (rltb_spec a b) as [(-> & Hl)|(-> & Hl)] end.
    - simpl. match goal with |- context [rltb ?a ?b] => destruct (rltb_spec a b) as [(-> & Hl2)|(-> & Hl2)] end.
      + exfalso. match type of Hl2 with _ < Rabs ?e => replace e with 1 in Hl2 by lra end. rewrite Rabs_R1 in Hl2. lra.
      + eexists. reflexivity.
    - exfalso. match type of Hl with _ <= Rabs ?e => replace e with 0 in Hl by lra end. rewrite Rabs_R0 in Hl. lra. }
  destruct E2 as (s2 & ->). split; reflexivity.
Qed.
Print Assumptions C28_repeat_refuted.

(** history written by an update function that throws later is not rolled back *)
Definition failing_update : quasi_problem R R R R nat :=
  mkQuasi R R R R nat (fun _ x _ _ => Ok x) (fun _ _ _ _ => Ok 1) (fun h _ _ _ => (S h, true)) Rabs Rabs (1 / 10)
    (fun dr r => Ok (r / dr)) (fun dr r _ _ => Ok (r / dr)) (fun x a dx => x - a * dx).
Theorem C28_history_rollback_refuted :
  exists (Q : quasi_problem R R R R nat) s t s', do_step Q s t = (s', StepThrow) /\ mHistory s' <> mHistory s.
Proof.
  exists failing_update, (mkQState 0 0 0 0%nat), 1, (mkQState 0 0 (1 - 0) 1%nat). split; [|simpl; discriminate].
  unfold do_step, trial_state. simpl. unfold newton. simpl.
  match goal with |- context [rltb ?a ?b] => destruct (rltb_spec a b) as [(-> & Hl)|(-> & Hl)] end.
  - simpl. match goal with |- context [rltb ?a ?b] => destruct (rltb_spec a b) as [(-> & Hl2)|(-> & Hl2)] end.
    + exfalso. match type of Hl2 with _ < Rabs ?e => replace e with 0 in Hl2 by lra end. rewrite Rabs_R0 in Hl2. lra.
    + reflexivity.
  - exfalso. match type of Hl with _ <= Rabs ?e => replace e with 0 in Hl by lra end. rewrite Rabs_R0 in Hl. lra.
Qed.
Print Assumptions C28_history_rollback_refuted.

(** a problem for the histories: x = t, fails beyond t = 5 *)
Definition ex28 : quasi_problem R R R R (list R) :=
  mkQuasi R R R R (list R) (fun _ x t _ => if rltb 5 t then Throw else Ok (x - t)) (fun _ _ _ _ => Ok 1) (fun h x _ _ => (x :: h, false)) Rabs Rabs (1 / 10)
    (fun dr r => Ok (r / dr)) (fun dr r _ _ => Ok (r / dr)) (fun x a dx => x - a * dx).
Example C28_example : hessian_ignores_time_step ex28 /\ updates_never_throw ex28 /\
  snd (do_step ex28 (mkQState 0 0 0 []) 1) = StepOk 0 /\ snd (do_step ex28 (mkQState 0 0 0 []) 6) = StepThrow.
Proof.
  split; [intros h x t dt dt'; reflexivity|]. split; [intros h x t dt; reflexivity|]. split.
  - unfold do_step, trial_state, newton. simpl. destruct (rltb_spec 5 1) as [(_ & ?)|(-> & _)]; [lra|]. simpl.
    replace (0 + (1 - 0)) with 1 by lra. destruct (rltb_spec 5 1) as [(_ & ?)|(-> & _)]; [lra|]. simpl.
    match goal with |- context [rltb ?a ?b] => destruct (rltb_spec a b) as [(-> & Hl)|(-> & Hl)] end.
    + simpl. match goal with |- context [rltb ?a ?b] => destruct (rltb_spec a b) as [(-> & Hl2)|(-> & Hl2)] end; [|reflexivity].
      exfalso. match type of Hl2 with _ < Rabs ?e => replace e with 1 in Hl2 by lra end. rewrite Rabs_R1 in Hl2. lra.
    + exfalso. match type of Hl with _ <= Rabs ?e => replace e with 0 in Hl by lra end. rewrite Rabs_R0 in Hl. lra.
  - unfold do_step, trial_state. simpl. destruct (rltb_spec 5 6) as [(-> & _)|(_ & ?)]; [reflexivity|lra].
Qed.
