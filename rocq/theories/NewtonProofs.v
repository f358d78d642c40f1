(** * Proofs for C27, C28 *)
From Coq Require Import List ZArith Reals Lra Lia Bool.
From Verif Require Import Outcome AdaptiveModel AdaptiveProofs NewtonModel NewtonSpec.
Import ListNotations.
Local Open Scope R_scope.

Section Newton.
  Context {X RV DX DR : Type}.
  Variable P : problem X RV DX DR.

  (** result of the line search loop that starts with step length 2^-k0 *)
  Lemma line_search_loop_spec x0 dx prev : forall n k0 r x b r' x',
    line_search_loop P n (halved k0) prev x0 dx r x = Ok (b, r', x') ->
    (n = O /\ b = false /\ r' = r /\ x' = x) \/
    exists k, (k0 <= k < k0 + n)%nat /\ x' = Move P x0 (halved k) dx /\ Residual P x' = Ok r' /\
      (forall j, (k0 <= j < k)%nat -> exists rj, Residual P (Move P x0 (halved j) dx) = Ok rj /\ Tolerance P <= Norm P rj /\ (1 - halved (S j)) * prev <= Norm P rj) /\
      ((b = true /\ Norm P r' < Tolerance P) \/
       (b = false /\ Tolerance P <= Norm P r' /\ Norm P r' < (1 - halved (S k)) * prev) \/
       (b = false /\ Tolerance P <= Norm P r' /\ (1 - halved (S k)) * prev <= Norm P r' /\ S k = (k0 + n)%nat)).
  Proof.
    induction n as [|n IH]; intros k0 r x b r' x' E; simpl in E.
    - injection E as <- <- <-. auto.
    - right. destruct (Residual P (Move P x0 (halved k0) dx)) as [r1| |] eqn:Er; simpl in E; try discriminate.
      destruct (rltb_spec (Norm P r1) (Tolerance P)) as [(Hb & Hl)|(Hb & Hl)]; rewrite Hb in E.
      + injection E as <- <- <-. exists k0. split; [lia|]. split; [reflexivity|]. split; [exact Er|]. split; [intros j Hj; lia|]. auto.
      + replace (halved k0 * (1 / 2)) with (halved (S k0)) in E by (unfold halved; simpl; lra).
        destruct (rltb_spec (Norm P r1) ((1 - halved (S k0)) * prev)) as [(Hb2 & Hl2)|(Hb2 & Hl2)]; rewrite Hb2 in E.
        * injection E as <- <- <-. exists k0. split; [lia|]. split; [reflexivity|]. split; [exact Er|]. split; [intros j Hj; lia|]. auto.
        * apply IH in E. destruct E as [(-> & -> & -> & ->)|(k & Hk & Hx & Hr & Hj & Hc)].
          -- exists k0. split; [lia|]. split; [reflexivity|]. split; [exact Er|]. split; [intros j Hj; lia|].
             right. right. repeat split; auto. lia.
          -- exists k. split; [lia|]. split; [exact Hx|]. split; [exact Hr|]. split.
             ++ intros j Hjk. destruct (Nat.eq_dec j k0) as [->|]; [|apply Hj; lia].
                exists r1. auto.
             ++ destruct Hc as [Hc|[Hc|(H1 & H2 & H3 & H4)]]; auto. right; right. repeat split; auto; lia.
  Qed.

  Lemma line_search_spec n r x dx b r' x' : (0 < n)%nat -> line_search P n r x dx = Ok (b, r', x') ->
    exists r0, Residual P x = Ok r0 /\
    exists k, (k < n)%nat /\ x' = Move P x (halved k) dx /\ Residual P x' = Ok r' /\
      (forall j, (j < k)%nat -> exists rj, Residual P (Move P x (halved j) dx) = Ok rj /\ Tolerance P <= Norm P rj /\ (1 - halved (S j)) * Norm P r0 <= Norm P rj) /\
      ((b = true /\ Norm P r' < Tolerance P) \/
       (b = false /\ Tolerance P <= Norm P r' /\ Norm P r' < (1 - halved (S k)) * Norm P r0) \/
       (b = false /\ Tolerance P <= Norm P r' /\ (1 - halved (S k)) * Norm P r0 <= Norm P r' /\ S k = n)).
  Proof.
    intros Hn E. unfold line_search in E. destruct (Residual P x) as [r0| |] eqn:Er; simpl in E; try discriminate.
    exists r0. split; [reflexivity|]. change 1 with (halved 0) in E.
    apply line_search_loop_spec in E. destruct E as [(-> & _)|(k & Hk & Hx & Hr & Hj & Hc)]; [lia|].
    exists k. split; [lia|]. split; [exact Hx|]. split; [exact Hr|]. split; [intros j Hj'; apply Hj; lia|]. exact Hc.
  Qed.

  (** what the Newton loop needs to know about a search *)
  Definition search_ok (search : RV -> X -> DX -> outcome (bool * RV * X)) (acc : nat -> X -> X -> Prop) : Prop :=
    forall r x dx b r' x', search r x dx = Ok (b, r', x') -> Residual P x' = Ok r' /\
      (if b then Norm P r' < Tolerance P else Tolerance P <= Norm P r') /\ exists k, x' = Move P x (halved k) dx /\ acc k x x'.

  Lemma no_line_search_ok : search_ok (no_line_search P) (fun k _ _ => k = O).
  Proof.
    intros r x dx b r' x' E. unfold no_line_search in E. destruct (Residual P (Move P x 1 dx)) as [r1| |] eqn:Er; simpl in E; try discriminate.
    injection E as <- <- <-. split; [exact Er|]. split; [destruct (rltb_spec (Norm P r1) (Tolerance P)) as [(-> & ?)|(-> & ?)]; lra|].
    exists O. split; [reflexivity|reflexivity].
  Qed.
  Definition accepted (n : nat) (k : nat) (x x' : X) : Prop :=
    (k < n)%nat /\ (converged P x' \/ sufficient_decrease P (halved (S k)) x x' \/ S k = n).
  Lemma line_search_ok n : (0 < n)%nat -> search_ok (line_search P n) (accepted n).
  Proof.
    intros Hn r x dx b r' x' E. apply line_search_spec in E; [|exact Hn]. destruct E as (r0 & Hr0 & k & Hk & Hx & Hr & _ & Hc).
    split; [exact Hr|]. split; [destruct Hc as [(-> & H)|[(-> & H & _)|(-> & H & _)]]; exact H|].
    exists k. split; [exact Hx|]. split; [exact Hk|]. destruct Hc as [(_ & H)|[(_ & _ & H)|(_ & _ & _ & H)]]; auto.
    - left. exists r'. auto.
    - right. left. exists r0, r'. auto.
  Qed.

  Lemma newton_loop_spec search acc : search_ok search acc -> forall n it r x tr res, Residual P x = Ok r -> Tolerance P <= Norm P r ->
    newton_loop P search n it r x = (tr, res) ->
    consecutive (fun a b => exists k, newton_update P (halved k) a b /\ acc k a b) (x :: tr) /\
    (length tr <= n)%nat /\
    match res with
    | NReturn y num => num = Some (it + length tr)%nat /\ converged P y /\ last (x :: tr) x = y /\ Forall (not_converged P) (removelast (x :: tr)) /\ tr <> []
    | NNoConvergence num => num = (it + n)%nat /\ length tr = n /\ Forall (not_converged P) (x :: tr)
    | NThrow => exists x' r', Residual P x' = Ok r' /\ (Derivative P x' = Throw \/ (exists dr, Derivative P x' = Ok dr /\ LinSolve P dr r' = Throw) \/ exists dx, search r' x' dx = Throw)
    | NUB => exists x' r', Residual P x' = Ok r' /\ (Derivative P x' = UB \/ (exists dr, Derivative P x' = Ok dr /\ LinSolve P dr r' = UB) \/ exists dx, search r' x' dx = UB)
    end.
  Proof.
    intros Hs. induction n as [|n IH]; intros it r x tr res Hr Ht E; cbn [newton_loop] in E.
    - injection E as <- <-. split; [exact I|]. split; [simpl; lia|]. split; [lia|]. split; [reflexivity|].
      constructor; [exists r; auto|constructor].
    - destruct (Derivative P x) as [dr| |] eqn:Ed; simpl in E.
      2,3: injection E as <- <-; simpl; split; [exact I|]; split; [lia|]; exists x, r; auto.
      destruct (LinSolve P dr r) as [dx| |] eqn:El; simpl in E.
      2,3: injection E as <- <-; simpl; split; [exact I|]; split; [lia|]; exists x, r; split; [exact Hr|]; right; left; exists dr; auto.
      destruct (search r x dx) as [[[b r'] x']| |] eqn:Es.
      2,3: injection E as <- <-; simpl; split; [exact I|]; split; [lia|]; exists x, r; split; [exact Hr|]; right; right; exists dx; auto.
      destruct (Hs _ _ _ _ _ _ Es) as (Hr' & Hb & k & Hx & Hacc).
      assert (Hup : exists k, newton_update P (halved k) x x' /\ acc k x x').
      { exists k. split; [|exact Hacc]. exists dr, r, dx. auto. }
      destruct b.
      + injection E as <- <-. cbn [consecutive length]. split; [split; [exact Hup|exact I]|]. split; [lia|].
        split; [f_equal; simpl; lia|]. split; [exists r'; auto|]. split; [reflexivity|]. split; [|discriminate].
        simpl. constructor; [exists r; auto|constructor].
      + destruct (newton_loop P search n (S it) r' x') as (tr', res') eqn:En. injection E as <- <-.
        destruct (IH (S it) r' x' tr' res' Hr' Hb En) as (Hc & Hl & Hm).
        split; [split; [exact Hup|exact Hc]|]. split; [simpl; lia|].
        destruct res' as [y num|num| |]; auto.
        * destruct Hm as (Hn & Hy & Hla & Hf & Hne). split; [rewrite Hn; f_equal; simpl; lia|]. split; [exact Hy|]. split.
          -- rewrite <- Hla. cbn [last]. destruct tr' as [|z tr']; [congruence|]. clear. revert z; induction tr' as [|w tr' IHt]; intros z; [reflexivity|]. 
             change (last (w :: tr') x = last (w :: tr') x'). apply IHt.
          -- split; [|discriminate]. change (removelast (x :: x' :: tr')) with (x :: removelast (x' :: tr')).
             constructor; [exists r; auto|exact Hf].
        * destruct Hm as (-> & Hl2 & Hf). split; [lia|]. split; [simpl; lia|]. constructor; [exists r; auto|exact Hf].
  Qed.

  Lemma newton_spec search acc : search_ok search acc -> forall maxIter x0 tr res, newton P search maxIter x0 = (tr, res) ->
    consecutive (fun a b => exists k, newton_update P (halved k) a b /\ acc k a b) tr /\
    (Z.of_nat (length tr) <= Z.max 0 maxIter + 1)%Z /\
    match res with
    | NReturn y num => converged P y /\ last tr x0 = y /\ hd_error tr = Some x0 /\ Forall (not_converged P) (removelast tr) /\
        num = match tr with [_] => None | _ => Some (length tr - 1)%nat end
    | NNoConvergence num => Z.of_nat num = Z.max 0 maxIter /\ length tr = S num /\ hd_error tr = Some x0 /\ Forall (not_converged P) tr
    | NThrow => Residual P x0 = Throw \/ exists x r, Residual P x = Ok r /\ (Derivative P x = Throw \/ (exists dr, Derivative P x = Ok dr /\ LinSolve P dr r = Throw) \/ exists dx, search r x dx = Throw)
    | NUB => Residual P x0 = UB \/ exists x r, Residual P x = Ok r /\ (Derivative P x = UB \/ (exists dr, Derivative P x = Ok dr /\ LinSolve P dr r = UB) \/ exists dx, search r x dx = UB)
    end.
  Proof.
    intros Hs maxIter x0 tr res E. unfold newton in E. destruct (Residual P x0) as [r| |] eqn:Er.
    2,3: injection E as <- <-; simpl; split; [exact I|]; split; [lia|]; left; reflexivity.
    destruct (rltb_spec (Norm P r) (Tolerance P)) as [(Hb & Hl)|(Hb & Hl)]; rewrite Hb in E.
    - injection E as <- <-. simpl. split; [exact I|]. split; [lia|]. split; [exists r; auto|]. repeat split; auto.
    - destruct (newton_loop P search (Z.to_nat maxIter) 0 r x0) as (tr', res') eqn:En. injection E as <- <-.
      destruct (newton_loop_spec search acc Hs _ _ _ _ _ _ Er Hl En) as (Hc & Hlen & Hm).
      split; [exact Hc|]. split; [simpl length; lia|]. destruct res' as [y num|num| |].
      + destruct Hm as (-> & Hy & Hla & Hf & Hne). split; [exact Hy|]. split; [exact Hla|]. split; [reflexivity|]. split; [exact Hf|].
        destruct tr' as [|z tr']; [congruence|]. reflexivity.
      + destruct Hm as (-> & Hl2 & Hf). split; [lia|]. split; [simpl; lia|]. split; [reflexivity|exact Hf].
      + right. exact Hm.
      + right. exact Hm.
  Qed.

  Lemma line_search_total n : never_fails P -> forall r x dx, exists y, line_search P n r x dx = Ok y.
  Proof.
    intros (H1 & _ & _) r x dx. unfold line_search. destruct (H1 x) as (r0 & ->). simpl. generalize 1 as alpha.
    assert (G : forall alpha r1 x1, exists y, line_search_loop P n alpha (Norm P r0) x dx r1 x1 = Ok y); [|intros; apply G].
    induction n as [|m IH]; intros alpha r1 x1; simpl; [eauto|].
    destruct (H1 (Move P x alpha dx)) as (r2 & ->). simpl. destruct (rltb _ _); [eauto|]. destruct (rltb _ _); [eauto|]. apply IH.
  Qed.
  Lemma no_line_search_total : never_fails P -> forall r x dx, exists y, no_line_search P r x dx = Ok y.
  Proof. intros (H1 & _) r x dx. unfold no_line_search. destruct (H1 (Move P x 1 dx)) as (r0 & ->). simpl. eauto. Qed.

  Lemma newton_total search acc maxIter x0 tr res : search_ok search acc -> never_fails P -> (forall r x dx, exists y, search r x dx = Ok y) ->
    newton P search maxIter x0 = (tr, res) -> (exists y num, res = NReturn y num) \/ exists num, res = NNoConvergence num.
  Proof.
    intros Hs (H1 & H2 & H3) Ht E. destruct (newton_spec search acc Hs _ _ _ _ E) as (_ & _ & Hm).
    destruct res as [y num|num| |]; eauto; exfalso; destruct Hm as [Hm|(x & r & Hr & [Hm|[(dr & _ & Hm)|(dx & Hm)]])].
    all: try (destruct (H1 x0); congruence). all: try (destruct (H2 x); congruence). all: try (destruct (H3 dr r); congruence).
    all: destruct (Ht r x dx); congruence.
  Qed.
End Newton.

Section Quasi.
  Context {X RV DX DR H : Type}.
  Variable Q : quasi_problem X RV DX DR H.

  Lemma do_step_success s t s' n : do_step Q s t = (s', StepOk n) ->
    mGlobalTime s' = t /\
    (exists r, Gradient Q (mHistory s) (mX s') t (t - mGlobalTime s) = Ok r /\ QNorm Q r < QTolerance Q) /\
    XNorm Q (mX s') <= 10 ^ 10 /\
    Update Q (mHistory s) (mX s') t (t - mGlobalTime s) = (mHistory s', false) /\ (n <= 6)%nat.
  Proof.
    unfold do_step. destruct (trial_state Q s t) as [u| |]; try discriminate.
    set (s1 := mkQState _ _ _ _). destruct (newton _ _ _ _) as (tr, res) eqn:En. simpl.
    destruct (newton_spec _ _ _ (line_search_ok _ 6 (ltac:(lia))) _ _ _ _ En) as (_ & Hlen & Hm).
    destruct res as [y num|num| |]; try discriminate.
    destruct (rltb_spec (10 ^ 10) (XNorm Q y)) as [(Hb & Hl)|(Hb & Hl)]; simpl in Hb; rewrite Hb; [discriminate|].
    replace (mGlobalTime s + (t - mGlobalTime s)) with t by lra.
    destruct (Update Q (mHistory s) y t (t - mGlobalTime s)) as (h', threw) eqn:Eu. destruct threw; [discriminate|].
    intros [= <- <-]. simpl. split; [reflexivity|]. destruct Hm as ((r & Hr & Hn) & _ & _ & _ & Hnum).
    simpl in Hr, Hn. replace (mGlobalTime s + (t - mGlobalTime s)) with t in Hr by lra.
    split; [exists r; auto|]. split; [lra|]. split; [exact Eu|].
    rewrite Hnum. destruct tr as [|a [|b tr]]; simpl length in *; lia.
  Qed.

  Lemma do_step_failure s t s' o : updates_never_throw Q -> do_step Q s t = (s', o) -> succeeded o = false -> same_state s s'.
  Proof.
    intros Hu. unfold do_step. destruct (trial_state Q s t) as [u| |].
    2,3: intros [= <- <-] _; repeat split.
    set (s1 := mkQState _ _ _ _). destruct (snd _) as [y num|num| |].
    2,3,4: intros [= <- <-] _; repeat split.
    destruct (rltb _ _); [intros [= <- <-] _; repeat split|].
    destruct (Update Q _ y _ _) as (h', threw) eqn:Eu. pose proof (Hu (mHistory s1) y (mGlobalTime s1 + mTimeStep s1) (mTimeStep s1)) as Ht.
    rewrite Eu in Ht. simpl in Ht. subst threw. intros [= <- <-]. discriminate.
  Qed.

  (** an exception in an update function does not change time and solution either *)
  Lemma do_step_failure_solution s t s' o : do_step Q s t = (s', o) -> succeeded o = false -> mX s' = mX s /\ mGlobalTime s' = mGlobalTime s.
  Proof.
    unfold do_step. destruct (trial_state Q s t) as [u| |].
    2,3: intros [= <- <-] _; repeat split.
    set (s1 := mkQState _ _ _ _). destruct (snd _) as [y num|num| |].
    2,3,4: intros [= <- <-] _; repeat split.
    destruct (rltb _ _); [intros [= <- <-] _; repeat split|].
    destruct (Update Q _ y _ _) as (h', threw) eqn:Eu. destruct threw; intros [= <- <-]; [|discriminate]. repeat split.
  Qed.

  Lemma do_step_same s s' t : hessian_ignores_time_step Q -> same_state s s' ->
    same_state (fst (do_step Q s t)) (fst (do_step Q s' t)) /\ snd (do_step Q s t) = snd (do_step Q s' t).
  Proof.
    intros Hh (H1 & H2 & H3). unfold do_step, trial_state. rewrite <- H1, <- H2, <- H3.
    rewrite (Hh (mHistory s) (mX s) (mGlobalTime s) (mTimeStep s') (mTimeStep s)).
    destruct (obind _ _) as [u| |]; [|repeat split; auto|repeat split; auto].
    set (s1 := mkQState _ _ _ _). destruct (snd _) as [y num|num| |]; try (repeat split; auto; fail).
  Qed.

  Lemma do_steps_successful : hessian_ignores_time_step Q -> updates_never_throw Q ->
    forall times s s' sf os, same_state s s' -> do_steps Q s times = (sf, os) ->
    exists sf' os', do_steps Q s' (successful times os) = (sf', os') /\ same_state sf sf' /\ Forall (fun o => succeeded o = true) os'.
  Proof.
    intros Hh Hu. induction times as [|t ts IH]; intros s s' sf os Hs E; simpl in E.
    - injection E as <- <-. exists s', []. split; [reflexivity|]. split; [exact Hs|constructor].
    - destruct (do_step Q s t) as (s1, o) eqn:E1. destruct (do_steps Q s1 ts) as (s2, os2) eqn:E2. injection E as <- <-.
      destruct (do_step_same s s' t Hh Hs) as (Hsame & Ho). rewrite E1 in Hsame, Ho. simpl in Hsame, Ho. simpl.
      destruct (succeeded o) eqn:Eo.
      + destruct (do_step Q s' t) as (s1', o') eqn:E1'. simpl in Hsame, Ho. subst o'.
        destruct (IH s1 s1' s2 os2 Hsame E2) as (sf' & os' & E' & Hf & Hall).
        exists sf', (o :: os'). simpl. rewrite E1', E'. auto.
      + apply (IH s1 s' s2 os2); [|exact E2]. pose proof (do_step_failure s t s1 o Hu E1 Eo) as (A & B & C).
        destruct Hs as (A' & B' & C'). repeat split; congruence.
  Qed.
End Quasi.
