(** * C24, C25: the linear solve and the trial state with constraints *)
From Coq Require Import List ZArith Arith Reals Lra Lia Sorted.
From Flocq Require Import Core.
From Verif Require Import Algebra Outcome DofModel DofSpec ConstraintModel ConstraintSpec ConstraintProofs3 RSum SolveModel SolveSpec SolveProofs.
Import ListNotations.
Local Open Scope R_scope.

(** C24.  For every correct linear solver: the result fulfils the homogeneous constraints, and the
    residual K u - f does no work on any field that fulfils them, which is C^T (K u - f) = 0
    without mentioning C.  Holds if the dof types are listed in the order of f.DofTypes(). *)
Theorem C24_solve_partial :
  forall linsolve, solver_correct linsolve ->
  forall h ops K f dofs size num,
  system_fits K f dofs size -> constraints_fit h ops dofs size num -> dofs = bv_keys f ->
  let c := cons_run cons_empty ops in
  (solve linsolve h c K f dofs = Throw -> exists n A b, linsolve n A b = Throw) /\
  (solve linsolve h c K f dofs = UB -> exists n A b, linsolve n A b = UB) /\
  forall r, solve linsolve h c K f dofs = Ok r ->
    (forall d, @size_of R_cring r d = @size_of R_cring f d) /\
    admissible c dofs num (dval r) /\
    forall w, admissible c dofs num w -> virtual_work size dofs w (residual K size dofs (dval r) (dval f)) = 0.
Proof. exact solve_lemma. Qed.
Print Assumptions C24_solve_partial.

(** solver for diagonal 2x2 systems with a unit diagonal, and for the systems of size 0 and 1 *)
Definition tiny_solver (n : nat) (A : nat -> nat -> R) (b : list R) : outcome (list R) :=
  match n with
  | O => Ok []
  | 1%nat => if Req_EM_T (A 0%nat 0%nat) 0 then Throw else Ok [nth 0 b 0 / A 0%nat 0%nat]
  | 2%nat =>
    if Req_EM_T (A 0%nat 0%nat) 1 then if Req_EM_T (A 0%nat 1%nat) 0 then if Req_EM_T (A 1%nat 0%nat) 0 then
      if Req_EM_T (A 1%nat 1%nat) 1 then Ok [nth 0 b 0; nth 1 b 0] else Throw else Throw else Throw else Throw
  | _ => Throw
  end.
Lemma tiny_solver_correct : solver_correct tiny_solver.
Proof.
  intros n A b x. destruct n as [|[|[|n]]]; simpl.
  - intros [= <-]. split; [reflexivity|]. intros i Hi. lia.
  - destruct (Req_EM_T _ _) as [|Hne]; [discriminate|]. intros [= <-]. split; [reflexivity|].
    intros [|i] Hi; [|lia]. unfold rsum. simpl. field. exact Hne.
  - repeat (destruct (Req_EM_T _ _); [|discriminate]). intros [= <-]. split; [reflexivity|].
    intros [|[|i]] Hi; [| |lia]; unfold rsum; simpl; rewrite ?e, ?e0, ?e1, ?e2; lra.
  - discriminate.
Qed.

Definition one_by_one (x : R) : smat R_cring := mkMat (F := R_cring) 1 1 [(0%nat, 0%nat, x)].

Lemma two_blocks (a b a' b' : R) : a = a' -> b = b' -> Ok [(0%Z, [a]); (1%Z, [b])] = Ok [(0%Z, [a']); (1%Z, [b'])] :> outcome (dofvec R_cring).
Proof. intros -> ->. reflexivity. Qed.

(** two dof types in the other order: the results are swapped *)
Theorem C24_dof_order_refuted :
  exists linsolve h ops K f dofs size num r,
    solver_correct linsolve /\ system_fits K f dofs size /\ constraints_fit h ops dofs size num /\
    (forall d, In d dofs <-> In d (bv_keys f)) /\
    let c := cons_run cons_empty ops in
    solve linsolve h c K f dofs = Ok r /\
    exists w, admissible c dofs num w /\ virtual_work size dofs w (residual K size dofs (dval r) (dval f)) <> 0.
Proof.
  set (K := [((0, 0)%Z, one_by_one 1); ((0, 1)%Z, mkMat (F := R_cring) 1 1 []); ((1, 0)%Z, mkMat (F := R_cring) 1 1 []); ((1, 1)%Z, one_by_one 1)] : dofmat R_cring).
  set (f := [(0%Z, [1]); (1%Z, [2])] : dofvec R_cring).
  exists tiny_solver, (fun _ => []), [], K, f, [1; 0]%Z, (fun _ => 1%nat), (fun _ _ => 0%nat), [(0%Z, [2]); (1%Z, [1])].
  split; [exact tiny_solver_correct|]. split; [|split; [|split]].
  - split; [repeat constructor|]. split; [repeat constructor; simpl; intuition lia|]. split.
    + intros d [<-|[<-|[]]]; reflexivity.
    + intros a b [<-|[<-|[]]] [<-|[<-|[]]]; eexists; (split; [reflexivity|]); simpl; repeat split;
        repeat apply Forall_cons; try apply Forall_nil; simpl; lia.
  - split; [intros o e []|]. intros d Hd. split; [split; [intros e k []|intros e e' k k' []]|intros e t []].
  - intros d. simpl. tauto.
  - cbn zeta. split.
    + cbv -[tiny_solver Rplus Rmult Rinv Ropp R0 R1 IZR].
      unfold tiny_solver.
      repeat (destruct (Req_EM_T _ _) as [?|Hne]; [|exfalso; apply Hne; cbv [rsumn sum_n]; simpl; ring]).
      cbn. apply two_blocks; lra.
    + exists (fun d _ => if Z.eqb d 0 then 1 else 0). split; [intros d e _ []|].
      cbv -[Rplus Rmult Rinv Ropp R0 R1 IZR Rminus]. lra.
Qed.
Print Assumptions C24_dof_order_refuted.

(** a subset of the dof types of f: the code reads behind the end of the solution *)
Theorem C24_dof_subset_refuted :
  exists linsolve h ops K f dofs size num,
    solver_correct linsolve /\ system_fits K f dofs size /\ constraints_fit h ops dofs size num /\
    (forall n A b, linsolve n A b <> UB) /\
    (forall d, In d dofs -> In d (bv_keys f)) /\
    solve linsolve h (cons_run cons_empty ops) K f dofs = UB.
Proof.
  set (K := [((0, 0)%Z, one_by_one 1)] : dofmat R_cring).
  set (f := [(0%Z, [1]); (1%Z, [2])] : dofvec R_cring).
  exists tiny_solver, (fun _ => []), [], K, f, [0]%Z, (fun _ => 1%nat), (fun _ _ => 0%nat).
  split; [exact tiny_solver_correct|]. split; [|split; [|split; [|split]]].
  - split; [repeat constructor|]. split; [repeat constructor; simpl; intuition lia|]. split.
    + intros d [<-|[]]; reflexivity.
    + intros a b [<-|[]] [<-|[]]; eexists; (split; [reflexivity|]); simpl; repeat split;
        repeat apply Forall_cons; try apply Forall_nil; simpl; lia.
  - split; [intros o e []|]. intros d Hd. split; [split; [intros e k []|intros e e' k k' []]|intros e t []].
  - intros [|[|[|n]]] A b; simpl; try discriminate; repeat (destruct (Req_EM_T _ _)); discriminate.
  - intros d. simpl. tauto.
  - cbv -[tiny_solver Rplus Rmult Rinv Ropp R0 R1 IZR].
    unfold tiny_solver. destruct (Req_EM_T _ _) as [E|]; [exfalso; revert E; lra|]. reflexivity.
Qed.
Print Assumptions C24_dof_subset_refuted.

(** three dofs, u_0 - 2 u_2 = t and u_1 = 1: the hypotheses hold and Solve succeeds *)
Definition ex24_ops : list cons_op :=
  [AddOne 0 (mkEq (0, 0)%Z [mkTerm (2, 0)%Z (-2)] (fun t => t)); AddOne 0 (mkEq (1, 0)%Z [] (fun _ => 1))].
Definition ex24_h : nodes := fun a => [a].
Definition ex24_num (d : Z) (k : dofkey) : nat := Z.to_nat (fst k).
Definition ex24_K : dofmat R_cring :=
  [((0, 0)%Z, mkMat (F := R_cring) 3 3 [(0%nat, 0%nat, 4); (1%nat, 1%nat, 1); (2%nat, 2%nat, 1); (0%nat, 2%nat, 3)])].
Definition ex24_f : dofvec R_cring := [(0%Z, [1; 2; 3])].
Example C24_example :
  system_fits ex24_K ex24_f [0%Z] (fun _ => 3%nat) /\ constraints_fit ex24_h ex24_ops [0%Z] (fun _ => 3%nat) ex24_num /\
  length (equations (cons_run cons_empty ex24_ops) 0) = 2%nat /\
  exists r, solve tiny_solver ex24_h (cons_run cons_empty ex24_ops) ex24_K ex24_f [0%Z] = Ok r.
Proof.
  split; [|split; [|split; [reflexivity|]]].
  - split; [repeat constructor|]. split; [repeat constructor; simpl; intuition lia|]. split.
    + intros d [<-|[]]; reflexivity.
    + intros a b [<-|[]] [<-|[]]; eexists; (split; [reflexivity|]); simpl; repeat split;
        repeat apply Forall_cons; try apply Forall_nil; simpl; lia.
  - split.
    + intros o e [<-|[<-|[]]] [<-|[]]; simpl; intuition discriminate.
    + intros d [<-|[]]. split; [split|].
      * intros e k [<-|[<-|[]]]; simpl; intros Hk; repeat destruct Hk as [<-|Hk]; try destruct Hk; cbn; repeat split; lia.
      * intros e e' k k' [<-|[<-|[]]] [<-|[<-|[]]]; simpl; intros Hk Hk'; repeat destruct Hk as [<-|Hk]; try destruct Hk;
          repeat destruct Hk' as [<-|Hk']; try destruct Hk'; cbn; intros; congruence || lia.
      * intros e t [<-|[<-|[]]]; simpl; [intros [<-|[]]|intros []]. right. simpl. rewrite Rabs_left by lra.
        apply Rlt_le_trans with 1; [|lra]. rewrite <- Rinv_1. apply Rinv_lt_contravar; [|]; simpl; lra.
  - cbv -[tiny_solver Rplus Rmult Rinv Ropp R0 R1 IZR Rlt_dec Rabs pow].
    destruct (Rlt_dec _ _) as [_|Hn].
    + unfold tiny_solver. destruct (Req_EM_T _ _) as [E|]; [exfalso; revert E; lra|]. eexists. reflexivity.
    + exfalso. apply Hn. rewrite Rabs_left by lra.
      apply Rlt_le_trans with 1; [|lra]. rewrite <- Rinv_1. apply Rinv_lt_contravar; [|]; simpl; lra.
Qed.

(** C25.  The code returns the negative increment: -r changes the left hand side of every equation by
    the change of its right hand side (rounded to single precision, see C15), and K r - f does no
    work on the independent dofs. *)
Theorem C25_trial_state_partial :
  forall linsolve, solver_correct linsolve ->
  forall h ops K f oldT newT dofs size num,
  system_fits K f dofs size -> constraints_fit h ops dofs size num -> dofs = bv_keys f ->
  let c := cons_run cons_empty ops in
  (solve_trial linsolve h c K f oldT newT dofs = Throw -> exists n A b, linsolve n A b = Throw) /\
  (solve_trial linsolve h c K f oldT newT dofs = UB -> exists n A b, linsolve n A b = UB) /\
  forall r, solve_trial linsolve h c K f oldT newT dofs = Ok r ->
    (forall d, @size_of R_cring r d = @size_of R_cring f d) /\
    (forall d e, In d dofs -> In e (equations c d) ->
       lhs (num d) (fun i => - dval r d i) e = to_float (erhs e newT) - to_float (erhs e oldT)) /\
    forall w, admissible c dofs num w -> virtual_work size dofs w (residual K size dofs (dval r) (dval f)) = 0.
Proof. exact solve_trial_lemma. Qed.
Print Assumptions C25_trial_state_partial.

(** hence exact if the right hand sides are float values *)
Theorem C25_trial_state_exact_partial :
  forall linsolve, solver_correct linsolve ->
  forall h ops K f oldT newT dofs size num r,
  system_fits K f dofs size -> constraints_fit h ops dofs size num -> dofs = bv_keys f ->
  let c := cons_run cons_empty ops in
  (forall d e, In e (equations c d) -> float_representable (erhs e newT) /\ float_representable (erhs e oldT)) ->
  solve_trial linsolve h c K f oldT newT dofs = Ok r ->
  forall d e, In d dofs -> In e (equations c d) ->
    lhs (num d) (fun i => - dval r d i) e = erhs e newT - erhs e oldT.
Proof.
  intros linsolve Hls h ops K f oldT newT dofs size num r Hs Hc Hk c Hfl Hr d e Hd He.
  destruct (solve_trial_lemma linsolve Hls h ops K f oldT newT dofs size num Hs Hc Hk) as (_ & _ & H).
  destruct (H r Hr) as (_ & H1 & _). destruct (Hfl d e He) as (F1 & F2).
  rewrite <- (to_float_exact _ F1), <- (to_float_exact _ F2). apply H1; assumption.
Qed.
Print Assumptions C25_trial_state_exact_partial.

(** and not exact in general *)
Theorem C25_exact_increment_refuted :
  exists linsolve h ops K f oldT newT dofs size num r,
    solver_correct linsolve /\ system_fits K f dofs size /\ constraints_fit h ops dofs size num /\ dofs = bv_keys f /\
    let c := cons_run cons_empty ops in
    solve_trial linsolve h c K f oldT newT dofs = Ok r /\
    exists d e, In d dofs /\ In e (equations c d) /\
      lhs (num d) (fun i => - dval r d i) e <> erhs e newT - erhs e oldT.
Proof.
  set (e0 := mkEq (0, 0)%Z [] (fun t => t * c15_value)).
  set (K := [((0, 0)%Z, one_by_one 1)] : dofmat R_cring). set (f := [(0%Z, [5])] : dofvec R_cring).
  assert (Hs : system_fits K f [0%Z] (fun _ => 1%nat)).
  { split; [repeat constructor|]. split; [repeat constructor; simpl; intuition lia|]. split.
    + intros d [<-|[]]; reflexivity.
    + intros a b [<-|[]] [<-|[]]; eexists; (split; [reflexivity|]); simpl; repeat split;
        repeat apply Forall_cons; try apply Forall_nil; simpl; lia. }
  assert (Hc : constraints_fit (fun _ => [0%Z]) [AddOne 0 e0] [0%Z] (fun _ => 1%nat) (fun _ _ => 0%nat)).
  { split; [intros o e [<-|[]] [<-|[]]; simpl; tauto|]. intros d [<-|[]]. split; [split|].
    - intros e k [<-|[]] [<-|[]]. simpl. auto.
    - intros e e' k k' [<-|[]] [<-|[]] [<-|[]] [<-|[]] _. auto.
    - intros e t [<-|[]] []. }
  destruct (solve_trial_lemma tiny_solver tiny_solver_correct _ _ K f 0 1 [0%Z] _ _ Hs Hc eq_refl) as (HT & HU & HOk).
  destruct (solve_trial tiny_solver (fun _ => [0%Z]) (cons_run cons_empty [AddOne 0 e0]) K f 0 1 [0%Z]) as [r| |] eqn:E.
  - exists tiny_solver, (fun _ => [0%Z]), [AddOne 0 e0], K, f, 0, 1, [0%Z], (fun _ => 1%nat), (fun _ _ => 0%nat), r.
    split; [exact tiny_solver_correct|]. split; [exact Hs|]. split; [exact Hc|]. split; [reflexivity|]. cbn zeta.
    split; [exact E|]. exists 0%Z, e0. split; [simpl; auto|]. split; [simpl; auto|].
    destruct (HOk r eq_refl) as (_ & H & _). rewrite (H 0%Z e0) by (simpl; auto). unfold e0; cbn [erhs].
    rewrite Rmult_0_l, Rmult_1_l, to_float_zero, !Rminus_0_r. intros E'. apply c15_not_float.
    unfold float_representable. rewrite <- E'. unfold to_float.
    apply generic_format_round; [apply FLT_exp_valid; reflexivity|apply valid_rnd_N].
  - exfalso. revert E. cbv -[to_float Rplus Rmult Rinv Ropp R0 R1 IZR c15_value]. discriminate.
  - exfalso. revert E. cbv -[to_float Rplus Rmult Rinv Ropp R0 R1 IZR c15_value]. discriminate.
Qed.
Print Assumptions C25_exact_increment_refuted.

Example C25_example :
  system_fits ex24_K ex24_f [0%Z] (fun _ => 3%nat) /\ constraints_fit ex24_h ex24_ops [0%Z] (fun _ => 3%nat) ex24_num /\
  exists r, solve_trial tiny_solver ex24_h (cons_run cons_empty ex24_ops) ex24_K ex24_f 0 1 [0%Z] = Ok r.
Proof.
  destruct C24_example as (H1 & H2 & _). split; [exact H1|]. split; [exact H2|].
  cbv -[to_float tiny_solver Rplus Rmult Rinv Ropp R0 R1 IZR Rlt_dec Rabs pow].
    destruct (Rlt_dec _ _) as [_|Hn].
    + unfold tiny_solver. destruct (Req_EM_T _ _) as [E|]; [exfalso; revert E; lra|]. eexists. reflexivity.
    + exfalso. apply Hn. rewrite Rabs_left by lra.
      apply Rlt_le_trans with 1; [|lra]. rewrite <- Rinv_1. apply Rinv_lt_contravar; [|]; simpl; lra.
Qed.
