(** * Properties C10-C16 (DofNumbering, constraints) *)
From Coq Require Import List ZArith Arith Bool Permutation Reals Lra Lia.
From Flocq Require Import Core.
From Verif Require Import Algebra Outcome GroupModel GroupProofs DofModel ConstraintModel ConstraintSpec
  ConstraintProofs ConstraintProofs2 ConstraintProofs3.
Import ListNotations.

(** C10.  [all_dofs size nodes] lists every component of every node once
    ([C10_all_dofs]).  Either a constraint mentions a node outside the group and
    Build throws, or the dofs get exactly the numbers 0..N-1 in that order. *)
Theorem C10_numbering_is_bijection :
  forall h g dof c, group_ok g ->
  let size a := length (h a) in
  let N := length (all_dofs size (mData g)) in
  ((exists k, mentions c dof k /\ ~ In (fst k) (mData g)) /\ build_numbering h g dof c = Throw) \/
  ((forall k, mentions c dof k -> In (fst k) (mData g)) /\
   exists h' numInd numDep, build_numbering h g dof c = Ok (h', numInd, numDep) /\
     map (dof_number h') (all_dofs size (mData g)) = map (fun i => Ok (Z.of_nat i)) (seq 0 N) /\
     numDep = Z.of_nat (length (equations c dof)) /\ (numInd + numDep = Z.of_nat N)%Z /\
     (forall a, length (h' a) = size a) /\ (forall a, ~ In a (mData g) -> h' a = h a)).
Proof. exact build_numbering_lemma. Qed.
Print Assumptions C10_numbering_is_bijection.

(** the numbers of all nodes after the call: a call that throws leaves them as they were *)
Theorem C10_throw_keeps_numbers :
  forall h g dof c, group_ok g ->
  ((exists k, mentions c dof k /\ ~ In (fst k) (mData g)) -> build_call h g dof c = (h, Throw)) /\
  ((forall k, mentions c dof k -> In (fst k) (mData g)) ->
     exists h' numInd numDep, build_call h g dof c = (h', Ok (numInd, numDep)) /\ build_numbering h g dof c = Ok (h', numInd, numDep)).
Proof. exact (fun h g dof c Hg => conj (build_call_throws h g dof c Hg) (build_call_returns h g dof c Hg)). Qed.
Print Assumptions C10_throw_keeps_numbers.
(** a constraint on node 3 is refused for the group of nodes 1 and 2: nothing is numbered *)
Example C10_throw_example :
  let h : nodes := fun a => if Z.eqb a 1 then [-1; -1]%Z else if Z.eqb a 2 then [7]%Z else if Z.eqb a 3 then [4]%Z else [] in
  build_call h (mkGroup [2; 1]%Z [1; 2]%Z) 0 (fst (cons_add cons_empty 0 (mkEq (3, 0)%Z [] (fun _ => 0%R)))) = (h, Throw).
Proof. reflexivity. Qed.

Theorem C10_all_dofs :
  forall size g, NoDup g -> NoDup (all_dofs size g) /\
    forall a c, In (a, c) (all_dofs size g) <-> In a g /\ (0 <= c < Z.of_nat (size a))%Z.
Proof. exact (fun size g H => conj (all_dofs_NoDup size g H) (in_all_dofs size g)). Qed.
Print Assumptions C10_all_dofs.

Example C10_example :
  let h : nodes := fun a => if Z.eqb a 1 then [-1; -1]%Z else if Z.eqb a 2 then [7]%Z else [] in
  let g := mkGroup [2; 1]%Z [1; 2]%Z in
  group_ok g /\
  match build_numbering h g 0 (fst (cons_add cons_empty 0 (mkEq (1, 0)%Z [] (fun _ => 0%R)))) with
  | Ok (h', ni, nd) => h' 2%Z = [0]%Z /\ h' 1%Z = [1; 2]%Z /\ ni = 2%Z /\ nd = 1%Z
  | _ => False
  end.
Proof.
  cbn zeta. split; [|vm_compute; auto].
  destruct (group_history [2; 1]%Z) as (g & Hg & Hok & _). vm_compute in Hg. injection Hg as <-. exact Hok.
Qed.

(** C11.  The documented claim fails: with nodes 1, 2 and node 1 constrained, the
    constrained dof gets number 0, the free one number 1. *)
Theorem C11_constrained_last_refuted :
  exists h g dof c h' numInd numDep kc ku nc nu, group_ok g /\
    build_numbering h g dof c = Ok (h', numInd, numDep) /\
    (exists e, In e (equations c dof) /\ edep e = kc) /\
    (forall e, In e (equations c dof) -> edep e <> ku) /\ In (fst ku) (mData g) /\
    dof_number h' kc = Ok nc /\ dof_number h' ku = Ok nu /\ (nc < nu)%Z.
Proof.
  exists c11_nodes, c11_group, 0%Z, c11_cons.
  eexists _, _, _, (1, 0)%Z, (2, 0)%Z, _, _.
  split; [destruct (group_history [1; 2]%Z) as (g & Hg & Hok & _); vm_compute in Hg; injection Hg as <-; exact Hok|].
  split; [vm_compute; reflexivity|].
  split; [eexists; split; [left; reflexivity|reflexivity]|].
  split; [intros e [<-|[]]; discriminate|].
  split; [simpl; auto|]. split; [vm_compute; reflexivity|]. split; [vm_compute; reflexivity|lia].
Qed.
Print Assumptions C11_constrained_last_refuted.

(** C12.  Every history of Add calls behaves like the equation log of the
    specification: same throws, same equations, and a throwing Add of one
    equation changes nothing. *)
Theorem C12_refines_log :
  forall ops,
  (forall dof, equations (cons_run cons_empty ops) dof = log_of dof (log_run ops)) /\
  (forall o, snd (cons_step (cons_run cons_empty ops) o) = snd (log_step (log_run ops) o)) /\
  (forall dof e, snd (cons_step (cons_run cons_empty ops) (AddOne dof e)) = true ->
     fst (cons_step (cons_run cons_empty ops) (AddOne dof e)) = cons_run cons_empty ops).
Proof. exact constraints_refine_lemma. Qed.
Print Assumptions C12_refines_log.

(** two different accepted equations never share the dependent dof, and the
    dependent dof of one is not an independent dof of the other *)
Theorem C12_no_conflict :
  forall ops i j dof dof' e e', i <> j ->
  nth_error (log_run ops) i = Some (dof, e) -> nth_error (log_run ops) j = Some (dof', e') ->
  edep e <> edep e' /\ ~ In (edep e) (ind_keys e').
Proof. exact accepted_no_conflict. Qed.
Print Assumptions C12_no_conflict.

(** the full claim holds if no equation refers to its own dependent dof *)
Theorem C12_accepted_sets_partial :
  forall ops, no_self_reference ops ->
  NoDup (map (fun p => edep (snd p)) (log_run ops)) /\
  (forall p q, In p (log_run ops) -> In q (log_run ops) -> ~ In (edep (snd p)) (ind_keys (snd q))).
Proof. exact accepted_full. Qed.
Print Assumptions C12_accepted_sets_partial.

(** but such an equation is accepted *)
Theorem C12_self_reference_refuted :
  exists dof e, let (c, threw) := cons_add cons_empty dof e in
    threw = false /\ In e (equations c dof) /\ In (edep e) (ind_keys e).
Proof.
  exists 0%Z, (mkEq (1, 0)%Z [mkTerm (1, 0)%Z 1%R] (fun _ => 0%R)).
  vm_compute. auto.
Qed.
Print Assumptions C12_self_reference_refuted.

Definition ex_ops : list cons_op :=
  [AddOne 0 (mkEq (1, 0)%Z [mkTerm (2, 0)%Z 3%R] (fun t => t));
   AddOne 0 (mkEq (2, 0)%Z [] (fun t => t));             (* rejected: independent above *)
   AddMany 0 [mkEq (1, 1)%Z [mkTerm (2, 0)%Z 1%R; mkTerm (2, 1)%Z (-2)%R] (fun _ => 5%R);
              mkEq (1, 0)%Z [] (fun _ => 0%R)]].         (* second one rejected *)
Example C12_example :
  no_self_reference ex_ops /\ map (fun p => edep (snd p)) (log_run ex_ops) = [(1, 0); (1, 1)]%Z.
Proof.
  split; [|vm_compute; reflexivity].
  intros o e [<-|[<-|[<-|[]]]]; simpl; intros [<-|H]; simpl; try (intuition congruence).
  destruct H as [<-|[]]. simpl. tauto.
Qed.

(** C13.  [numbered]: every dof mentioned has a number below N and different dofs
    have different numbers; [prescribed] is the right hand side vector.  A vector
    u fulfils all equations at time t iff u = C v + g(t), and v is unique. *)
Theorem C13_parametrisation :
  forall ops h dof N num, no_self_reference ops ->
  let c := cons_run cons_empty ops in let es := equations c dof in
  numbered h es N num ->
  (forall e t, In e es -> In t (eind e) -> coef t = 0%R \/ (/ 10 ^ 18 < Rabs (coef t))%R) ->
  exists C, unit_constraint_matrix h c dof N = Ok C /\ in_range C /\
    srows C = N /\ scols C = N - length es /\
    forall u t,
    ((forall e, In e es -> holds num u t e) <->
     exists v : list R, length v = scols C /\
       forall i, i < N -> u i = (@mat_vec R_cring C (fun j => nth j v 0) i + prescribed num es t i)%R) /\
    (forall v v' : list R, length v = scols C -> length v' = scols C ->
       (forall i, i < N -> u i = (@mat_vec R_cring C (fun j => nth j v 0) i + prescribed num es t i)%R) ->
       (forall i, i < N -> u i = (@mat_vec R_cring C (fun j => nth j v' 0) i + prescribed num es t i)%R) -> v = v').
Proof. exact constraint_matrix_lemma. Qed.
Print Assumptions C13_parametrisation.

(** the same, end to end, with the numbers that DofNumbering::Build assigns *)
Theorem C13_with_built_numbering :
  forall ops h g dof, no_self_reference ops -> group_ok g ->
  let c := cons_run cons_empty ops in let es := equations c dof in
  (forall k, mentions c dof k -> In (fst k) (mData g) /\ (0 <= snd k < Z.of_nat (length (h (fst k))))%Z) ->
  (forall e t, In e es -> In t (eind e) -> coef t = 0%R \/ (/ 10 ^ 18 < Rabs (coef t))%R) ->
  exists h' numInd numDep C, build_numbering h g dof c = Ok (h', numInd, numDep) /\
    unit_constraint_matrix h' c dof (Z.to_nat (numInd + numDep)) = Ok C /\
    Z.of_nat (scols C) = numInd /\ Z.of_nat (srows C) = (numInd + numDep)%Z /\
    forall u t, (forall e, In e es -> holds (num_in h') u t e) <->
      exists v : list R, length v = scols C /\
       forall i, i < srows C -> u i = (@mat_vec R_cring C (fun j => nth j v 0) i + prescribed (num_in h') es t i)%R.
Proof. exact numbering_and_matrix_lemma. Qed.
Print Assumptions C13_with_built_numbering.

(** an accepted equation that refers to its own dependent dof makes the matrix
    construction undefined *)
Theorem C13_self_reference_refuted :
  exists h ops dof N num, let c := cons_run cons_empty ops in
    numbered h (equations c dof) N num /\ unit_constraint_matrix h c dof N = UB.
Proof.
  exists (fun _ => [0]%Z), [AddOne 0 (mkEq (1, 0)%Z [mkTerm (1, 0)%Z 1%R] (fun _ => 0%R))], 0%Z, 2, (fun _ => 0).
  cbn zeta. split; [|vm_compute; reflexivity]. split.
  - intros e k [<-|[]] [<-|[<-|[]]]; vm_compute; auto.
  - intros e e' k k' [<-|[]] [<-|[]] [<-|[<-|[]]] [<-|[<-|[]]] _; reflexivity.
Qed.
Print Assumptions C13_self_reference_refuted.

(** coefficients of absolute value <= 1e-18 are dropped: u = C v + g violates the equation *)
Theorem C13_tiny_coefficient_refuted :
  exists h ops dof N num C u (v : list R) t e, let c := cons_run cons_empty ops in
    no_self_reference ops /\ numbered h (equations c dof) N num /\
    unit_constraint_matrix h c dof N = Ok C /\ length v = scols C /\
    (forall i, i < N -> u i = (@mat_vec R_cring C (fun j => nth j v 0) i + prescribed num (equations c dof) t i)%R) /\
    In e (equations c dof) /\ ~ holds num u t e.
Proof.
  exists (fun _ => [0; 1]%Z), [AddOne 0 (mkEq (1, 0)%Z [mkTerm (1, 1)%Z (/ 10 ^ 20)%R] (fun _ => 0%R))], 0%Z, 2,
    (fun k => Z.to_nat (snd k)), (mkMat (F := R_cring) 2 1 [(1, 0, 1%R)]),
    (fun i => if Nat.eqb i 1 then 1%R else 0%R), [1%R], 0%R, (mkEq (1, 0)%Z [mkTerm (1, 1)%Z (/ 10 ^ 20)%R] (fun _ => 0%R)).
  cbn zeta. split; [|split; [|split; [|split; [|split; [|split]]]]].
  - intros o e [<-|[]] [<-|[]]. simpl. intros [E|[]]. discriminate.
  - split.
    + intros e k [<-|[]] [<-|[<-|[]]]; simpl; auto.
    + intros e e' k k' [<-|[]] [<-|[]] [<-|[<-|[]]] [<-|[<-|[]]]; vm_compute; congruence.
  - assert (Hk : keep_coef (/ 10 ^ 20) = false).
    { unfold keep_coef. destruct (Rlt_dec (/ 10 ^ 18) (Rabs (/ 10 ^ 20))) as [H|H]; [|reflexivity].
      exfalso. rewrite Rabs_right in H by (apply Rle_ge, Rlt_le, Rinv_0_lt_compat, pow_lt; lra).
      revert H. apply Rle_not_lt. apply Rinv_le_contravar; simpl; lra. }
    unfold unit_constraint_matrix. cbn -[keep_coef pow]. change (Pos.to_nat 1) with 1. cbn -[keep_coef pow].
    rewrite Hk. reflexivity.
  - reflexivity.
  - intros i Hi. destruct i as [|[|i]]; [..|lia]; vm_compute; lra.
  - simpl; auto.
  - unfold holds. cbn -[pow]. change (Pos.to_nat 1) with 1. cbn -[pow]. intros H.
    assert (0 < / 10 ^ 20)%R by (apply Rinv_0_lt_compat, pow_lt; lra). lra.
Qed.
Print Assumptions C13_tiny_coefficient_refuted.

(** hypotheses are met by the accepted part of [ex_ops] *)
Example C13_example :
  let h : nodes := fun a => if Z.eqb a 1 then [0; 1]%Z else [2; 3]%Z in
  let num (k : dofkey) := Z.to_nat (2 * (fst k - 1) + snd k) in
  let es := equations (cons_run cons_empty ex_ops) 0 in
  numbered h es 4 num /\ length es = 2 /\
  (forall e t, In e es -> In t (eind e) -> coef t = 0%R \/ (/ 10 ^ 18 < Rabs (coef t))%R).
Proof.
  cbn zeta. split; [|split; [reflexivity|]].
  - split.
    + intros e k [<-|[<-|[]]]; simpl; intros Hk; repeat (destruct Hk as [<-|Hk]); try tauto; vm_compute; auto.
    + intros e e' k k' [<-|[<-|[]]] [<-|[<-|[]]]; simpl; intros Hk Hk';
        repeat (destruct Hk as [<-|Hk]); try tauto; repeat (destruct Hk' as [<-|Hk']); try tauto;
        vm_compute; congruence.
  - intros e t He Ht. right.
    assert (/ 10 ^ 18 < 1)%R by (rewrite <- Rinv_1; apply Rinv_lt_contravar; simpl; lra).
    destruct He as [<-|[<-|[]]]; simpl in Ht; repeat (destruct Ht as [<-|Ht]); try tauto; cbn [coef];
      unfold Rabs; destruct (Rcase_abs _); lra.
Qed.

(** C14.  [dep]: the dof numbers of the dependent dofs, in equation order. *)
Theorem C14_jk_numbering :
  forall h N es num,
  (forall e, In e es -> dof_number h (edep e) = Ok (Z.of_nat (num (edep e))) /\ num (edep e) < N) ->
  NoDup (map (fun e => num (edep e)) es) ->
  let dep := map (fun e => num (edep e)) es in
  jk_numbering h N es = Ok (free_dofs N dep ++ dep) /\
  Permutation (seq 0 N) (free_dofs N dep ++ dep) /\ length (free_dofs N dep) = N - length es /\ length es <= N.
Proof. exact jk_numbering_ok. Qed.
Print Assumptions C14_jk_numbering.

(** [free_dofs] is the ascending list of the other numbers *)
Theorem C14_free_dofs :
  forall N dep, free_dofs N dep = filter (fun i => negb (if in_dec Nat.eq_dec i dep then true else false)) (seq 0 N).
Proof.
  intros N dep. unfold free_dofs. apply filter_ext. intros i. f_equal.
  pose proof (mem_nat_spec i dep). destruct (mem_nat i dep), (in_dec Nat.eq_dec i dep); intuition congruence.
Qed.
Print Assumptions C14_free_dofs.

Theorem C14_throws :
  forall h N es, length es <= N ->
  (forall e, In e es -> exists n, dof_number h (edep e) = Ok n /\ (-1 <= n)%Z) ->
  (exists e n, In e es /\ dof_number h (edep e) = Ok n /\ (n = -1 \/ Z.of_nat N <= n)%Z) ->
  jk_numbering h N es = Throw.
Proof. exact jk_throw_lemma. Qed.
Print Assumptions C14_throws.

(** the example of the documentation, Constraints.h:20-31 *)
Example C14_example :
  let h : nodes := fun a => [a] in
  jk_numbering h 7 [mkEq (5, 0)%Z [] (fun _ => 0%R); mkEq (2, 0)%Z [] (fun _ => 0%R)] = Ok [0; 1; 3; 4; 6; 5; 2] /\
  jk_numbering h 5 [mkEq (5, 0)%Z [] (fun _ => 0%R)] = Throw.
Proof. split; reflexivity. Qed.

(** C15.  The stored value is the prescribed value rounded to single precision;
    that is exact for float values, off by at most 2^-24 relatively otherwise. *)
Theorem C15_rhs_rounded_partial :
  forall ops h dof N num t, no_self_reference ops ->
  numbered h (equations (cons_run cons_empty ops) dof) N num ->
  exists v, sparse_global_rhs h (cons_run cons_empty ops) dof N t = Ok v /\
    forall i, sparse_at v i = to_float (prescribed num (equations (cons_run cons_empty ops) dof) t i).
Proof. exact sparse_global_rhs_lemma. Qed.
Print Assumptions C15_rhs_rounded_partial.

Theorem C15_float_exact_partial : forall x, float_representable x -> to_float x = x.
Proof. exact to_float_exact. Qed.
Theorem C15_float_error_partial :
  forall x, (bpow radix2 (-126) <= Rabs x -> Rabs (to_float x - x) <= bpow radix2 (-24) * Rabs x)%R.
Proof. exact to_float_error. Qed.
Print Assumptions C15_float_error_partial.

(** 1 + 2^-30, a double, is not passed on exactly *)
Theorem C15_full_precision_refuted :
  exists ops h dof N num t v, let es := equations (cons_run cons_empty ops) dof in
    no_self_reference ops /\ numbered h es N num /\
    (exists e, In e es /\ erhs e t = (1 + bpow radix2 (-30))%R) /\
    sparse_global_rhs h (cons_run cons_empty ops) dof N t = Ok v /\
    exists i, i < N /\ sparse_at v i <> prescribed num es t i.
Proof.
  set (e0 := mkEq (1, 0)%Z [] (fun _ => c15_value)).
  assert (Hns : no_self_reference [AddOne 0 e0]).
  { intros o e [<-|[]] [<-|[]]. simpl. tauto. }
  assert (Hnum : numbered (fun _ => [0]%Z) (equations (cons_run cons_empty [AddOne 0 e0]) 0) 1 (fun _ => 0)).
  { split.
    - intros e k [<-|[]] [<-|[]]. simpl. auto.
    - intros e e' k k' [<-|[]] [<-|[]] [<-|[]] [<-|[]] _. auto. }
  destruct (sparse_global_rhs_lemma _ _ _ _ _ 0%R Hns Hnum) as (v & Hv & Hval).
  exists [AddOne 0 e0], (fun _ => [0]%Z), 0%Z, 1, (fun _ => 0), 0%R, v. cbn zeta.
  split; auto. split; auto. split; [exists e0; split; [simpl; auto|reflexivity]|]. split; auto.
  exists 0. split; [lia|]. rewrite Hval. unfold prescribed. simpl. intros E. apply c15_not_float.
  unfold float_representable. rewrite <- E. unfold to_float.
  apply generic_format_round; [apply FLT_exp_valid; reflexivity|apply valid_rnd_N].
Qed.
Print Assumptions C15_full_precision_refuted.

(** C16.  [m] is a component of largest absolute value.  The equation the code
    builds says  n_m u_m - sum_{i<>m} n_i u_i = rhs(t),  n = d/|d|. *)
Theorem C16_direction_equation_partial :
  forall h node d rhs, d <> [] -> length d <= length (h node) ->
  ((forall k, k < length d -> (Rabs (nth k d 0) < / 10 ^ 6)%R) /\ direction h node d rhs = Throw) \/
  (exists m e, direction h node d rhs = Ok e /\ m < length d /\
     (/ 10 ^ 6 <= Rabs (nth m d 0))%R /\
     (forall k, k < length d -> (Rabs (nth k d 0) <= Rabs (nth m d 0))%R) /\
     edep e = (node, Z.of_nat m) /\
     forall u t, length u = length d ->
       (holds_at_node u t e <-> (2 * (nth m (normalize d) 0 * nth m u 0) - dot (normalize d) u = rhs t)%R)).
Proof. exact direction_lemma. Qed.
Print Assumptions C16_direction_equation_partial.

(** for directions along an axis this is the documented equation *)
Theorem C16_axis_direction_partial :
  forall h node d rhs j, j < length d -> length d <= length (h node) ->
  (/ 10 ^ 6 <= Rabs (nth j d 0))%R -> (forall k, k < length d -> k <> j -> nth k d 0%R = 0%R) ->
  exists e, direction h node d rhs = Ok e /\
    forall u t, length u = length d -> (holds_at_node u t e <-> dot (normalize d) u = rhs t).
Proof. exact direction_axis_lemma. Qed.
Print Assumptions C16_axis_direction_partial.

(** d = (1,1), u = (1,1): the equation holds with rhs 0 although d.u <> 0 *)
Theorem C16_direction_refuted :
  exists (h : nodes) node d u (rhs : R -> R) t e, length u = length d /\ length d <= length (h node) /\
    direction h node d rhs = Ok e /\ holds_at_node u t e /\ dot (normalize d) u <> rhs t.
Proof. exact direction_refuted_lemma. Qed.
Print Assumptions C16_direction_refuted.
