(** * More on C14: GetJKNumbering on numbered nodes *)
From Coq Require Import List ZArith Arith Bool Permutation Sorted Reals Lra Lia.
From Verif Require Import Algebra Outcome GroupModel GroupProofs DofModel ConstraintModel ConstraintSpec
  ConstraintProofs ConstraintProofs2 ConstraintProofs3 PropConstraints.
Import ListNotations.

Lemma accepted_deps ops dof : NoDup (map edep (equations (cons_run cons_empty ops) dof)).
Proof.
  rewrite (proj1 (C12_refines_log ops) dof). unfold log_of. rewrite map_map.
  assert (Hnd : NoDup (map (fun p => edep (snd p)) (log_run ops))).
  { apply NoDup_nth_error. intros i j Hi E. rewrite !nth_error_map in E. rewrite map_length in Hi.
    destruct (Nat.eq_dec i j) as [|n]; [assumption|exfalso].
    destruct (nth_error (log_run ops) i) as [[d e]|] eqn:Ei; [|apply nth_error_None in Ei; lia].
    destruct (nth_error (log_run ops) j) as [[d' e']|] eqn:Ej; [|discriminate].
    cbn [option_map snd] in E. injection E as E.
    exact (proj1 (C12_no_conflict ops i j d d' e e' n Ei Ej) E). }
  clear -Hnd.
  induction (log_run ops) as [|p l IH]; cbn [filter map] in *; [constructor|].
  inversion Hnd; subst. destruct (Z.eqb (fst p) dof); cbn [map]; auto. constructor; auto.
  intros Hi. apply H1. apply in_map_iff in Hi. destruct Hi as (q & He & Hq). apply filter_In in Hq.
  apply in_map_iff. exists q; tauto.
Qed.

Lemma sorted_filter_seq (f : nat -> bool) n a : StronglySorted lt (filter f (seq a n)).
Proof.
  revert a; induction n as [|n IH]; intros a; cbn [seq filter]; [constructor|].
  destruct (f a); [|apply IH]. constructor; [apply IH|].
  apply Forall_forall. intros x Hx. apply filter_In in Hx. destruct Hx as (Hx & _).
  apply in_seq in Hx. lia.
Qed.

(** C14, end to end: after any history of Add calls and DofNumbering::Build over a group that holds
    the nodes of the equations, GetJKNumbering for all dofs returns a permutation of 0..N-1; its last
    entries are the numbers of the dependent dofs in the order of the equations, its first
    numIndependent entries the other numbers, ascending. *)
Theorem C14_with_built_numbering :
  forall ops h g dof, group_ok g ->
  let c := cons_run cons_empty ops in
  (forall k, mentions c dof k -> In (fst k) (mData g) /\ (0 <= snd k < Z.of_nat (length (h (fst k))))%Z) ->
  exists h' numInd numDep free dependent,
    build_numbering h g dof c = Ok (h', numInd, numDep) /\
    let N := Z.to_nat (numInd + numDep) in
    jk_numbering h' N (equations c dof) = Ok (free ++ dependent) /\
    Permutation (seq 0 N) (free ++ dependent) /\
    Z.of_nat (length free) = numInd /\ Z.of_nat (length dependent) = numDep /\
    StronglySorted lt free /\
    Forall2 (fun e n => dof_number h' (edep e) = Ok (Z.of_nat n)) (equations c dof) dependent.
Proof.
  intros ops h g dof Hg c Hm.
  destruct (C10_numbering_is_bijection h g dof c Hg) as [((k & Hk & Hn) & _)|(_ & h' & ni & nd & B & Mp & E1 & E2 & _)].
  { exfalso. apply Hn. exact (proj1 (Hm k Hk)). }
  pose proof (build_numbered h g dof c h' ni nd Hg B (fun k Hk => proj2 (Hm k Hk))) as (N1 & N2).
  set (es := equations c dof) in *. set (num := num_in h') in *.
  set (M := length (all_dofs (fun a => length (h a)) (mData g))) in *.
  assert (D : NoDup (map (fun e => num (edep e)) es)).
  { pose proof (accepted_deps ops dof) as A. fold c in A. fold es in A.
    assert (I : forall e e', In e es -> In e' es -> num (edep e) = num (edep e') -> edep e = edep e').
    { intros e e' He He' E. exact (N2 e e' _ _ He He' (or_introl eq_refl) (or_introl eq_refl) E). }
    clear -A I. induction es as [|e es IH]; cbn [map] in *; [constructor|].
    inversion A; subst. constructor; [|apply IH; [assumption|intros; apply I; cbn; auto]].
    intros Hi. apply H1. apply in_map_iff in Hi. destruct Hi as (q & E & Hq).
    rewrite <- (I q e); [apply in_map; assumption|right; assumption|left; reflexivity|assumption]. }
  destruct (C14_jk_numbering h' M es num (fun e He => N1 e _ He (or_introl eq_refl)) D) as (J & P & L & Le).
  exists h', ni, nd, (free_dofs M (map (fun e => num (edep e)) es)), (map (fun e => num (edep e)) es).
  split; [exact B|]. cbv zeta. replace (Z.to_nat (ni + nd)) with M by (rewrite E2; symmetry; apply Nat2Z.id).
  split; [exact J|]. split; [exact P|].
  split; [rewrite L; fold es in E1; lia|].
  split; [rewrite map_length; symmetry; exact E1|].
  split; [rewrite C14_free_dofs; apply sorted_filter_seq|].
  assert (Q : forall e, In e es -> dof_number h' (edep e) = Ok (Z.of_nat (num (edep e)))).
  { intros e He. exact (proj1 (N1 e _ He (or_introl eq_refl))). }
  clear -Q. induction es as [|e es IH]; cbn [map]; constructor; [apply Q; left; reflexivity|apply IH; intros; apply Q; right; assumption].
Qed.
Print Assumptions C14_with_built_numbering.

(** fewer dofs than equations: at least one dof number must be out of range, but the vector of the
    independent numbers is made with a negative size before the numbers are looked at *)
Theorem C14_more_equations_refuted :
  (exists h es N, (exists e n, In e es /\ dof_number h (edep e) = Ok n /\ (Z.of_nat N <= n)%Z) /\
     NoDup (map edep es) /\ jk_numbering h N es = UB) /\
  (forall h N es, N < length es -> jk_numbering h N es = UB).
Proof.
  assert (G : forall h N es, N < length es -> jk_numbering h N es = UB).
  { intros h N es H. unfold jk_numbering. apply Nat.ltb_lt in H. rewrite H. reflexivity. }
  split; [|exact G].
  exists (fun a => [a]), [mkEq (0, 0)%Z [] (fun _ => 0%R); mkEq (1, 0)%Z [] (fun _ => 0%R)], 1.
  split; [|split].
  - exists (mkEq (1, 0)%Z [] (fun _ => 0%R)), 1%Z. split; [right; left; reflexivity|]. split; [reflexivity|lia].
  - repeat constructor; cbn; intuition discriminate.
  - apply G. cbn. lia.
Qed.
Print Assumptions C14_more_equations_refuted.

(** two nodes with two components each, of which (2, 0) and (1, 1) are constrained; the third call throws *)
Example C14_built_case :
  let e1 := mkEq (2, 0)%Z [] (fun _ => 0%R) in let e2 := mkEq (1, 1)%Z [] (fun _ => 1%R) in
  let h : nodes := fun _ => [(-1); (-1)]%Z in
  let g := mkGroup [1; 2]%Z [1; 2]%Z in
  let c := cons_run cons_empty [AddOne 0 e1; AddOne 0 e2; AddOne 0 e1] in
  group_ok g /\
  (forall k, mentions c 0 k -> In (fst k) (mData g) /\ (0 <= snd k < Z.of_nat (length (h (fst k))))%Z) /\
  match build_numbering h g 0 c with
  | Ok (h', ni, nd) => ni = 2%Z /\ nd = 2%Z /\ jk_numbering h' 4 (equations c 0) = Ok [0; 3; 2; 1]
  | _ => False
  end.
Proof.
  cbn zeta. split; [|split].
  - destruct (group_history [1; 2]%Z) as (g & Hg & Hok & _). vm_compute in Hg. injection Hg as <-. exact Hok.
  - intros k (e & [<-|[<-|[]]] & [->|[]]); cbn; split; auto; lia.
  - vm_compute; auto.
Qed.
