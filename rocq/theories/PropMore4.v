(** * Further statements of C10 and C15 *)
From Coq Require Import List ZArith Arith Bool Permutation Reals Lra Lia.
From Verif Require Import Outcome GroupModel GroupProofs DofModel ConstraintModel ConstraintSpec ConstraintProofs ConstraintProofs2 ConstraintProofs3 PropConstraints.
Import ListNotations.

(** C10: DofNumbering::Get returns the number of the component of each node, in the order of the nodes *)
Lemma get_numbers_spec h comp l : (forall a, In a l -> 0 <= comp < Z.of_nat (length (h a)))%Z ->
  exists ns, get_numbers h l comp = Ok ns /\ Forall2 (fun a n => dof_number h (a, comp) = Ok n) l ns.
Proof.
  induction l as [|a l IH]; intros H; cbn [get_numbers].
  - exists []. split; [reflexivity|constructor].
  - destruct IH as (ns & E & F); [intros b Hb; apply H; right; exact Hb|].
    pose proof (H a (or_introl eq_refl)) as Ha.
    assert (exists n, dof_number h (a, comp) = Ok n) as (n & Hn).
    { unfold dof_number. cbn [fst snd]. destruct (Z.ltb_spec comp 0); [lia|]. destruct (nth_error (h a) (Z.to_nat comp)) eqn:N; [eauto|].
      apply nth_error_None in N. lia. }
    rewrite Hn, E. cbn. exists (n :: ns). split; [reflexivity|]. constructor; assumption.
Qed.
Lemma in_numbers {A B} (P : A -> B -> Prop) l r y : Forall2 P l r -> In y r -> exists x, In x l /\ P x y.
Proof. induction 1 as [|a b l r Hab _ IH]; intros []; [subst; exists a; split; [left; reflexivity|exact Hab]|]. destruct IH as (x & Hx & Px); [assumption|]. exists x. split; [right; exact Hx|exact Px]. Qed.
Lemma map_seq_inj {A} (f : A -> outcome Z) l n x y v : NoDup l -> map f l = map (fun i => Ok (Z.of_nat i)) (seq 0 n) -> In x l -> In y l -> f x = Ok v -> f y = Ok v -> x = y.
Proof.
  intros D E Hx Hy Fx Fy. apply In_nth_error in Hx, Hy. destruct Hx as (i & Hi), Hy as (j & Hj).
  assert (K : forall k z, nth_error l k = Some z -> f z = Ok v -> v = Z.of_nat k).
  { intros k z Hk Hz. pose proof (f_equal (fun m => nth_error m k) E) as Q. cbv beta in Q. rewrite !nth_error_map, Hk in Q. cbn [option_map] in Q.
    destruct (nth_error (seq 0 n) k) as [s|] eqn:S; [|discriminate]. cbn [option_map] in Q. rewrite Hz in Q. injection Q as Q.
    assert (k < n)%nat. { assert (nth_error (seq 0 n) k <> None) as N by congruence. apply nth_error_Some in N. rewrite seq_length in N. exact N. }
    apply (nth_error_nth _ _ 0%nat) in S. rewrite seq_nth in S by assumption. simpl in S. subst s. exact Q. }
  pose proof (K _ _ Hi Fx). pose proof (K _ _ Hj Fy). assert (i = j) by lia. subst j. congruence.
Qed.

Theorem C10_get : forall h g dof c h' numInd numDep selected comp, group_ok g ->
  build_numbering h g dof c = Ok (h', numInd, numDep) ->
  NoDup selected -> (forall a, In a selected -> In a (mData g) /\ (0 <= comp < Z.of_nat (length (h a)))%Z) ->
  exists numbers, get_numbers h' selected comp = Ok numbers /\ NoDup numbers /\
    (forall n, In n numbers -> 0 <= n < numInd + numDep)%Z /\
    Forall2 (fun a n => dof_number h' (a, comp) = Ok n) selected numbers.
Proof.
  intros h g dof c h' numInd numDep selected comp Hg Hb Hd Hs.
  destruct (C10_numbering_is_bijection h g dof c Hg) as [(_ & E)|(_ & h1 & i1 & d1 & E & M & _ & S & L & _)]; [congruence|].
  rewrite Hb in E. injection E as <- <- <-.
  destruct (get_numbers_spec h' comp selected) as (ns & E & F).
  { intros a Ha. rewrite L. apply Hs. exact Ha. }
  assert (Hall : forall a, In a selected -> In (a, comp) (all_dofs (fun a => length (h a)) (mData g))).
  { intros a Ha. destruct (C10_all_dofs (fun a => length (h a)) (mData g)) as (_ & I); [apply Hg|]. apply I, Hs, Ha. }
  exists ns. split; [exact E|]. split; [|split].
  - assert (D : NoDup (all_dofs (fun a => length (h a)) (mData g))) by (apply C10_all_dofs, Hg).
    clear E Hs. induction F as [|a n l ns Han F IH]; constructor.
    + intros Hin. destruct (in_numbers _ _ _ _ F Hin) as (b & Hb' & Hbn).
      assert (X : (a, comp) = (b, comp)).
      { eapply map_seq_inj; [exact D|exact M|apply Hall; left; reflexivity|apply Hall; right; exact Hb'|exact Han|exact Hbn]. }
      injection X as ->. inversion Hd; contradiction.
    + apply IH; [inversion Hd; assumption|]. intros b Hb'. apply Hall. right. exact Hb'.
  - intros n Hn. destruct (in_numbers _ _ _ _ F Hn) as (a & Ha & Han). rewrite S. apply Hall in Ha. apply (in_map (dof_number h')) in Ha.
    rewrite M, Han in Ha. apply in_map_iff in Ha. destruct Ha as (i & Hi & Hr). apply in_seq in Hr. injection Hi as <-. lia.
  - exact F.
Qed.
Print Assumptions C10_get.

(** nodes 7 and 4 with two components each: their second components have the numbers 1 and 3 *)
Example C10_get_case : let g := mkGroup [7; 4]%Z [4; 7]%Z in group_ok g /\
  match build_numbering (fun _ => [-1; -1]%Z) g 0 cons_empty with
  | Ok (h', i, d) => get_numbers h' [4; 7]%Z 1 = Ok [3; 1]%Z
  | _ => False
  end.
Proof.
  cbn zeta. split; [|vm_compute; auto].
  destruct (group_history [7; 4]%Z) as (g & Hg & Hok & _). vm_compute in Hg. injection Hg as <-. exact Hok.
Qed.

(** C15: GetRhs passes the prescribed values on unchanged, one for each equation; entry i belongs to the dof that GetJKNumbering
    lists as the i-th constrained one *)
Theorem C15_dense_rhs : forall ops h dof N num t, no_self_reference ops ->
  let es := equations (cons_run cons_empty ops) dof in
  numbered h es N num ->
  exists jk, jk_numbering h N es = Ok jk /\ length (get_rhs (cons_run cons_empty ops) dof t) = length es /\
    forall i, i < length es -> nth_error (get_rhs (cons_run cons_empty ops) dof t) i = Some (prescribed num es t (nth (N - length es + i) jk 0)).
Proof.
  intros ops h dof N num t Hns es Hnum.
  destruct (accepted_numbers ops h dof N num Hns Hnum) as (H1 & H2). fold es in H1, H2.
  destruct (jk_numbering_ok h N es num H1 H2) as (J & _ & F & _). eexists. split; [exact J|]. unfold get_rhs. fold es. rewrite map_length.
  split; [reflexivity|]. intros i Hi. rewrite app_nth2 by (rewrite F; lia). rewrite F. replace (N - length es + i - (N - length es)) with i by lia.
  rewrite nth_error_map. destruct (nth_error es i) as [e|] eqn:E; [|apply nth_error_None in E; lia]. cbn [option_map]. f_equal.
  assert (X : nth i (map (fun e0 => num (edep e0)) es) 0 = num (edep e)).
  { rewrite (nth_indep _ 0 (num (edep e))) by (rewrite map_length; lia). rewrite (map_nth (fun e0 => num (edep e0))). f_equal. f_equal. apply nth_error_nth. exact E. }
  rewrite X. unfold prescribed. destruct (find _ es) as [e'|] eqn:Fd.
  - apply find_some in Fd. destruct Fd as (Hin & Heq). apply Nat.eqb_eq in Heq.
    apply In_nth_error in Hin. destruct Hin as (j & Hj).
    assert (i = j).
    { rewrite NoDup_nth_error in H2. apply H2; [rewrite map_length; exact Hi|]. rewrite !nth_error_map, E, Hj. cbn [option_map]. congruence. }
    subst j. congruence.
  - exfalso. apply nth_error_In in E. apply (find_none _ _ Fd) in E. cbn beta in E. rewrite Nat.eqb_refl in E. discriminate.
Qed.
Print Assumptions C15_dense_rhs.

(** the constrained dofs 5 and 2 of seven, as in Constraints.h:20-31 *)
Example C15_dense_case :
  let ops := [AddOne 0 (mkEq (5, 0)%Z [] (fun t => t)); AddOne 0 (mkEq (2, 0)%Z [] (fun t => (2 * t)%R))] in
  no_self_reference ops /\ numbered (fun a => [a]) (equations (cons_run cons_empty ops) 0) 7 (fun k => Z.to_nat (fst k)) /\
  get_rhs (cons_run cons_empty ops) 0 3%R = [3%R; (2 * 3)%R].
Proof.
  cbn zeta. split; [|split].
  - intros o e [<-|[<-|[]]] [<-|[]]; cbn; auto.
  - split.
    + intros e k [<-|[<-|[]]] [<-|[]]; (split; [reflexivity|cbn; lia]).
    + intros e e' k k' [<-|[<-|[]]] [<-|[<-|[]]] [<-|[]] [<-|[]] H; try reflexivity; exfalso; cbn in H; lia.
  - reflexivity.
Qed.
