From Coq Require Import List ZArith Arith Bool Lia Permutation Reals Lra Ring.
From Verif Require Import Algebra Outcome GroupModel GroupProofs DofModel DofSpec DofProofs
  ConstraintModel ConstraintSpec ConstraintProofs.
Import ListNotations.

(** ** matrix times vector, by stored entries *)
Section MatVec.
  Context {F : CRing}.
  Add Ring Fr3 : (r_theory F).
  Local Open Scope cring_scope.

  Definition tval (x : nat -> F) (i : nat) (t : nat * nat * F) : F :=
    let '(r, c, v) := t in if Nat.eqb r i then v * x c else 0.

  Lemma mat_vec_trip (M : smat F) x i : in_range M -> mat_vec M x i = sum_over (trip M) (tval x i).
  Proof.
    intros Hr. unfold mat_vec, entry.
    transitivity (sum_n (scols M) (fun j => sum_over (trip M) (fun t =>
       (let '(r, c, v) := t in if andb (Nat.eqb r i) (Nat.eqb c j) then v else 0) * x j))).
    { apply sum_n_ext. intros j _. rewrite sum_over_scal_r. reflexivity. }
    unfold sum_n. rewrite sum_over_swap. apply sum_over_ext. intros [[r c] v] Ht.
    unfold in_range in Hr. rewrite Forall_forall in Hr. specialize (Hr _ Ht). simpl in Hr.
    unfold tval. fold (sum_n (F := F) (scols M) (fun j => (if andb (Nat.eqb r i) (Nat.eqb c j) then v else 0) * x j)).
    assert (Hz : forall j, (j < scols M)%nat -> j <> c -> (if andb (Nat.eqb r i) (Nat.eqb c j) then v else 0) * x j = 0).
    { intros j Hj Hne. destruct (Nat.eqb_spec c j); [congruence|]. rewrite andb_false_r. ring. }
    rewrite (sum_n_single _ (scols M) c _ (proj2 Hr) Hz).
    rewrite Nat.eqb_refl, andb_true_r. destruct (Nat.eqb r i); ring.
  Qed.
End MatVec.

Local Open Scope R_scope.

Definition rowsum (x : nat -> R) (i : nat) (l : list (nat * nat * R)) : R :=
  fold_right (fun t s => (let '(r, c, v) := t in if Nat.eqb r i then v * x c else 0) + s) 0 l.

Lemma rowsum_app x i l m : rowsum x i (l ++ m) = rowsum x i l + rowsum x i m.
Proof. unfold rowsum. induction l as [|[[r c] v] l IH]; simpl; [ring|]. rewrite IH. ring. Qed.

Lemma mat_vec_rowsum (M : smat R_cring) (x : nat -> R) i : in_range M ->
  @mat_vec R_cring M x i = rowsum x i (trip M).
Proof.
  intros H. rewrite mat_vec_trip by auto. unfold rowsum, sum_over, lsum.
  induction (trip M) as [|[[r c] v] l IH]; simpl; auto. rewrite <- IH. reflexivity.
Qed.

Definition indsum (num : dofkey -> nat) (u : nat -> R) (ts : list term) : R :=
  fold_right (fun tm s => coef tm * u (num (tkey tm)) + s) 0 ts.

Lemma index_of_nth l : NoDup l -> forall x, In x l -> exists j, index_of x l = Some j /\ (j < length l)%nat /\ nth j l O = x.
Proof.
  induction 1 as [|y l Hni Hnd IH]; intros x Hx; [destruct Hx|]. simpl.
  destruct (Nat.eqb_spec x y) as [->|Hne].
  - exists O. split; auto. split; [lia|auto].
  - destruct Hx as [->|Hx]; [congruence|]. destruct (IH x Hx) as (j & -> & Hj & Hn).
    exists (S j). simpl. split; auto. split; [lia|auto].
Qed.

Lemma index_of_self l j : NoDup l -> (j < length l)%nat -> index_of (nth j l O) l = Some j.
Proof.
  intros Hnd Hj. destruct (index_of_nth l Hnd (nth j l O) (nth_In _ _ Hj)) as (k & Hk & Hlt & Hn).
  rewrite Hk. f_equal. apply (proj1 (NoDup_nth l O) Hnd); auto.
Qed.

Section Matrix.
  Variables (h : nodes) (es : list equation) (N : nat) (num : dofkey -> nat).
  Hypothesis Hnum : numbered h es N num.
  Hypothesis Hnd : NoDup (map edep es).
  Hypothesis Hsep : forall e e', In e es -> In e' es -> ~ In (edep e) (ind_keys e').
  Hypothesis Hcoef : forall e t, In e es -> In t (eind e) -> coef t = 0 \/ / 10 ^ 18 < Rabs (coef t).

  Let dep := map (fun e => num (edep e)) es.
  Let jk := free_dofs N dep ++ dep.
  Let numInd := (N - length es)%nat.

  Lemma dep_ok e : In e es -> dof_number h (edep e) = Ok (Z.of_nat (num (edep e))) /\ (num (edep e) < N)%nat.
  Proof. intros He. apply (proj1 Hnum e); simpl; auto. Qed.

  Lemma dep_NoDup : NoDup dep.
  Proof.
    unfold dep. clear Hcoef Hsep. destruct Hnum as (_ & Hinj). clear Hnum dep jk numInd.
    induction es as [|e l IH]; simpl in *; [constructor|]. inversion Hnd; subst. constructor.
    - intros Hi. apply in_map_iff in Hi. destruct Hi as (e' & Hn & He'). apply H1.
      rewrite <- (Hinj e' e (edep e') (edep e)); simpl; auto. apply in_map; auto.
    - apply IH; auto. intros e1 e2 k k' H3 H4. apply Hinj; simpl; auto.
  Qed.

  Lemma jk_facts : jk_numbering h N es = Ok jk /\ Permutation (seq 0 N) jk /\
    length (free_dofs N dep) = numInd /\ (length es <= N)%nat.
  Proof. apply jk_numbering_ok; [apply dep_ok | apply dep_NoDup]. Qed.

  Lemma jk_NoDup : NoDup jk.
  Proof. destruct jk_facts as (_ & Hp & _). eapply Permutation_NoDup; [exact Hp|apply seq_NoDup]. Qed.

  Lemma free_spec i : In i (free_dofs N dep) <-> (i < N)%nat /\ ~ In i dep.
  Proof.
    unfold free_dofs. rewrite filter_In, in_seq, negb_true_iff. pose proof (mem_nat_spec i dep).
    destruct (mem_nat i dep); intuition (try discriminate; try lia).
  Qed.

  Lemma nth_jk_free j : (j < numInd)%nat -> In (nth j jk O) (free_dofs N dep).
  Proof.
    intros Hj. destruct jk_facts as (_ & _ & Hl & _). unfold jk. rewrite app_nth1 by lia. apply nth_In. lia.
  Qed.

  Lemma free_index i : In i (free_dofs N dep) ->
    exists j, index_of i jk = Some j /\ (j < numInd)%nat /\ nth j jk O = i.
  Proof.
    intros Hi. destruct jk_facts as (_ & _ & Hl & _).
    destruct (In_nth _ _ O Hi) as (j & Hj & Hn). exists j. rewrite Hl in Hj. split; [|split; auto].
    - rewrite <- Hn. replace (nth j (free_dofs N dep) O) with (nth j jk O) by (unfold jk; rewrite app_nth1; auto; lia).
      apply index_of_self; [apply jk_NoDup|]. unfold jk. rewrite app_length. lia.
    - unfold jk. rewrite app_nth1; auto; lia.
  Qed.

  Lemma ind_key_free e k : In e es -> In k (ind_keys e) -> In (num k) (free_dofs N dep).
  Proof.
    intros He Hk. apply free_spec. destruct Hnum as (H1 & H2).
    destruct (H1 e k He) as (_ & Hlt); [simpl; auto|]. split; auto.
    intros Hi. unfold dep in Hi. apply in_map_iff in Hi. destruct Hi as (e' & Hn & He').
    apply (Hsep e' e He' He). rewrite (H2 e' e (edep e') k); simpl; auto.
  Qed.

  Definition extends (x u : nat -> R) : Prop := forall j, (j < numInd)%nat -> x j = u (nth j jk O).

  Lemma keep_ok c : c = 0 \/ / 10 ^ 18 < Rabs c -> keep_coef c = false -> c = 0.
  Proof. unfold keep_coef. destruct (Rlt_dec (/ 10 ^ 18) (Rabs c)); [discriminate|]. intros [H|H] _; [auto|contradiction]. Qed.

  Lemma term_triplets_ok e ts row : In e es -> (forall t, In t ts -> In t (eind e)) -> (row < N)%nat ->
    exists l, term_triplets h jk numInd row ts = Ok l /\
      Forall (fun t => let '(r, c, _) := t in r = row /\ (c < numInd)%nat) l /\
      forall x u, extends x u -> rowsum x row l = - indsum num u ts.
  Proof.
    intros He Hts Hrow. induction ts as [|t ts IH]; cbn [term_triplets].
    - exists []. split; auto. split; [constructor|]. intros x u _. simpl. ring.
    - assert (Hk : In (tkey t) (ind_keys e)) by (apply in_map; apply Hts; simpl; auto).
      destruct (proj1 Hnum e (tkey t) He) as (-> & Hlt); [simpl; auto|]. cbn [obind].
      destruct (Z.ltb_spec (Z.of_nat (num (tkey t))) 0); [lia|]. rewrite Nat2Z.id.
      destruct (free_index (num (tkey t)) (ind_key_free e _ He Hk)) as (j & -> & Hj & Hn).
      destruct (Nat.ltb_spec j numInd); [|lia].
      destruct IH as (l & -> & Hf & Hs); [intros; apply Hts; simpl; auto|]. cbn [omap obind].
      eexists. split; [reflexivity|]. destruct (keep_coef (coef t)) eqn:Ek.
      + split; [constructor; auto|]. intros x u Hx. simpl. rewrite Nat.eqb_refl.
        fold (rowsum x row l). rewrite (Hs x u Hx), (Hx j Hj), Hn. unfold indsum. ring.
      + split; auto. intros x u Hx. rewrite (Hs x u Hx). simpl. unfold indsum.
        rewrite (keep_ok (coef t)); auto; [ring|]. apply (Hcoef e); auto. apply Hts; simpl; auto.
  Qed.

  Lemma rowsum_other x i l : Forall (fun t => let '(r, _, _) := t in r <> i) l -> rowsum x i l = 0.
  Proof.
    induction 1 as [|[[r c] v] l H Hl IH]; simpl; auto. fold (rowsum x i l). rewrite IH.
    destruct (Nat.eqb_spec r i); [contradiction|ring].
  Qed.

  Lemma equation_triplets_ok es' : incl es' es -> NoDup (map (fun e => num (edep e)) es') ->
    exists l, equation_triplets h jk numInd es' = Ok l /\
      Forall (fun t => let '(r, c, _) := t in (In r (map (fun e => num (edep e)) es') /\ r < N /\ c < numInd)%nat) l /\
      forall x u, extends x u ->
        (forall e, In e es' -> rowsum x (num (edep e)) l = - indsum num u (eind e)).
  Proof.
    induction es' as [|e es' IH]; intros Hi Hn; cbn [equation_triplets].
    - exists []. split; auto. split; [constructor|]. intros x u _ e [].
    - assert (He : In e es) by (apply Hi; simpl; auto).
      destruct (dep_ok e He) as (-> & Hlt). cbn [obind].
      destruct (Z.ltb_spec (Z.of_nat (num (edep e))) 0); [lia|]. rewrite Nat2Z.id.
      destruct (term_triplets_ok e (eind e) (num (edep e)) He) as (l & -> & Hf & Hs); auto. cbn [obind].
      simpl in Hn. inversion Hn as [|? ? Hni Hn']; subst.
      destruct IH as (l' & -> & Hf' & Hs'); auto; [intros y Hy; apply Hi; simpl; auto|]. cbn [omap obind].
      eexists. split; [reflexivity|]. split.
      + apply Forall_app. split.
        * eapply Forall_impl; [|exact Hf]. intros [[r c] v] (-> & Hc). simpl. auto.
        * eapply Forall_impl; [|exact Hf']. intros [[r c] v] (Hr & Hr' & Hc). simpl. auto.
      + intros x u Hx e' [<-|He'].
        * rewrite rowsum_app, (Hs x u Hx), rowsum_other; [ring|].
          eapply Forall_impl; [|exact Hf']. intros [[r c] v] (Hr & _) ->. auto.
        * rewrite rowsum_app, (Hs' x u Hx e' He'), rowsum_other; [ring|].
          eapply Forall_impl; [|exact Hf]. intros [[r c] v] (-> & _) E. apply Hni. rewrite E.
          apply in_map_iff. exists e'. auto.
  Qed.

  Definition units := map (fun i => (nth i jk O, i, 1)) (seq 0 numInd).

  Lemma units_sum_gen x i n : (n <= numInd)%nat ->
    rowsum x i (map (fun i => (nth i jk O, i, 1)) (seq 0 n)) =
    match index_of i jk with Some j => if Nat.ltb j n then x j else 0 | None => 0 end.
  Proof.
    induction n as [|n IH]; intros Hn.
    - simpl. destruct (index_of i jk); auto.
    - rewrite seq_S, map_app, rowsum_app, IH by lia. simpl.
      assert (Hlen : (n < length jk)%nat).
      { destruct jk_facts as (_ & _ & Hl & _). unfold jk. rewrite app_length. lia. }
      destruct (Nat.eqb_spec (nth n jk O) i) as [<-|Hne].
      + rewrite index_of_self by (auto using jk_NoDup).
        destruct (Nat.ltb_spec n n), (Nat.ltb_spec n (S n)); try lia. ring.
      + destruct (index_of i jk) as [j|] eqn:E; [|ring].
        assert (j <> n).
        { intros ->. apply Hne. clear -E. revert n E. induction jk as [|y l IH]; intros n E; [discriminate|].
          simpl in E. destruct (Nat.eqb_spec i y); [injection E as <-; auto|].
          destruct (index_of i l) as [j|]; [|discriminate]. injection E as <-. simpl. auto. }
        destruct (Nat.ltb_spec j n), (Nat.ltb_spec j (S n)); try lia; ring.
  Qed.

  Lemma matrix_ok : exists l,
    omap (fun l => units ++ l) (equation_triplets h jk numInd es) = Ok l /\
    Forall (fun t => let '(r, c, _) := t in (r < N /\ c < numInd)%nat) l /\
    (forall x u, extends x u -> forall i, In i (free_dofs N dep) -> rowsum x i l = u i) /\
    (forall x u, extends x u -> forall e, In e es -> rowsum x (num (edep e)) l = - indsum num u (eind e)).
  Proof.
    destruct (equation_triplets_ok es (fun y H => H) dep_NoDup) as (l & -> & Hf & Hs). simpl.
    eexists. split; [reflexivity|]. split; [|split].
    - apply Forall_app. split.
      + apply Forall_forall. intros t Ht. unfold units in Ht. apply in_map_iff in Ht.
        destruct Ht as (j & <- & Hj). apply in_seq in Hj. split; [|lia].
        assert (In (nth j jk O) (free_dofs N dep)) by (apply nth_jk_free; lia). apply free_spec in H. tauto.
      + eapply Forall_impl; [|exact Hf]. intros [[r c] v]. tauto.
    - intros x u Hx i Hi. rewrite rowsum_app, (rowsum_other x i l).
      + unfold units. rewrite units_sum_gen by auto. destruct (free_index i Hi) as (j & -> & Hj & Hn).
        destruct (Nat.ltb_spec j numInd); [|lia]. rewrite (Hx j Hj), Hn. ring.
      + eapply Forall_impl; [|exact Hf]. intros [[r c] v] (Hr & _) ->. apply free_spec in Hi. tauto.
    - intros x u Hx e He. rewrite rowsum_app, (Hs x u Hx e He). unfold units. rewrite units_sum_gen by auto.
      assert (Hd : In (num (edep e)) dep) by (unfold dep; apply in_map_iff; exists e; auto).
      destruct (index_of (num (edep e)) jk) as [j|] eqn:E; [|ring].
      destruct (Nat.ltb_spec j numInd); [|ring]. exfalso.
      pose proof (nth_jk_free j H) as Hfr.
      destruct (index_of_nth jk jk_NoDup (num (edep e))) as (j' & E' & _ & Hn'); [apply in_app_iff; auto|].
      rewrite E in E'. injection E' as <-. rewrite Hn' in Hfr. apply free_spec in Hfr. tauto.
  Qed.

  Lemma prescribed_free t i : ~ In i dep -> prescribed num es t i = 0.
  Proof.
    intros Hi. unfold prescribed. destruct (find _ es) as [e|] eqn:E; auto.
    apply find_some in E. destruct E as (He & Hn). apply Nat.eqb_eq in Hn. exfalso. apply Hi.
    unfold dep. apply in_map_iff. exists e; auto.
  Qed.

  Lemma prescribed_dep t e : In e es -> prescribed num es t (num (edep e)) = erhs e t.
  Proof.
    intros He. unfold prescribed. pose proof dep_NoDup as Hd. unfold dep in Hd. clear -He Hd.
    induction es as [|e' l IH]; [destruct He|]. simpl in *. inversion Hd; subst.
    destruct (Nat.eqb_spec (num (edep e')) (num (edep e))) as [Heq|Hne].
    - destruct He as [->|He]; auto. exfalso. apply H1. rewrite Heq. apply in_map_iff. exists e; auto.
    - destruct He as [->|He]; [congruence|]. auto.
  Qed.

  Lemma dof_cases i : (i < N)%nat -> In i (free_dofs N dep) \/ exists e, In e es /\ i = num (edep e).
  Proof.
    intros Hi. destruct (in_dec Nat.eq_dec i dep) as [Hd|Hd].
    - right. unfold dep in Hd. apply in_map_iff in Hd. destruct Hd as (e & <- & He). eauto.
    - left. apply free_spec. auto.
  Qed.

  Lemma parametrisation l :
    Forall (fun t => let '(r, c, _) := t in (r < N /\ c < numInd)%nat) l ->
    (forall x u, extends x u -> forall i, In i (free_dofs N dep) -> rowsum x i l = u i) ->
    (forall x u, extends x u -> forall e, In e es -> rowsum x (num (edep e)) l = - indsum num u (eind e)) ->
    forall u t,
    ((forall e, In e es -> holds num u t e) <->
     exists v : list R, length v = numInd /\
       forall i, (i < N)%nat -> u i = rowsum (fun j => nth j v 0) i l + prescribed num es t i) /\
    (forall v v' : list R, length v = numInd -> length v' = numInd ->
       (forall i, (i < N)%nat -> u i = rowsum (fun j => nth j v 0) i l + prescribed num es t i) ->
       (forall i, (i < N)%nat -> u i = rowsum (fun j => nth j v' 0) i l + prescribed num es t i) -> v = v').
  Proof.
    intros Hr Hfree Hdep u t.
    assert (Hext : forall v, length v = numInd ->
       (forall i, (i < N)%nat -> u i = rowsum (fun j => nth j v 0) i l + prescribed num es t i) ->
       extends (fun j => nth j v 0) u).
    { intros v Hv Hu j Hj.
      set (u' := fun i => match index_of i jk with Some j => nth j v 0 | None => 0 end).
      assert (Hx' : extends (fun j => nth j v 0) u').
      { intros k Hk. unfold u'. rewrite index_of_self; auto using jk_NoDup.
        destruct jk_facts as (_ & _ & Hl & _). unfold jk. rewrite app_length. lia. }
      pose proof (nth_jk_free j Hj) as Hf. pose proof (proj1 (free_spec _) Hf) as (HltN & Hnd').
      rewrite (Hu _ HltN), (Hfree _ _ Hx' _ Hf), prescribed_free by auto.
      rewrite <- (Hx' j Hj). ring. }
    split; [split|].
    - intros Hh. exists (map (fun j => u (nth j jk O)) (seq 0 numInd)).
      split; [rewrite map_length, seq_length; auto|].
      assert (Hx : extends (fun j => nth j (map (fun j => u (nth j jk O)) (seq 0 numInd)) 0) u).
      { intros j Hj. rewrite (nth_indep _ 0 (u (nth O jk O))) by (rewrite map_length, seq_length; lia).
        rewrite (map_nth (fun j => u (nth j jk O)) (seq 0 numInd) O j), seq_nth by lia. auto. }
      intros i Hi. destruct (dof_cases i Hi) as [Hf|(e & He & ->)].
      + rewrite (Hfree _ _ Hx i Hf), prescribed_free by (apply free_spec in Hf; tauto). ring.
      + rewrite (Hdep _ _ Hx e He), prescribed_dep by auto. specialize (Hh e He). unfold holds in Hh.
        unfold indsum. lra.
    - intros (v & Hv & Hu) e He. pose proof (Hext v Hv Hu) as Hx. unfold holds.
      destruct (dep_ok e He) as (_ & Hlt). rewrite (Hu _ Hlt), (Hdep _ _ Hx e He), prescribed_dep by auto.
      unfold indsum. lra.
    - intros v v' Hv Hv' Hu Hu'. apply (nth_ext v v' 0 0); [lia|]. intros j Hj.
      rewrite (Hext v Hv Hu j), (Hext v' Hv' Hu' j) by lia. auto.
  Qed.
End Matrix.

Lemma numbered_nil h N num : numbered h [] N num.
Proof. split; intros e; [intros k []|intros e' k k' []]. Qed.

(** the identity matrix *)
Lemma rowsum_identity x N i : (i < N)%nat -> rowsum x i (map (fun i => (i, i, 1)) (seq 0 N)) = x i.
Proof.
  induction N as [|N IH]; intros Hi; [lia|].
  rewrite seq_S, map_app, rowsum_app. simpl. destruct (Nat.eqb_spec N i) as [->|Hne].
  - replace (rowsum x i (map (fun i => (i, i, 1)) (seq 0 i))) with 0; [ring|].
    symmetry. apply rowsum_other. apply Forall_forall. intros t Ht. apply in_map_iff in Ht.
    destruct Ht as (k & <- & Hk). apply in_seq in Hk. lia.
  - rewrite IH by lia. ring.
Qed.

Lemma constraint_matrix_lemma ops h dof N num :
  no_self_reference ops ->
  let c := cons_run cons_empty ops in let es := equations c dof in
  numbered h es N num ->
  (forall e t, In e es -> In t (eind e) -> coef t = 0 \/ / 10 ^ 18 < Rabs (coef t)) ->
  exists C, unit_constraint_matrix h c dof N = Ok C /\ in_range C /\
    srows C = N /\ scols C = (N - length es)%nat /\
    forall u t,
    ((forall e, In e es -> holds num u t e) <->
     exists v : list R, length v = scols C /\
       forall i, (i < N)%nat -> u i = @mat_vec R_cring C (fun j => nth j v 0) i + prescribed num es t i) /\
    (forall v v' : list R, length v = scols C -> length v' = scols C ->
       (forall i, (i < N)%nat -> u i = @mat_vec R_cring C (fun j => nth j v 0) i + prescribed num es t i) ->
       (forall i, (i < N)%nat -> u i = @mat_vec R_cring C (fun j => nth j v' 0) i + prescribed num es t i) -> v = v').
Proof.
  intros Hns c es Hnum Hcoef.
  pose proof (cons_run_refines ops) as HR. destruct (accepted_full ops Hns) as (Hnd & Hsep).
  assert (Hin : forall e, In e es -> exists d, In (d, e) (log_run ops)).
  { intros e He. unfold es, c in He. rewrite (rl_eqs _ _ HR) in He. unfold log_of in He.
    apply in_map_iff in He. destruct He as ([d e'] & <- & Hp). apply filter_In in Hp. exists d. tauto. }
  assert (Hnd' : NoDup (map edep es)).
  { unfold es, c. rewrite (rl_eqs _ _ HR). unfold log_of. rewrite map_map. clear -Hnd.
    induction (log_run ops) as [|p l IH]; simpl in *; [constructor|]. inversion Hnd; subst.
    destruct (Z.eqb (fst p) dof); simpl; auto. constructor; auto.
    intros Hi. apply H1. apply in_map_iff in Hi. destruct Hi as (q & He & Hq). apply filter_In in Hq.
    apply in_map_iff. exists q; tauto. }
  assert (Hsep' : forall e e', In e es -> In e' es -> ~ In (edep e) (ind_keys e')).
  { intros e e' He He'. destruct (Hin e He) as (d & Hd), (Hin e' He') as (d' & Hd').
    apply (Hsep (d, e) (d', e') Hd Hd'). }
  unfold unit_constraint_matrix. destruct (has_equations c dof) eqn:Eh; cbn [negb].
  - destruct (jk_facts h es N num Hnum Hnd') as (Hjk & _ & _ & Hle).
    fold es. rewrite Hjk. cbn [obind].
    destruct (matrix_ok h es N num Hnum Hnd' Hsep' Hcoef) as (l & Hl & Hr & Hf & Hd).
    destruct (equation_triplets h _ _ es) as [l'| |] eqn:El; [|discriminate..].
    cbn [omap obind] in Hl |- *. injection Hl as Hl. eexists. split; [reflexivity|]. unfold units in Hl.
    rewrite Hl. cbn [srows scols]. split; [exact Hr|]. split; auto. split; auto.
    intros u t.
    destruct (parametrisation h es N num Hnum Hnd' l Hr Hf Hd u t) as (P1 & P2).
    assert (Hmv : forall x i, @mat_vec R_cring (mkMat (F := R_cring) N (N - length es) l) x i = rowsum x i l).
    { intros x i. rewrite mat_vec_rowsum; auto. }
    split.
    + rewrite P1. split; intros (v & Hv & Hu); exists v; (split; [exact Hv|]); intros i Hi.
      * rewrite Hmv. auto.
      * rewrite <- Hmv. auto.
    + intros v v' Hv Hv' Hu Hu'. apply P2; auto; intros i Hi; rewrite <- Hmv; auto.
  - assert (Hes : es = []).
    { unfold es, equations. unfold has_equations in Eh. destruct (mfind lt_dof dof (eqs c)); [discriminate|auto]. }
    rewrite Hes. eexists. split; [reflexivity|].
    assert (Hr : in_range (F := R_cring) (mkMat (F := R_cring) N N (map (fun i => (i, i, 1)) (seq 0 N)))).
    { apply Forall_forall. intros t Ht. apply in_map_iff in Ht. destruct Ht as (k & <- & Hk).
      apply in_seq in Hk. simpl. lia. }
    split; [exact Hr|]. cbn [srows scols length]. split; auto. split; [lia|].
    intros u t.
    assert (Hmv : forall x i, (i < N)%nat ->
       @mat_vec R_cring (mkMat (F := R_cring) N N (map (fun i => (i, i, 1)) (seq 0 N))) x i = x i).
    { intros x i Hi. rewrite mat_vec_rowsum by auto. cbn [trip]. apply rowsum_identity; auto. }
    unfold prescribed. simpl find. cbv iota. split; [split|].
    + intros _. exists (map u (seq 0 N)). split; [rewrite map_length, seq_length; auto|].
      intros i Hi. rewrite Hmv by auto.
      rewrite (nth_indep _ 0 (u O)) by (rewrite map_length, seq_length; auto).
      rewrite map_nth, seq_nth by auto. simpl. ring.
    + intros _ e [].
    + intros v v' Hv Hv' Hu Hu'. apply (nth_ext v v' 0 0); [lia|]. intros j Hj.
      assert (Hj' : (j < N)%nat) by lia. pose proof (Hu j Hj') as E. pose proof (Hu' j Hj') as E'.
      rewrite Hmv in E by auto. rewrite Hmv in E' by auto. lra.
Qed.

(** numbers given by DofNumbering::Build are fit for the equations *)
Definition num_in (h : nodes) (k : dofkey) : nat :=
  match dof_number h k with Ok n => Z.to_nat n | _ => O end.

Lemma build_numbered h g dof c h' numInd numDep : group_ok g ->
  build_numbering h g dof c = Ok (h', numInd, numDep) ->
  (forall k, mentions c dof k -> (0 <= snd k < Z.of_nat (length (h (fst k))))%Z) ->
  numbered h' (equations c dof) (length (all_dofs (fun a => length (h a)) (mData g))) (num_in h').
Proof.
  intros Hg Hb Hc.
  destruct (build_numbering_lemma h g dof c Hg) as [(_ & Hx)|(Hin & h1 & ni & nd & Hb' & Hm & _)].
  { rewrite Hx in Hb. discriminate. }
  rewrite Hb in Hb'. injection Hb' as <- <- <-.
  set (A := all_dofs (fun a => length (h a)) (mData g)) in *.
  assert (Hpos : forall k, mentions c dof k -> exists i, (i < length A)%nat /\ nth_error A i = Some k /\
                   dof_number h' k = Ok (Z.of_nat i)).
  { intros k Hk. assert (HkA : In k A).
    { destruct k as [a comp]. apply in_all_dofs. split; [apply (Hin _ Hk)|apply (Hc _ Hk)]. }
    apply In_nth_error in HkA. destruct HkA as (i & Hi). exists i.
    assert (Hlt : (i < length A)%nat) by (apply nth_error_Some; congruence).
    split; auto. split; auto.
    assert (E : nth_error (map (dof_number h') A) i = nth_error (map (fun i => Ok (Z.of_nat i)) (seq 0 (length A))) i)
      by (rewrite Hm; auto).
    rewrite !nth_error_map, Hi in E. rewrite (nth_error_nth' (seq 0 (length A)) O) in E by (rewrite seq_length; auto).
    rewrite seq_nth in E by auto. simpl in E. congruence. }
  assert (Hment : forall e k, In e (equations c dof) -> In k (edep e :: ind_keys e) -> mentions c dof k).
  { intros e k He [<-|Hk]; exists e; auto. }
  split.
  - intros e k He Hk. destruct (Hpos k (Hment e k He Hk)) as (i & Hi & _ & Hn).
    unfold num_in. rewrite Hn, Nat2Z.id. auto.
  - intros e e' k k' He He' Hk Hk' E.
    destruct (Hpos k (Hment e k He Hk)) as (i & Hi & Hn & Hd).
    destruct (Hpos k' (Hment e' k' He' Hk')) as (i' & Hi' & Hn' & Hd').
    unfold num_in in E. rewrite Hd, Hd', !Nat2Z.id in E. subst i'. congruence.
Qed.

Lemma numbering_and_matrix_lemma ops h g dof :
  no_self_reference ops -> group_ok g ->
  let c := cons_run cons_empty ops in let es := equations c dof in
  (forall k, mentions c dof k -> In (fst k) (mData g) /\ (0 <= snd k < Z.of_nat (length (h (fst k))))%Z) ->
  (forall e t, In e es -> In t (eind e) -> coef t = 0 \/ / 10 ^ 18 < Rabs (coef t)) ->
  exists h' numInd numDep C, build_numbering h g dof c = Ok (h', numInd, numDep) /\
    unit_constraint_matrix h' c dof (Z.to_nat (numInd + numDep)) = Ok C /\
    Z.of_nat (scols C) = numInd /\ Z.of_nat (srows C) = (numInd + numDep)%Z /\
    forall u t, (forall e, In e es -> holds (num_in h') u t e) <->
      exists v : list R, length v = scols C /\
       forall i, (i < srows C)%nat -> u i = @mat_vec R_cring C (fun j => nth j v 0) i + prescribed (num_in h') es t i.
Proof.
  intros Hns Hg c es Hk Hcoef.
  destruct (build_numbering_lemma h g dof c Hg) as [((k & Hm & Hni) & _)|(_ & h' & ni & nd & Hb & Hm & Hnd & Hs & _)].
  { exfalso. apply Hni. apply Hk. auto. }
  assert (Hnum := build_numbered h g dof c h' ni nd Hg Hb (fun k Hk' => proj2 (Hk k Hk'))).
  destruct (constraint_matrix_lemma ops h' dof _ (num_in h') Hns Hnum Hcoef) as (C & HC & Hr & Hrows & Hcols & Hmain).
  exists h', ni, nd, C. split; auto. fold c es in HC, Hcols, Hmain |- *.
  rewrite Hs, Nat2Z.id. split; auto. split; [|split].
  - rewrite Hcols.
    destruct (jk_facts h' es _ (num_in h') Hnum) as (_ & _ & _ & Hle).
    { destruct (accepted_full ops Hns) as (Hnd0 & _). unfold es, c. rewrite (rl_eqs _ _ (cons_run_refines ops)).
      unfold log_of. rewrite map_map. clear -Hnd0.
      induction (log_run ops) as [|p l IH]; simpl in *; [constructor|]. inversion Hnd0; subst.
      destruct (Z.eqb (fst p) dof); simpl; auto. constructor; auto.
      intros Hi. apply H1. apply in_map_iff in Hi. destruct Hi as (q & He & Hq). apply filter_In in Hq.
      apply in_map_iff. exists q; tauto. }
    fold es in Hnd. lia.
  - rewrite Hrows. auto.
  - intros u t. rewrite Hrows. apply Hmain.
Qed.
