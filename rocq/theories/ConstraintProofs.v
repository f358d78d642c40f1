From Coq Require Import List ZArith Arith Bool Lia Sorted Permutation Reals Lra Ring.
From Verif Require Import Algebra Outcome GroupModel GroupProofs DofModel DofSpec DofProofs ConstraintModel ConstraintSpec.
Import ListNotations.

(** ** keys *)
Lemma key_eqb_spec a b : reflect (a = b) (key_eqb a b).
Proof.
  unfold key_eqb. destruct a as [a1 a2], b as [b1 b2]; simpl.
  destruct (Z.eqb_spec a1 b1), (Z.eqb_spec a2 b2); simpl; constructor; congruence.
Qed.
Lemma existsb_key k l : existsb (key_eqb k) l = true <-> In k l.
Proof.
  rewrite existsb_exists. split.
  - intros (x & Hx & E). destruct (key_eqb_spec k x); congruence.
  - intros H. exists k. split; auto. destruct (key_eqb_spec k k); congruence.
Qed.
Lemma existsb_key_false k l : existsb (key_eqb k) l = false <-> ~ In k l.
Proof. rewrite <- existsb_key. destruct (existsb _ _); intuition congruence. Qed.

Lemma conflicts_spec e e' : conflicts e e' = true <->
  edep e = edep e' \/ In (edep e) (ind_keys e') \/ In (edep e') (ind_keys e).
Proof.
  unfold conflicts. rewrite !orb_true_iff, !existsb_key.
  destruct (key_eqb_spec (edep e) (edep e')); intuition congruence.
Qed.
Lemma conflicts_false e e' : conflicts e e' = false <->
  edep e <> edep e' /\ ~ In (edep e) (ind_keys e') /\ ~ In (edep e') (ind_keys e).
Proof.
  pose proof (conflicts_spec e e') as H. destruct (conflicts e e').
  - split; [discriminate|]. intros (H1 & H2 & H3). exfalso. destruct (proj1 H eq_refl) as [?|[?|?]]; auto.
  - split; auto. intros _. repeat split; intros Hx; assert (false = true) by (apply H; auto); discriminate.
Qed.

(** ** C12 *)
Lemma ts_insert_contains s k k' : msorted lt_dofpair s ->
  ts_contains (ts_insert s k) k' = true <-> k' = k \/ ts_contains s k' = true.
Proof.
  intros Hs. unfold ts_contains, ts_insert. destruct (key_eqb_spec k' k) as [->|Hne].
  - rewrite mfind_mset_eq; auto using ltpair_irrefl, ltpair_total. intuition.
  - rewrite mfind_mset_ne; auto using ltpair_total; [|apply ltpair_trans]. intuition congruence.
Qed.
Lemma ts_insert_sorted s k : msorted lt_dofpair s -> msorted lt_dofpair (ts_insert s k).
Proof. apply msorted_mset. apply ltpair_trans. apply ltpair_total. Qed.

Lemma ts_insert_all ts : forall s, msorted lt_dofpair s ->
  msorted lt_dofpair (fold_left (fun s t => ts_insert s (tkey t)) ts s) /\
  forall k, ts_contains (fold_left (fun s t => ts_insert s (tkey t)) ts s) k = true <->
    In k (map tkey ts) \/ ts_contains s k = true.
Proof.
  induction ts as [|t ts IH]; intros s Hs; simpl.
  - split; auto. tauto.
  - destruct (IH (ts_insert s (tkey t)) (ts_insert_sorted _ _ Hs)) as (H1 & H2).
    split; auto. intros k. rewrite H2, ts_insert_contains by auto. intuition.
Qed.

Record represents_log (c : constraints) (log : eqlog) : Prop := {
  rl_deps : msorted lt_dofpair (deps c);
  rl_indeps : msorted lt_dofpair (indeps c);
  rl_sorted : dsorted (eqs c);
  rl_dep : forall k, ts_contains (deps c) k = true <-> exists p, In p log /\ edep (snd p) = k;
  rl_ind : forall k, ts_contains (indeps c) k = true <-> exists p, In p log /\ In k (ind_keys (snd p));
  rl_eqs : forall dof, equations c dof = log_of dof log;
  rl_has : forall dof, has_equations c dof = true <-> log_of dof log <> [] }.

Lemma represents_empty : represents_log cons_empty [].
Proof.
  constructor; try (constructor; fail); auto.
  - intros k; split; [discriminate|]. intros (p & [] & _).
  - intros k; split; [discriminate|]. intros (p & [] & _).
  - intros dof; split; [discriminate|]. intros H; exfalso; apply H; auto.
Qed.

Lemma check_equation_none c log e : represents_log c log ->
  check_equation c e = None <-> existsb (fun p => conflicts e (snd p)) log = true.
Proof.
  intros H. unfold check_equation.
  assert (Hex : existsb (fun p => conflicts e (snd p)) log = true <->
    ts_contains (deps c) (edep e) = true \/ ts_contains (indeps c) (edep e) = true \/
    existsb (fun t => ts_contains (deps c) (tkey t)) (eind e) = true).
  { rewrite (rl_dep _ _ H), (rl_ind _ _ H), !existsb_exists. split.
    - intros (p & Hp & Hc). apply conflicts_spec in Hc. destruct Hc as [Hc|[Hc|Hc]].
      + left. exists p. auto.
      + right; left. exists p; auto.
      + right; right. unfold ind_keys in Hc. apply in_map_iff in Hc. destruct Hc as (t & Ht & Hi).
        exists t. split; auto. apply (rl_dep _ _ H). exists p. split; auto.
    - intros [(p & Hp & He)|[(p & Hp & He)|(t & Ht & Hd)]].
      + exists p. split; auto. apply conflicts_spec. auto.
      + exists p. split; auto. apply conflicts_spec. auto.
      + apply (rl_dep _ _ H) in Hd. destruct Hd as (p & Hp & He). exists p. split; auto.
        apply conflicts_spec. right; right. rewrite He. unfold ind_keys. apply in_map. auto. }
  rewrite Hex. destruct (ts_contains (deps c) (edep e)); [intuition|].
  destruct (ts_contains (indeps c) (edep e)); [intuition|].
  destruct (existsb _ (eind e)); [intuition|]. split; [discriminate|]. intuition discriminate.
Qed.

Lemma log_of_app dof l1 l2 : log_of dof (l1 ++ l2) = log_of dof l1 ++ log_of dof l2.
Proof. unfold log_of. rewrite filter_app, map_app. auto. Qed.

Lemma cons_add_refines c log dof e : represents_log c log ->
  represents_log (fst (cons_add c dof e)) (fst (log_add log dof e)) /\
  snd (cons_add c dof e) = snd (log_add log dof e).
Proof.
  intros H. pose proof (check_equation_none c log e H) as Hc.
  unfold cons_add, log_add. destruct (check_equation c e) as [[d i]|] eqn:E.
  - destruct (existsb (fun p => conflicts e (snd p)) log) eqn:Ex.
    { exfalso. destruct Hc as (_ & Hc). specialize (Hc eq_refl). discriminate. }
    split; auto. simpl.
    unfold check_equation in E.
    destruct (ts_contains (deps c) (edep e)); [discriminate|].
    destruct (ts_contains (indeps c) (edep e)); [discriminate|].
    destruct (existsb _ (eind e)); [discriminate|]. injection E as <- <-.
    destruct (ts_insert_all (eind e) (indeps c) (rl_indeps _ _ H)) as (Hi1 & Hi2).
    assert (Hfind : forall dof', mfind lt_dof dof'
        (mset lt_dof dof (match mfind lt_dof dof (eqs c) with Some l => l | None => [] end ++ [e]) (eqs c))
      = if Z.eqb dof' dof then Some (equations c dof ++ [e]) else mfind lt_dof dof' (eqs c)).
    { intros dof'. rewrite dfind_dset by apply (rl_sorted _ _ H). reflexivity. }
    assert (Heqs : forall dof', log_of dof' (log ++ [(dof, e)]) = log_of dof' log ++ (if Z.eqb dof' dof then [e] else [])).
    { intros dof'. rewrite log_of_app. f_equal. unfold log_of. simpl. rewrite Z.eqb_sym.
      destruct (Z.eqb dof' dof); auto. }
    constructor; simpl; auto.
    + apply ts_insert_sorted. apply (rl_deps _ _ H).
    + apply dsorted_mset. apply (rl_sorted _ _ H).
    + intros k. rewrite ts_insert_contains by apply (rl_deps _ _ H). rewrite (rl_dep _ _ H). split.
      * intros [->|(p & Hp & He)].
        -- exists (dof, e). split; auto. apply in_app_iff. simpl; auto.
        -- exists p. split; auto. apply in_app_iff; auto.
      * intros (p & Hp & He). apply in_app_iff in Hp. destruct Hp as [Hp|[<-|[]]]; [right; eauto|left; auto].
    + intros k. rewrite Hi2, (rl_ind _ _ H). split.
      * intros [Hk|(p & Hp & He)].
        -- exists (dof, e). split; auto. apply in_app_iff. simpl; auto.
        -- exists p. split; auto. apply in_app_iff; auto.
      * intros (p & Hp & He). apply in_app_iff in Hp. destruct Hp as [Hp|[<-|[]]]; [right; eauto|left; auto].
    + intros dof'. unfold equations at 1. cbn [eqs]. rewrite Hfind, Heqs.
      destruct (Z.eqb_spec dof' dof) as [->|].
      * rewrite (rl_eqs _ _ H). auto.
      * rewrite app_nil_r, <- (rl_eqs _ _ H). reflexivity.
    + intros dof'. unfold has_equations. cbn [eqs]. rewrite Hfind, Heqs.
      destruct (Z.eqb_spec dof' dof) as [->|].
      * split; auto. intros _ Hn. apply app_eq_nil in Hn. destruct Hn; discriminate.
      * rewrite app_nil_r, <- (rl_has _ _ H). reflexivity.
  - destruct Hc as (Hc & _). rewrite (Hc eq_refl). simpl. auto.
Qed.

Lemma cons_add_loop_refines dof es : forall c log, represents_log c log ->
  represents_log (fst (cons_add_loop c dof es)) (fst (log_add_loop log dof es)) /\
  snd (cons_add_loop c dof es) = snd (log_add_loop log dof es).
Proof.
  induction es as [|e es IH]; intros c log H; cbn [cons_add_loop log_add_loop]; auto.
  destruct (cons_add_refines c log dof e H) as (H1 & H2).
  destruct (cons_add c dof e) as [c' t], (log_add log dof e) as [log' t']. simpl in *. subst t'.
  destruct t; auto.
Qed.

Lemma cons_step_refines c log o : represents_log c log ->
  represents_log (fst (cons_step c o)) (fst (log_step log o)) /\
  snd (cons_step c o) = snd (log_step log o).
Proof.
  intros H. destruct o as [d e|d [|e es]].
  - apply cons_add_refines; auto.
  - simpl; auto.
  - unfold cons_step, log_step, cons_add_many. apply cons_add_loop_refines; auto.
Qed.

Lemma cons_run_refines_from ops : forall c log, represents_log c log ->
  represents_log (cons_run c ops) (fold_left (fun l o => fst (log_step l o)) ops log).
Proof.
  induction ops as [|o ops IH]; intros c log H; simpl; auto.
  apply IH. apply cons_step_refines; auto.
Qed.

Lemma cons_run_refines ops : represents_log (cons_run cons_empty ops) (log_run ops).
Proof. apply cons_run_refines_from. apply represents_empty. Qed.

Lemma constraints_refine_lemma ops :
  (forall dof, equations (cons_run cons_empty ops) dof = log_of dof (log_run ops)) /\
  (forall o, snd (cons_step (cons_run cons_empty ops) o) = snd (log_step (log_run ops) o)) /\
  (forall dof e, snd (cons_step (cons_run cons_empty ops) (AddOne dof e)) = true ->
     fst (cons_step (cons_run cons_empty ops) (AddOne dof e)) = cons_run cons_empty ops).
Proof.
  pose proof (cons_run_refines ops) as H. split; [|split].
  - apply (rl_eqs _ _ H).
  - intros o. apply (cons_step_refines _ _ o H).
  - intros dof e. simpl. unfold cons_add. destruct (check_equation _ _) as [[d i]|]; auto. discriminate.
Qed.

Definition compat (p q : Z * equation) : Prop := conflicts (snd q) (snd p) = false.

Lemma FOP_snoc {A} (P : A -> A -> Prop) l x :
  ForallOrdPairs P l -> (forall y, In y l -> P y x) -> ForallOrdPairs P (l ++ [x]).
Proof.
  induction 1 as [|a l Ha Hl IH]; intros Hx; simpl.
  - constructor; constructor.
  - constructor.
    + apply Forall_app. split; auto. constructor; [|constructor]. apply Hx; simpl; auto.
    + apply IH. intros y Hy. apply Hx; simpl; auto.
Qed.

Lemma log_add_inv log dof e (Q : equation -> Prop) :
  ForallOrdPairs compat log -> (forall p, In p log -> Q (snd p)) -> Q e ->
  ForallOrdPairs compat (fst (log_add log dof e)) /\ (forall p, In p (fst (log_add log dof e)) -> Q (snd p)).
Proof.
  intros H HQ He. unfold log_add. destruct (existsb _ log) eqn:E; simpl; auto. split.
  - apply FOP_snoc; auto. intros p Hp. unfold compat. simpl.
    destruct (conflicts e (snd p)) eqn:Ec; auto.
    assert (existsb (fun p => conflicts e (snd p)) log = true) by (apply existsb_exists; exists p; auto). congruence.
  - intros p Hp. apply in_app_iff in Hp. destruct Hp as [Hp|[<-|[]]]; auto.
Qed.

Lemma log_add_loop_inv dof (Q : equation -> Prop) es : forall log,
  ForallOrdPairs compat log -> (forall p, In p log -> Q (snd p)) -> (forall e, In e es -> Q e) ->
  ForallOrdPairs compat (fst (log_add_loop log dof es)) /\ (forall p, In p (fst (log_add_loop log dof es)) -> Q (snd p)).
Proof.
  induction es as [|e es IH]; intros log H HQ He; cbn [log_add_loop]; auto.
  destruct (log_add_inv log dof e Q H HQ) as (H1 & H2); [apply He; simpl; auto|].
  destruct (log_add log dof e) as [log' t]. simpl in *. destruct t; auto.
Qed.

Lemma log_run_inv (Q : equation -> Prop) ops :
  (forall o e, In o ops -> In e (op_equations o) -> Q e) ->
  ForallOrdPairs compat (log_run ops) /\ (forall p, In p (log_run ops) -> Q (snd p)).
Proof.
  unfold log_run.
  assert (G : forall log, ForallOrdPairs compat log -> (forall p, In p log -> Q (snd p)) ->
     (forall o e, In o ops -> In e (op_equations o) -> Q e) ->
     ForallOrdPairs compat (fold_left (fun l o => fst (log_step l o)) ops log) /\
     (forall p, In p (fold_left (fun l o => fst (log_step l o)) ops log) -> Q (snd p))).
  { induction ops as [|o ops IH]; intros log H HQ HO; simpl; auto.
    assert (S : ForallOrdPairs compat (fst (log_step log o)) /\ (forall p, In p (fst (log_step log o)) -> Q (snd p))).
    { destruct o as [d e|d [|e es]].
      - apply log_add_inv; auto. apply (HO (AddOne d e)); simpl; auto.
      - simpl; auto.
      - unfold log_step. apply log_add_loop_inv; auto. intros e' He'.
        apply (HO (AddMany d (e :: es))); simpl; auto. }
    destruct S as (S1 & S2). apply IH; auto. intros o' e Ho'. apply HO. simpl; auto. }
  intros HO. apply G; auto; [constructor|intros p []].
Qed.

Lemma FOP_pos {A} (P : A -> A -> Prop) l : ForallOrdPairs P l ->
  forall i j x y, i < j -> nth_error l i = Some x -> nth_error l j = Some y -> P x y.
Proof.
  induction 1 as [|a l Ha Hl IH]; intros i j x y Hij Hx Hy.
  - destruct i; discriminate.
  - destruct i as [|i]; destruct j as [|j]; try lia; simpl in *.
    + injection Hx as <-. rewrite Forall_forall in Ha. apply Ha. eapply nth_error_In; eauto.
    + apply (IH i j); auto. lia.
Qed.

(** distinct accepted equations never conflict *)
Lemma accepted_no_conflict ops i j dof dof' e e' : i <> j ->
  nth_error (log_run ops) i = Some (dof, e) -> nth_error (log_run ops) j = Some (dof', e') ->
  edep e <> edep e' /\ ~ In (edep e) (ind_keys e').
Proof.
  intros Hij Hi Hj. destruct (log_run_inv (fun _ => True) ops) as (H & _); auto.
  destruct (Nat.lt_total i j) as [Hl|[Hl|Hl]]; [| lia |].
  - pose proof (FOP_pos _ _ H i j _ _ Hl Hi Hj) as Hc. unfold compat in Hc. simpl in Hc.
    apply conflicts_false in Hc. intuition.
  - pose proof (FOP_pos _ _ H j i _ _ Hl Hj Hi) as Hc. unfold compat in Hc. simpl in Hc.
    apply conflicts_false in Hc. intuition.
Qed.

Lemma accepted_full ops : no_self_reference ops ->
  NoDup (map (fun p => edep (snd p)) (log_run ops)) /\
  (forall p q, In p (log_run ops) -> In q (log_run ops) -> ~ In (edep (snd p)) (ind_keys (snd q))).
Proof.
  intros Hns. destruct (log_run_inv (fun e => ~ In (edep e) (ind_keys e)) ops) as (H & HQ); auto.
  split.
  - clear HQ Hns. induction H as [|a l Ha Hl IH]; simpl; constructor; auto.
    intros Hin. apply in_map_iff in Hin. destruct Hin as (q & He & Hq).
    rewrite Forall_forall in Ha. specialize (Ha q Hq). unfold compat in Ha. apply conflicts_false in Ha. intuition.
  - intros p q Hp Hq. apply In_nth_error in Hp. apply In_nth_error in Hq.
    destruct Hp as (i & Hi), Hq as (j & Hj). destruct (Nat.eq_dec i j) as [->|Hne].
    + rewrite Hi in Hj. injection Hj as <-. apply HQ. eapply nth_error_In; eauto.
    + destruct p as [d e], q as [d' e']. apply (accepted_no_conflict ops i j d d' e e' Hne Hi Hj).
Qed.

(** ** C10 *)
Lemma all_dofs_length size g : length (all_dofs size g) = fold_right Nat.add 0 (map size g).
Proof.
  unfold all_dofs. induction g as [|a g IH]; simpl; auto.
  rewrite app_length, map_length, seq_length, IH. auto.
Qed.

Lemma in_all_dofs size g a c : In (a, c) (all_dofs size g) <-> In a g /\ (0 <= c < Z.of_nat (size a))%Z.
Proof.
  unfold all_dofs. rewrite in_flat_map. split.
  - intros (x & Hx & Hi). apply in_map_iff in Hi. destruct Hi as (n & He & Hn). injection He as <- <-.
    apply in_seq in Hn. split; auto. lia.
  - intros (Ha & Hc). exists a. split; auto. apply in_map_iff. exists (Z.to_nat c).
    rewrite Z2Nat.id by lia. split; auto. apply in_seq. lia.
Qed.

Lemma all_dofs_NoDup size g : NoDup g -> NoDup (all_dofs size g).
Proof.
  induction g as [|a g IH]; intros H; [constructor|]. inversion H; subst.
  change (all_dofs size (a :: g)) with (@map nat dofkey (fun c => (a, Z.of_nat c)) (seq 0 (size a)) ++ all_dofs size g).
  assert (Hd : forall (l m : list dofkey), NoDup l -> NoDup m -> (forall x, In x l -> ~ In x m) -> NoDup (l ++ m)).
  { clear. induction l as [|x l IHl]; intros m Hl Hm Hx; simpl; auto. inversion Hl; subst. constructor.
    - rewrite in_app_iff. intros [Hi|Hi]; auto. apply (Hx x); simpl; auto.
    - apply IHl; auto. intros y Hy. apply Hx; simpl; auto. }
  apply Hd; auto.
  - apply FinFun.Injective_map_NoDup; [|apply seq_NoDup]. intros x y E. injection E. lia.
  - intros [x c] Hx Hy. apply in_map_iff in Hx. destruct Hx as (n & E & _). injection E as <- <-.
    apply in_all_dofs in Hy. tauto.
Qed.

Lemma seq_from k n : seq k n = map (fun c => k + c) (seq 0 n).
Proof.
  revert k; induction n as [|n IH]; intros k; simpl; auto. f_equal; [lia|].
  rewrite IH, <- seq_shift, map_map. apply map_ext. intros; lia.
Qed.

Lemma initial_numbering_spec g : forall h k, NoDup g ->
  let '(h', n) := initial_numbering h g k in
  n = k + fold_right Nat.add 0 (map (fun a => length (h a)) g) /\
  (forall a, ~ In a g -> h' a = h a) /\
  (forall a, length (h' a) = length (h a)) /\
  map (dof_number h') (all_dofs (fun a => length (h a)) g) =
    map (fun i => Ok (Z.of_nat i)) (seq k (fold_right Nat.add 0 (map (fun a => length (h a)) g))).
Proof.
  induction g as [|a g IH]; intros h k Hnd; cbn [initial_numbering].
  - simpl. repeat split; auto; lia.
  - inversion Hnd as [|? ? Hni Hnd']; subst.
    set (h1 := upd h a (map Z.of_nat (seq k (length (h a))))).
    assert (Hlen : forall x, length (h1 x) = length (h x)).
    { intros x. unfold h1, upd. destruct (Z.eqb_spec x a) as [->|]; auto. rewrite map_length, seq_length. auto. }
    specialize (IH h1 (k + length (h a)) Hnd').
    destruct (initial_numbering h1 g (k + length (h a))) as [h' n].
    destruct IH as (Hn & Hout & Hl & Hnum).
    assert (Hmap : map (fun a => length (h1 a)) g = map (fun a => length (h a)) g) by (apply map_ext; auto).
    assert (Had : all_dofs (fun a => length (h1 a)) g = all_dofs (fun a => length (h a)) g).
    { unfold all_dofs. clear -Hlen. induction g as [|x g IHg]; simpl; auto. rewrite Hlen, IHg. auto. }
    rewrite Hmap in Hn, Hnum. rewrite Had in Hnum. split; [|split; [|split]].
    + simpl. lia.
    + intros x Hx. rewrite Hout by (intros Hi; apply Hx; simpl; auto). unfold h1, upd.
      destruct (Z.eqb_spec x a) as [->|]; auto. exfalso; apply Hx; simpl; auto.
    + intros x. rewrite Hl, Hlen. auto.
    + change (all_dofs (fun a => length (h a)) (a :: g)) with
        (@map nat dofkey (fun c => (a, Z.of_nat c)) (seq 0 (length (h a))) ++ all_dofs (fun a => length (h a)) g).
      cbn [map fold_right]. rewrite seq_app, !map_app. f_equal; [|exact Hnum].
      rewrite (seq_from k), !map_map. apply map_ext_in. intros c Hc. apply in_seq in Hc.
      assert (Ha : h' a = map Z.of_nat (seq k (length (h a)))).
      { rewrite Hout by auto. unfold h1, upd. rewrite Z.eqb_refl. auto. }
      unfold dof_number. cbn [fst snd]. destruct (Z.ltb_spec (Z.of_nat c) 0); [lia|]. rewrite Ha, Nat2Z.id.
      rewrite nth_error_map, (nth_error_nth' (seq k (length (h a))) 0) by (rewrite seq_length; lia).
      simpl. rewrite seq_nth by lia. auto.
Qed.

Lemma any_missing_spec g l : group_ok g ->
  (any_missing g l = Some false /\ forall k, In k l -> In (fst k) (mData g)) \/
  (any_missing g l = Some true /\ exists k, In k l /\ ~ In (fst k) (mData g)).
Proof.
  intros Hg. induction l as [|k l IH]; simpl.
  - left. split; auto. intros k [].
  - destruct (group_contains_spec g (fst k) Hg) as (b & -> & Hb). destruct b.
    + destruct IH as [(-> & H)|(-> & k' & H & H')].
      * left. split; auto. intros k' [<-|Hk]; auto. apply Hb; auto.
      * right. split; auto. exists k'. auto.
    + right. split; auto. exists k. split; auto. intros Hi. apply Hb in Hi. discriminate.
Qed.

Definition mentions (c : constraints) (dof : Z) (k : dofkey) : Prop :=
  exists e, In e (equations c dof) /\ (k = edep e \/ In k (ind_keys e)).

Lemma mentions_flat c dof k : mentions c dof k <-> In k (flat_map equation_keys (equations c dof)).
Proof.
  unfold mentions. rewrite in_flat_map. unfold equation_keys, ind_keys. simpl. 
  split; intros (e & He & Hk); exists e; intuition.
Qed.

Lemma build_numbering_lemma h g dof c : group_ok g ->
  let size a := length (h a) in
  let N := length (all_dofs size (mData g)) in
  ((exists k, mentions c dof k /\ ~ In (fst k) (mData g)) /\ build_numbering h g dof c = Throw) \/
  ((forall k, mentions c dof k -> In (fst k) (mData g)) /\
   exists h' numInd numDep, build_numbering h g dof c = Ok (h', numInd, numDep) /\
     map (dof_number h') (all_dofs size (mData g)) = map (fun i => Ok (Z.of_nat i)) (seq 0 N) /\
     numDep = Z.of_nat (length (equations c dof)) /\ (numInd + numDep = Z.of_nat N)%Z /\
     (forall a, length (h' a) = size a) /\ (forall a, ~ In a (mData g) -> h' a = h a)).
Proof.
  intros Hg. cbn zeta. unfold build_numbering, build_call.
  destruct (any_missing_spec g (flat_map equation_keys (equations c dof)) Hg) as [(-> & H)|(-> & k & Hk & Hn)].
  - right. split; [intros k Hk; apply H; apply mentions_flat; auto|].
    assert (Hnd : NoDup (mData g)) by apply Hg.
    pose proof (initial_numbering_spec (mData g) h 0 Hnd) as Hs.
    destruct (initial_numbering h (mData g) 0) as [h' n]. destruct Hs as (Hn & Hout & Hl & Hm).
    eexists _, _, _. split; [reflexivity|]. cbn [fst snd]. rewrite all_dofs_length. simpl in Hn, Hm.
    unfold num_equations. repeat split; auto. lia.
  - left. split; auto. exists k. split; auto. apply mentions_flat; auto.
Qed.

Lemma build_call_throws h g dof c : group_ok g ->
  (exists k, mentions c dof k /\ ~ In (fst k) (mData g)) -> build_call h g dof c = (h, Throw).
Proof.
  intros Hg (k & Hm & Hn). unfold build_call.
  destruct (any_missing_spec g (flat_map equation_keys (equations c dof)) Hg) as [(-> & H)|(-> & _)]; [|reflexivity].
  exfalso. apply Hn, H, mentions_flat, Hm.
Qed.
Lemma build_call_returns h g dof c : group_ok g ->
  (forall k, mentions c dof k -> In (fst k) (mData g)) ->
  exists h' numInd numDep, build_call h g dof c = (h', Ok (numInd, numDep)) /\ build_numbering h g dof c = Ok (h', numInd, numDep).
Proof.
  intros Hg H. unfold build_numbering, build_call.
  destruct (any_missing_spec g (flat_map equation_keys (equations c dof)) Hg) as [(-> & _)|(-> & k & Hk & Hn)].
  - destruct (initial_numbering h (mData g) 0) as [h' n]. eexists _, _, _. split; reflexivity.
  - exfalso. apply Hn, H, mentions_flat, Hk.
Qed.

(** ** C11 *)
Definition c11_nodes : nodes := fun a => if Z.eqb a 1 then [-1]%Z else if Z.eqb a 2 then [-1]%Z else [].
Definition c11_group : group := mkGroup [1; 2]%Z [1; 2]%Z.
Definition c11_cons : constraints := fst (cons_add cons_empty 0 (mkEq (1, 0)%Z [] (fun _ => 0%R))).

(** ** C14 *)
Lemma dependent_numbers_ok h N num es :
  (forall e, In e es -> dof_number h (edep e) = Ok (Z.of_nat (num (edep e))) /\ num (edep e) < N) ->
  dependent_numbers h N es = Ok (map (fun e => num (edep e)) es).
Proof.
  induction es as [|e es IH]; intros H; cbn [dependent_numbers map]; auto.
  destruct (H e) as (-> & Hlt); [simpl; auto|]. cbn [obind].
  destruct (Z.eqb_spec (Z.of_nat (num (edep e))) (-1)); [lia|].
  destruct (Z.leb_spec (Z.of_nat N) (Z.of_nat (num (edep e)))); [lia|].
  destruct (Z.ltb_spec (Z.of_nat (num (edep e))) 0); [lia|].
  rewrite IH by (intros; apply H; simpl; auto). simpl. rewrite Nat2Z.id. auto.
Qed.

Lemma mem_nat_spec n l : mem_nat n l = true <-> In n l.
Proof.
  unfold mem_nat. rewrite existsb_exists. split.
  - intros (x & Hx & E). apply Nat.eqb_eq in E. congruence.
  - intros H. exists n. split; auto. apply Nat.eqb_refl.
Qed.

Lemma filter_partition {A} (f : A -> bool) l : Permutation l (filter f l ++ filter (fun x => negb (f x)) l).
Proof.
  induction l as [|a l IH]; simpl; auto. destruct (f a); simpl.
  - constructor; auto.
  - apply Permutation_cons_app. auto.
Qed.

Lemma jk_perm N dep : NoDup dep -> (forall d, In d dep -> d < N) ->
  Permutation (seq 0 N) (filter (fun i => negb (mem_nat i dep)) (seq 0 N) ++ dep).
Proof.
  intros Hnd Hlt. rewrite (filter_partition (fun i => negb (mem_nat i dep)) (seq 0 N)) at 1.
  apply Permutation_app_head. apply NoDup_Permutation; auto.
  - apply NoDup_filter. apply seq_NoDup.
  - intros x. rewrite filter_In, in_seq, negb_involutive, mem_nat_spec. split; [tauto|].
    intros H. split; auto. specialize (Hlt x H). lia.
Qed.

Definition free_dofs (N : nat) (dep : list nat) : list nat := filter (fun i => negb (mem_nat i dep)) (seq 0 N).

Lemma jk_numbering_ok h N es num :
  (forall e, In e es -> dof_number h (edep e) = Ok (Z.of_nat (num (edep e))) /\ num (edep e) < N) ->
  NoDup (map (fun e => num (edep e)) es) ->
  let dep := map (fun e => num (edep e)) es in
  jk_numbering h N es = Ok (free_dofs N dep ++ dep) /\
  Permutation (seq 0 N) (free_dofs N dep ++ dep) /\ length (free_dofs N dep) = N - length es /\ length es <= N.
Proof.
  intros H Hnd dep.
  assert (Hp : Permutation (seq 0 N) (free_dofs N dep ++ dep)).
  { apply jk_perm; auto. intros d Hd. apply in_map_iff in Hd. destruct Hd as (e & <- & He). apply H; auto. }
  assert (Hl : length (free_dofs N dep) + length es = N).
  { apply Permutation_length in Hp. rewrite app_length, seq_length in Hp. unfold dep in Hp at 2.
    rewrite map_length in Hp. lia. }
  split; [|split; [|split]]; auto; try lia.
  unfold jk_numbering. destruct (Nat.ltb_spec N (length es)); [lia|].
  rewrite (dependent_numbers_ok h N num es H). cbn [obind]. fold dep. unfold free_dofs in *.
  destruct (Nat.eqb_spec (length (filter (fun i => negb (mem_nat i dep)) (seq 0 N))) (N - length es)); auto. lia.
Qed.

Lemma dependent_numbers_throw h N es :
  (forall e, In e es -> exists n, dof_number h (edep e) = Ok n /\ (-1 <= n)%Z) ->
  (exists e n, In e es /\ dof_number h (edep e) = Ok n /\ (n = -1 \/ Z.of_nat N <= n)%Z) ->
  dependent_numbers h N es = Throw.
Proof.
  induction es as [|e es IH]; intros Hall (e0 & n0 & He0 & Hn0 & Hbad); [destruct He0|].
  cbn [dependent_numbers]. destruct (Hall e (or_introl eq_refl)) as (n & Hn & Hge). rewrite Hn. cbn [obind].
  destruct (Z.eqb_spec n (-1)); auto. destruct (Z.leb_spec (Z.of_nat N) n); auto.
  destruct (Z.ltb_spec n 0); [lia|]. destruct He0 as [->|He0].
  - rewrite Hn in Hn0. injection Hn0 as ->. lia.
  - rewrite IH; auto.
    + intros e' He'. apply Hall; simpl; auto.
    + exists e0, n0. auto.
Qed.

Lemma jk_throw_lemma h N es : length es <= N ->
  (forall e, In e es -> exists n, dof_number h (edep e) = Ok n /\ (-1 <= n)%Z) ->
  (exists e n, In e es /\ dof_number h (edep e) = Ok n /\ (n = -1 \/ Z.of_nat N <= n)%Z) ->
  jk_numbering h N es = Throw.
Proof.
  intros Hl H1 H2. unfold jk_numbering. destruct (Nat.ltb_spec N (length es)); [lia|].
  rewrite (dependent_numbers_throw h N es H1 H2). auto.
Qed.
