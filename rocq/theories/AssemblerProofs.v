(** * Proofs for C17, C18 *)
From Coq Require Import List ZArith Arith Bool Lia Ring Sorted Permutation.
From Verif Require Import Algebra Outcome DofModel DofSpec DofProofs AssemblerModel AssemblerSpec.
Import ListNotations.

(** ** the parallel region *)
Section Par.
  Context {C L G I : Type} (step : L -> C -> outcome L) (merge : G -> L -> outcome G).
  Variable M : CRing.
  Add Ring Mring : (r_theory M).
  Local Open Scope cring_scope.
  Variables (PL : L -> Prop) (PG : G -> Prop) (good : C -> Prop).
  Variables (phi : L -> I -> M) (psi : G -> I -> M) (contr : C -> I -> M).
  Hypothesis step_ok : forall l c, PL l -> good c ->
    exists l', step l c = Ok l' /\ PL l' /\ forall i, phi l' i = phi l i + contr c i.
  Hypothesis merge_ok : forall g l, PG g -> PL l ->
    exists g', merge g l = Ok g' /\ PG g' /\ forall i, psi g' i = psi g i + phi l i.

  Definition ophi (o : option L) (i : I) : M := match o with Some l => phi l i | None => 0 end.
  Definition oPL (o : option L) : Prop := match o with Some l => PL l | None => True end.

  Lemma nth_error_split {A} (l : list A) : forall i x, nth_error l i = Some x ->
    exists l1 l2, l = l1 ++ x :: l2 /\ forall y, set_nth i y l = l1 ++ y :: l2.
  Proof.
    induction l as [|a l IH]; intros [|i] x H; simpl in H; try discriminate.
    - injection H as ->. exists [], l. auto.
    - destruct (IH _ _ H) as (l1 & l2 & -> & Hs). exists (a :: l1), l2. split; auto.
      intros y. simpl. rewrite Hs. reflexivity.
  Qed.

  Definition total (s : pstate C L G) (i : I) : M :=
    psi (glob s) i + sum_over (pool s) (fun c => contr c i) + sum_over (locals s) (fun o => ophi o i).

  Definition pinv (s : pstate C L G) : Prop := PG (glob s) /\ Forall good (pool s) /\ Forall oPL (locals s).

  Lemma pstep_inv s r : pstep step merge s r -> pinv s -> exists s', r = Ok s' /\ pinv s' /\ forall i, total s' i = total s i.
  Proof.
    intros H (HG & Hp & Hl). destruct H as [p1 c p2 ls g i l Hi|p ls g i l Hi]; simpl in *;
      destruct (nth_error_split _ _ _ Hi) as (l1 & l2 & -> & Hs);
      apply Forall_app in Hl; destruct Hl as (Hl1 & Hl2); apply Forall_cons_iff in Hl2; destruct Hl2 as (HPl & Hl2).
    - apply Forall_app in Hp. destruct Hp as (Hp1 & Hp2). apply Forall_cons_iff in Hp2. destruct Hp2 as (Hc & Hp2).
      destruct (step_ok l c HPl Hc) as (l' & E & HPl' & Hphi). rewrite E. simpl. eexists. split; [reflexivity|]. split.
      + split; [auto|]. simpl. rewrite Hs. split; apply Forall_app; auto.
      + intros k. unfold total. simpl. rewrite Hs, !sum_over_app, !sum_over_cons. simpl. rewrite Hphi. ring.
    - destruct (merge_ok g l HG HPl) as (g' & E & HG' & Hpsi). rewrite E. simpl. eexists. split; [reflexivity|]. split.
      + split; [auto|]. simpl. rewrite Hs. split; auto. apply Forall_app. split; auto. constructor; simpl; auto.
      + intros k. unfold total. simpl. rewrite Hs, !sum_over_app, !sum_over_cons. simpl. rewrite Hpsi. ring.
  Qed.

  Lemma pexec_total s r : pexec step merge s r -> pinv s -> exists g, r = Ok g /\ PG g /\ forall i, psi g i = total s i.
  Proof.
    induction 1 as [ls g Hn|s s' r Hs He IH|s Hs|s Hs]; intros Hinv.
    - exists g. split; auto. split; [apply Hinv|]. intros i. unfold total. simpl. rewrite sum_over_nil.
      rewrite sum_over_zero; [ring|]. intros o Ho. rewrite Forall_forall in Hn. rewrite (Hn o Ho). reflexivity.
    - destruct (pstep_inv _ _ Hs Hinv) as (s'' & E & Hinv' & Ht). injection E as <-.
      destruct (IH Hinv') as (g & -> & HG & Hpsi). exists g. split; auto. split; auto. intros i. rewrite Hpsi. auto.
    - destruct (pstep_inv _ _ Hs Hinv) as (s'' & E & _). discriminate.
    - destruct (pstep_inv _ _ Hs Hinv) as (s'' & E & _). discriminate.
  Qed.

  Lemma commit_all rest : forall k g, PG g -> Forall PL rest ->
    exists g', pexec step merge (mkP [] (repeat None k ++ map Some rest) g) (Ok g').
  Proof.
    induction rest as [|l rest IH]; intros k g HG HP.
    - exists g. simpl. rewrite app_nil_r. constructor. apply Forall_forall. intros x Hx. apply repeat_spec in Hx. auto.
    - apply Forall_cons_iff in HP. destruct HP as (Hl & Hrest).
      destruct (merge_ok g l HG Hl) as (g1 & E & HG1 & _).
      destruct (IH (S k) g1 HG1 Hrest) as (g' & He). exists g'.
      eapply PStep; [|exact He].
      replace (Ok (mkP [] (repeat None (S k) ++ map Some rest) g1)) with
        (omap (fun g' => mkP (C := C) [] (set_nth k None (repeat None k ++ map Some (l :: rest))) g') (merge g l)).
      + apply PCommit. rewrite nth_error_app2; rewrite repeat_length; [|lia]. rewrite Nat.sub_diag. reflexivity.
      + rewrite E. simpl. do 2 f_equal.
        clear. induction k; simpl; [reflexivity|]. rewrite IHk. reflexivity.
  Qed.

  Lemma pexec_exists cells : forall l rest g, PG g -> PL l -> Forall PL rest -> Forall good cells ->
    exists g', pexec step merge (mkP cells (map Some (l :: rest)) g) (Ok g').
  Proof.
    induction cells as [|c cells IH]; intros l rest g HG Hl Hr Hc.
    - apply (commit_all (l :: rest) 0 g); auto.
    - apply Forall_cons_iff in Hc. destruct Hc as (Hc & Hcs).
      destruct (step_ok l c Hl Hc) as (l' & E & Hl' & _).
      destruct (IH l' rest g HG Hl' Hr Hcs) as (g' & He). exists g'. eapply PStep; [|exact He].
      replace (Ok (mkP cells (map Some (l' :: rest)) g)) with
        (omap (fun l' => mkP ([] ++ cells) (set_nth 0 (Some l') (map Some (l :: rest))) g) (step l c)).
      + apply (PTake step merge [] c cells). reflexivity.
      + rewrite E. reflexivity.
  Qed.

  Lemma parallel_lemma threads l0 g0 cells : (0 < threads)%nat -> PL l0 -> PG g0 -> Forall good cells ->
    (forall i, phi l0 i = 0) ->
    (exists g, parallel step merge threads l0 g0 cells (Ok g)) /\
    forall r, parallel step merge threads l0 g0 cells r ->
      exists g, r = Ok g /\ PG g /\ forall i, psi g i = psi g0 i + sum_over cells (fun c => contr c i).
  Proof.
    intros Ht Hl Hg Hc H0. split.
    - destruct threads as [|t]; [lia|]. unfold parallel.
      assert (E : repeat (Some l0) (S t) = map Some (l0 :: repeat l0 t)) by (simpl; f_equal; clear; induction t; simpl; congruence).
      rewrite E. apply pexec_exists; auto. apply Forall_forall. intros x Hx. apply repeat_spec in Hx. subst. auto.
    - intros r Hr. destruct (pexec_total _ _ Hr) as (g & -> & HG & Hpsi).
      + split; [auto|]. split; [auto|]. simpl. apply Forall_forall. intros x Hx. apply repeat_spec in Hx. subst. auto.
      + exists g. split; auto. split; auto. intros i. rewrite Hpsi. unfold total. simpl.
        rewrite (sum_over_zero _ (repeat (Some l0) threads)); [ring|].
        intros o Ho. apply repeat_spec in Ho. subst. simpl. auto.
  Qed.
End Par.

(** ** scatter *)
Section Scatter.
  Context {F : CRing}.
  Add Ring Fring : (r_theory F).
  Local Open Scope cring_scope.

  Lemma sum_n_front n (f : nat -> F) : sum_n (S n) f = f 0%nat + sum_n n (fun i => f (S i)).
  Proof. change (S n) with (1 + n)%nat. rewrite sum_n_plus, sum_n_S, sum_n_0. simpl. ring. Qed.

  Lemma contrib_nil (x : vec F) n : contrib [] x n = 0. Proof. reflexivity. Qed.
  Lemma contrib_cons k ks a (x : vec F) n :
    contrib (k :: ks) (a :: x) n = (if Z.eqb k (Z.of_nat n) then a else 0) + contrib ks x n.
  Proof. unfold contrib. simpl length. rewrite sum_n_front. simpl. reflexivity. Qed.

  Lemma set_nth_length {A} i (x : A) l : length (set_nth i x l) = length l.
  Proof. revert i. induction l as [|a l IH]; intros [|i]; simpl; auto. Qed.
  Lemma nth_set_nth i (x : F) (l : vec F) j : (i < length l)%nat ->
    nth j (set_nth i x l) 0 = if Nat.eqb i j then x else nth j l 0.
  Proof.
    revert i j. induction l as [|a l IH]; intros [|i] [|j] H; simpl in *; try lia; auto.
    apply IH. lia.
  Qed.

  Lemma scatter_ok nums : forall (v x : vec F), numbers_below nums (length v) -> (length nums <= length x)%nat ->
    exists v', scatter v nums x = Ok v' /\ length v' = length v /\
      forall n, nth n v' 0 = nth n v 0 + contrib nums x n.
  Proof.
    induction nums as [|k ks IH]; intros v x Hb Hx; simpl.
    - exists v. split; auto. split; auto. intros. rewrite contrib_nil. ring.
    - destruct x as [|a x]; [simpl in Hx; lia|]. apply Forall_cons_iff in Hb. destruct Hb as (Hk & Hks).
      unfold vec_add_at. replace (Z.leb 0 k) with true by (symmetry; apply Z.leb_le; lia).
      replace (Z.ltb k (Z.of_nat (length v))) with true by (symmetry; apply Z.ltb_lt; lia). simpl.
      destruct (IH (set_nth (Z.to_nat k) (nth (Z.to_nat k) v 0 + a) v) x) as (v' & E & Hl & Hn).
      + rewrite set_nth_length. auto.
      + simpl in Hx. lia.
      + exists v'. split; auto. split; [rewrite Hl; apply set_nth_length|].
        intros n. rewrite Hn, contrib_cons, nth_set_nth by lia.
        destruct (Nat.eqb_spec (Z.to_nat k) n) as [<-|Hne].
        * replace (Z.eqb k (Z.of_nat (Z.to_nat k))) with true by (symmetry; apply Z.eqb_eq; lia). ring.
        * replace (Z.eqb k (Z.of_nat n)) with false by (symmetry; apply Z.eqb_neq; lia). ring.
  Qed.

  Lemma mem_existsb d l : existsb (Z.eqb d) l = true <-> In d l.
  Proof.
    rewrite existsb_exists. split.
    - intros (x & Hx & E). apply Z.eqb_eq in E. subst. auto.
    - intros H. exists d. split; auto. apply Z.eqb_refl.
  Qed.

  Lemma dof_intersection_filter one two : NoDup two ->
    dof_intersection one two = filter (fun d => existsb (Z.eqb d) two) one.
  Proof.
    intros Hnd. induction one as [|d one IH]; simpl; [reflexivity|]. rewrite IH.
    assert (E : map (fun _ => d) (filter (Z.eqb d) two) = if existsb (Z.eqb d) two then [d] else []).
    { clear IH. induction two as [|y two IH2]; simpl; [reflexivity|]. inversion Hnd; subst.
      destruct (Z.eqb_spec d y) as [->|Hne]; simpl.
      - rewrite IH2 by auto. replace (existsb (Z.eqb y) two) with false; [reflexivity|].
        symmetry. destruct (existsb (Z.eqb y) two) eqn:E; auto. apply mem_existsb in E. tauto.
      - rewrite IH2 by auto. reflexivity. }
    rewrite E. destruct (existsb (Z.eqb d) two); reflexivity.
  Qed.

  Lemma ascending_NoDup {B} (v : list (Z * B)) : ascending v -> NoDup (map fst v).
  Proof.
    unfold ascending. induction 1 as [|a l Hl IH Hf]; constructor; auto.
    intros Hin. rewrite Forall_forall in Hf. specialize (Hf _ Hin). lia.
  Qed.

  Lemma in_bv_keys {B} (v : list (Z * B)) d : ascending v ->
    (In d (bv_keys v) <-> exists x, mfind lt_dof d v = Some x).
  Proof.
    intros H. apply dsorted_ascending in H. unfold bv_keys.
    rewrite (mfind_key lt_dof ltdof_irrefl ltdof_trans ltdof_total d v H).
    destruct (mfind lt_dof d v); split; [eauto|congruence|congruence|intros (x & E); discriminate].
  Qed.

  Lemma scatter_dofs_ok num (x : dofvec F) dofs : forall v, NoDup dofs -> ascending v ->
    (forall d, In d dofs -> exists xd n, mfind lt_dof d x = Some xd /\ (length (num d) <= length xd)%nat /\
       size_of v d = Some n /\ numbers_below (num d) n) ->
    exists v', scatter_dofs num x dofs v = Ok v' /\ ascending v' /\ (forall d, size_of v' d = size_of v d) /\
      forall d n, val v' d n = val v d n +
        (if existsb (Z.eqb d) dofs then match mfind lt_dof d x with Some xd => contrib (num d) xd n | None => 0 end else 0).
  Proof.
    induction dofs as [|d dofs IH]; intros v Hnd Hv Hd; cbn [scatter_dofs].
    - exists v. repeat split; auto. intros. simpl. ring.
    - inversion Hnd as [|? ? Hni Hnd']; subst.
      destruct (Hd d (or_introl eq_refl)) as (xd & n & Ex & Hlen & Hs & Hb). rewrite Ex.
      destruct (Nat.eqb_spec (length (num d)) 0) as [Hz|Hz].
      { destruct (IH v Hnd' Hv) as (v' & E' & Ha & Hsz & Hval); [intros; apply Hd; right; auto|].
        exists v'. repeat split; auto. intros d0 m. rewrite Hval. f_equal. simpl.
        destruct (Z.eqb_spec d0 d) as [->|Hne]; simpl; [|reflexivity].
        rewrite Ex. destruct (num d); [|discriminate]. rewrite contrib_nil. destruct (existsb _ _); auto. }
      unfold dc_index, size_of in *. destruct (mfind lt_dof d v) as [vd|] eqn:Ev; [|discriminate].
      simpl in Hs. injection Hs as <-.
      destruct (scatter_ok (num d) vd xd Hb Hlen) as (vd' & E & Hl & Hn). rewrite E. cbn [obind].
      assert (Hdv : dsorted v) by (apply dsorted_ascending; auto).
      destruct (IH (mset lt_dof d vd' v)) as (v' & E' & Ha & Hsz & Hval); auto.
      + apply dsorted_ascending. apply dsorted_mset. auto.
      + intros d' Hd'. destruct (Hd d' (or_intror Hd')) as (xd' & n' & ? & ? & Hs' & ?).
        exists xd', n'. repeat split; auto. rewrite dfind_dset by auto.
        destruct (Z.eqb_spec d' d); [subst; tauto|]. auto.
      + exists v'. split; auto. split; auto. split.
        * intros d'. rewrite Hsz. rewrite dfind_dset by auto.
          destruct (Z.eqb_spec d' d) as [->|]; [|reflexivity]. rewrite Ev. simpl. congruence.
        * intros d0 m. rewrite Hval. unfold val. rewrite dfind_dset by auto. simpl.
          destruct (Z.eqb_spec d0 d) as [->|Hne]; simpl.
          -- rewrite Ev, Ex, Hn.
             replace (existsb (Z.eqb d) dofs) with false; [ring|].
             symmetry. destruct (existsb (Z.eqb d) dofs) eqn:E2; auto. apply mem_existsb in E2. tauto.
          -- reflexivity.
  Qed.

  (** ** ProperlyResizedVector *)
  Lemma info_size_known info dofTypes N d : sizes_known info dofTypes N -> In d dofTypes -> info_size info d = Ok (N d).
  Proof.
    intros H Hd. destruct (H d Hd) as (a & b & Ea & Eb & Hp & ->). unfold info_size. rewrite Ea, Eb.
    replace (Z.leb 0 (a + b)) with true by (symmetry; apply Z.leb_le; lia). reflexivity.
  Qed.

  Lemma properly_resized_ok info N dofs : sizes_known info dofs N -> forall v : dofvec F, ascending v ->
    exists v', properly_resized info dofs v = Ok v' /\ ascending v' /\
      (forall d, size_of v' d = if existsb (Z.eqb d) dofs then Some (N d) else size_of v d) /\
      (forall d n, val v' d n = if existsb (Z.eqb d) dofs then 0 else val v d n).
  Proof.
    induction dofs as [|d dofs IH]; intros Hk v Hv; simpl.
    - exists v. auto.
    - rewrite (info_size_known info (d :: dofs) N d Hk) by (left; auto). simpl.
      assert (Hdv : dsorted v) by (apply dsorted_ascending; auto).
      destruct (IH (fun d' H => Hk d' (or_intror H)) (mset lt_dof d (repeat 0 (N d)) v)) as (v' & E & Ha & Hs & Hval).
      { apply dsorted_ascending, dsorted_mset; auto. }
      exists v'. split; auto. split; auto. split.
      + intros d'. rewrite Hs. unfold size_of. rewrite dfind_dset by auto.
        destruct (Z.eqb_spec d' d) as [->|]; simpl; [|reflexivity].
        rewrite repeat_length. destruct (existsb _ _); reflexivity.
      + intros d' n. rewrite Hval. unfold val. rewrite dfind_dset by auto.
        destruct (Z.eqb_spec d' d) as [->|]; simpl; [|reflexivity].
        destruct (existsb _ _); auto. apply nth_repeat.
  Qed.

  Lemma missing_numbering_spec info dofs : missing_numbering info dofs = true <->
    exists d, In d dofs /\ mfind lt_dof d (numIndependent info) = None.
  Proof.
    unfold missing_numbering. rewrite existsb_exists. split; intros (d & Hd & H); exists d; split; auto;
      destruct (mfind lt_dof d (numIndependent info)); congruence.
  Qed.

  Lemma sizes_known_not_missing info dofs N : sizes_known info dofs N -> missing_numbering info dofs = false.
  Proof.
    intros H. destruct (missing_numbering info dofs) eqn:E; auto. apply missing_numbering_spec in E.
    destruct E as (d & Hd & E). destruct (H d Hd) as (a & b & Ea & _). congruence.
  Qed.

  Lemma merge_vec_ok (zero g l : dofvec F) :
    ascending g /\ (forall d, size_of g d = size_of zero d) ->
    ascending l /\ (forall d, size_of l d = size_of zero d) ->
    exists g', of_option (dv_add g l) = Ok g' /\ (ascending g' /\ (forall d, size_of g' d = size_of zero d)) /\
      forall i : Z * nat, val g' (fst i) (snd i) = val g (fst i) (snd i) + val l (fst i) (snd i).
  Proof.
    intros (Ha & Hs) (Ha' & Hs').
    destruct (dv_add_lemma g l Ha Ha') as (c & E & Hc & Hsz & Hv).
    - intros d x y Ex Ey. specialize (Hs d). specialize (Hs' d). unfold size_of in *.
      rewrite Ex in Hs. rewrite Ey in Hs'. simpl in *. congruence.
    - exists c. rewrite E. simpl. split; auto. split; [split; auto|intros; apply Hv].
      intros d. rewrite Hsz, Hs, Hs'. destruct (size_of zero d); reflexivity.
  Qed.

  (** ** BuildVector *)
  Lemma build_vector_lemma info threads cells dofTypes N :
    NoDup dofTypes -> (0 < threads)%nat -> sizes_known info dofTypes N -> Forall (vcell_fits dofTypes N) cells ->
    (exists g, build_vector (F := F) info threads cells dofTypes (Ok g)) /\
    forall r, build_vector info threads cells dofTypes r ->
      exists g, r = Ok g /\ ascending g /\
        (forall d, size_of g d = if existsb (Z.eqb d) dofTypes then Some (N d) else None) /\
        (forall d n, In d dofTypes -> val g d n = sum_over cells (fun c => vcell_contrib c d n)).
  Proof.
    intros Hnd Ht Hk Hc. unfold build_vector. rewrite (sizes_known_not_missing info dofTypes N Hk).
    destruct (properly_resized_ok info N dofTypes Hk [] (SSorted_nil _)) as (zero & -> & Ha & Hs & Hv).
    set (PL := fun l : dofvec F => ascending l /\ forall d, size_of l d = size_of zero d).
    assert (HP : PL zero) by (split; auto).
    destruct (parallel_lemma (vector_cell dofTypes) (fun g l => of_option (dv_add g l)) F PL PL (vcell_fits dofTypes N)
      (fun l (i : Z * nat) => val l (fst i) (snd i)) (fun l i => val l (fst i) (snd i))
      (fun c i => if existsb (Z.eqb (fst i)) dofTypes then vcell_contrib c (fst i) (snd i) else 0)) with
      (threads := threads) (l0 := zero) (g0 := zero) (cells := cells) as (Hex & Hall); auto.
    - intros l c (Hla & Hls) (Hca & Hcf). unfold vector_cell. rewrite dof_intersection_filter by auto.
      destruct (scatter_dofs_ok (vc_num c) (vc_val c)
        (filter (fun d => existsb (Z.eqb d) dofTypes) (bv_keys (vc_val c))) l) as (l' & E & Ha' & Hs' & Hv').
      + apply NoDup_filter. apply ascending_NoDup. auto.
      + auto.
      + intros d Hd. apply filter_In in Hd. destruct Hd as (Hd & Hin). pose proof Hin as Hin'. apply mem_existsb in Hin.
        apply in_bv_keys in Hd; auto. destruct Hd as (x & Ex). destruct (Hcf d x Hin Ex) as (Hlen & Hb).
        exists x, (N d). repeat split; auto; [lia|]. rewrite Hls, Hs, Hin'. reflexivity.
      + exists l'. split; auto. split; [split; auto; intros; rewrite Hs'; auto|].
        intros [d n]. simpl. rewrite Hv'. f_equal. unfold vcell_contrib.
        destruct (existsb (Z.eqb d) dofTypes) eqn:E1.
        * destruct (mfind lt_dof d (vc_val c)) as [x|] eqn:Ex; [|match goal with |- (if ?b then _ else _) = _ => destruct b; reflexivity end].
          match goal with |- (if ?b then _ else _) = _ => replace b with true; [reflexivity|] end. symmetry. apply mem_existsb. apply filter_In. split; auto.
          apply in_bv_keys; eauto.
        * match goal with |- (if ?b then _ else _) = _ => replace b with false; [reflexivity|] end. symmetry.
          destruct (existsb (Z.eqb d) (filter (fun d => existsb (Z.eqb d) dofTypes) (bv_keys (vc_val c)))) eqn:E2; auto.
          apply mem_existsb in E2. apply filter_In in E2. destruct E2. congruence.
    - intros g l Hg Hl. apply merge_vec_ok; auto.
    - intros [d n]. simpl. rewrite Hv. destruct (existsb _ _); auto.
    - split; [exact Hex|]. intros r Hr. destruct (Hall r Hr) as (g & -> & (Hga & Hgs) & Hgv).
      exists g. split; auto. split; auto. split.
      + intros d. rewrite Hgs, Hs. reflexivity.
      + intros d n Hd. pose proof (Hgv (d, n)) as E. simpl in E.
        assert (Hd' : existsb (Z.eqb d) dofTypes = true) by (apply mem_existsb; auto).
        rewrite Hd' in E. rewrite E. rewrite Hv, Hd'. ring.
  Qed.

  Lemma build_vector_throw_lemma info threads cells dofTypes d :
    In d dofTypes -> mfind lt_dof d (numIndependent info) = None ->
    forall r, build_vector (F := F) info threads cells dofTypes r <-> r = Throw.
  Proof.
    intros Hd E r. unfold build_vector.
    replace (missing_numbering info dofTypes) with true; [tauto|]. symmetry. apply missing_numbering_spec. eauto.
  Qed.

  (** ** triplets *)
  Definition tsel (r c : nat) (t : Z * Z * F) : F :=
    let '(a, b, x) := t in if andb (Z.eqb a (Z.of_nat r)) (Z.eqb b (Z.of_nat c)) then x else 0.
  Definition tsumZ (l : list (Z * Z * F)) (r c : nat) : F := sum_over l (tsel r c).
  Definition tin (rows cols : nat) (t : Z * Z * F) : Prop :=
    let '(a, b, _) := t in (0 <= a < Z.of_nat rows /\ 0 <= b < Z.of_nat cols)%Z.

  Lemma local_triplets_ok numI numJ (m : dmat F) n k : drows m = length numI -> dcols m = length numJ ->
    numbers_below numI n -> numbers_below numJ k ->
    exists l, local_triplets numI numJ m = Ok l /\ Forall (tin n k) l /\
      forall r c, tsumZ l r c = contrib2 numI numJ m r c.
  Proof.
    intros Hr Hc HI HJ. unfold local_triplets. rewrite Hr, Hc, !Nat.leb_refl. rewrite orb_true_r.
    eexists. split; [reflexivity|]. split.
    - apply Forall_forall. intros t Ht. apply in_flat_map in Ht. destruct Ht as (i & Hi & Ht).
      apply in_map_iff in Ht. destruct Ht as (j & <- & Hj). apply in_seq in Hi, Hj. simpl.
      unfold numbers_below in HI, HJ. rewrite Forall_forall in HI, HJ. split; [apply HI|apply HJ]; apply nth_In; lia.
    - intros r c. unfold tsumZ. rewrite sum_over_flat_map. unfold contrib2, sum_n. apply sum_over_ext. intros i _.
      rewrite sum_over_map. apply sum_over_ext. intros j _. reflexivity.
  Qed.

  Lemma in_nodup_existsb d ds : ~ In d ds -> existsb (Z.eqb d) ds = false.
  Proof. intros H. destruct (existsb (Z.eqb d) ds) eqn:E; auto. apply mem_existsb in E. tauto. Qed.

  Section Rows.
    Variables (num : Z -> list Z) (h : dofdense F).
    Variable loc : Z -> Z -> list (Z * Z * F).
    Lemma matrix_row_ok dI dofs : forall t, NoDup dofs ->
      (forall dJ, In dJ dofs -> exists m, mfind lt_dofpair (dI, dJ) h = Some m /\
         local_triplets (num dI) (num dJ) m = Ok (loc dI dJ)) ->
      exists t', matrix_row num h dI dofs t = Ok t' /\
        forall a b, t' a b = t a b ++ (if andb (Z.eqb a dI) (existsb (Z.eqb b) dofs) then loc a b else []).
    Proof.
      induction dofs as [|dJ dofs IH]; intros t Hnd H; simpl.
      - exists t. split; auto. intros. rewrite andb_false_r, app_nil_r. reflexivity.
      - inversion Hnd; subst. destruct (H dJ (or_introl eq_refl)) as (m & -> & ->). simpl.
        destruct (IH (push t dI dJ (loc dI dJ))) as (t' & E & Ht); auto; [intros; apply H; right; auto|].
        exists t'. split; auto. intros a b. rewrite Ht. unfold push.
        destruct (Z.eqb_spec a dI) as [->|]; simpl; [|reflexivity].
        destruct (Z.eqb_spec b dJ) as [->|]; simpl; [|reflexivity].
        rewrite in_nodup_existsb by auto. rewrite app_nil_r. reflexivity.
    Qed.

    Lemma matrix_rows_ok dofs rows : forall t, NoDup dofs -> NoDup rows ->
      (forall dI dJ, In dI rows -> In dJ dofs -> exists m, mfind lt_dofpair (dI, dJ) h = Some m /\
         local_triplets (num dI) (num dJ) m = Ok (loc dI dJ)) ->
      exists t', matrix_rows num h rows dofs t = Ok t' /\
        forall a b, t' a b = t a b ++ (if andb (existsb (Z.eqb a) rows) (existsb (Z.eqb b) dofs) then loc a b else []).
    Proof.
      induction rows as [|dI rows IH]; intros t Hnd Hnr H; simpl.
      - exists t. split; auto. intros. rewrite app_nil_r. reflexivity.
      - inversion Hnr; subst. destruct (matrix_row_ok dI dofs t Hnd) as (t1 & -> & H1); [intros; apply H; simpl; auto|].
        simpl. destruct (IH t1) as (t' & E & Ht); auto; [intros; apply H; simpl; auto|].
        exists t'. split; auto. intros a b. rewrite Ht, H1. rewrite <- app_assoc. f_equal.
        destruct (Z.eqb_spec a dI) as [->|]; simpl; [|reflexivity].
        rewrite (in_nodup_existsb dI rows) by auto. simpl. apply app_nil_r.
    Qed.
  End Rows.

  Lemma add_unique_NoDup l d : NoDup l -> NoDup (add_unique l d).
  Proof.
    intros H. unfold add_unique. destruct (existsb (Z.eqb d) l) eqn:E; auto.
    apply NoDup_rev in H. rewrite <- (rev_involutive (l ++ [d])). apply NoDup_rev. rewrite rev_app_distr. simpl.
    constructor; auto. rewrite <- in_rev. intros Hin. apply mem_existsb in Hin. congruence.
  Qed.
  Lemma in_add_unique l d x : In x (add_unique l d) <-> In x l \/ x = d.
  Proof.
    unfold add_unique. destruct (existsb (Z.eqb d) l) eqn:E.
    - apply mem_existsb in E. split; auto. intros [H| ->]; auto.
    - rewrite in_app_iff. simpl. split; intros [|]; auto. destruct H; auto. tauto.
  Qed.
  Lemma mat_types_fold {B} (m : list ((Z * Z) * B)) : forall l, NoDup l ->
    let r := fold_left (fun l e => add_unique (add_unique l (fst (fst e))) (snd (fst e))) m l in
    NoDup r /\ forall x, In x r <-> In x l \/ exists e, In e m /\ (x = fst (fst e) \/ x = snd (fst e)).
  Proof.
    induction m as [|e m IH]; intros l Hl; simpl.
    - split; auto. intros x. split; [auto|]. intros [H|(e & [] & _)]; auto.
    - destruct (IH (add_unique (add_unique l (fst (fst e))) (snd (fst e)))) as (H1 & H2); [auto using add_unique_NoDup|].
      split; auto. intros x. rewrite H2, !in_add_unique. split.
      + intros [[[|]|]|(e' & He' & Hx)]; eauto 6.
      + intros [|(e' & [<-|He'] & Hx)]; eauto 6. destruct Hx; subst; auto.
  Qed.
  Lemma mat_types_NoDup {B} (m : list ((Z * Z) * B)) : NoDup (mat_types m).
  Proof. apply mat_types_fold. constructor. Qed.
  Lemma in_mat_types {B} (m : list ((Z * Z) * B)) x :
    In x (mat_types m) <-> exists e, In e m /\ (x = fst (fst e) \/ x = snd (fst e)).
  Proof. destruct (mat_types_fold m [] (NoDup_nil _)) as (_ & H). unfold mat_types. rewrite H. simpl. tauto. Qed.

  Lemma find2_types {B} (m : list ((Z * Z) * B)) a b x : mfind lt_dofpair (a, b) m = Some x ->
    In a (mat_types m) /\ In b (mat_types m).
  Proof.
    intros H. apply mfind_in in H; [|exact ltpair_total].
    split; apply in_mat_types; exists ((a, b), x); auto.
  Qed.

  Definition dsorted2 {V} (m : list ((Z * Z) * V)) : Prop := msorted lt_dofpair m.
  Lemma dfind2_dset {V} k k0 (v : V) m : dsorted2 m ->
    mfind lt_dofpair k (mset lt_dofpair k0 v m) =
    if andb (Z.eqb (fst k) (fst k0)) (Z.eqb (snd k) (snd k0)) then Some v else mfind lt_dofpair k m.
  Proof.
    intros H. destruct (Z.eqb_spec (fst k) (fst k0)), (Z.eqb_spec (snd k) (snd k0)); simpl.
    - assert (k = k0) by (destruct k, k0; simpl in *; congruence). subst.
      apply mfind_mset_eq; auto using ltpair_irrefl, ltpair_total.
    - apply mfind_mset_ne; auto using ltpair_irrefl, ltpair_total; [apply ltpair_trans|congruence].
    - apply mfind_mset_ne; auto using ltpair_irrefl, ltpair_total; [apply ltpair_trans|congruence].
    - apply mfind_mset_ne; auto using ltpair_irrefl, ltpair_total; [apply ltpair_trans|congruence].
  Qed.
  Lemma dsorted2_mset {V} k (v : V) m : dsorted2 m -> dsorted2 (mset lt_dofpair k v m).
  Proof. apply msorted_mset. apply ltpair_trans. apply ltpair_total. Qed.

  Lemma set_from_triplets_ok rows cols l : Forall (tin rows cols) l ->
    exists s, set_from_triplets (F := F) rows cols l = Ok s /\ srows s = rows /\ scols s = cols /\ in_range s /\
      forall r c, entry s r c = tsumZ l r c.
  Proof.
    intros H. unfold set_from_triplets.
    replace (forallb _ l) with true.
    - eexists. split; [reflexivity|]. split; auto. split; auto. split.
      + unfold in_range. simpl. apply Forall_forall. intros t Ht. apply in_map_iff in Ht.
        destruct Ht as ([[a b] x] & <- & Ht). rewrite Forall_forall in H. specialize (H _ Ht). simpl in H. lia.
      + intros r c. unfold entry. simpl. rewrite sum_over_map. apply sum_over_ext. intros [[a b] x] Ht.
        rewrite Forall_forall in H. specialize (H _ Ht). simpl in H. simpl.
        replace (Nat.eqb (Z.to_nat a) r) with (Z.eqb a (Z.of_nat r)) by
          (destruct (Nat.eqb_spec (Z.to_nat a) r), (Z.eqb_spec a (Z.of_nat r)); auto; lia).
        replace (Nat.eqb (Z.to_nat b) c) with (Z.eqb b (Z.of_nat c)) by
          (destruct (Nat.eqb_spec (Z.to_nat b) c), (Z.eqb_spec b (Z.of_nat c)); auto; lia). reflexivity.
    - symmetry. apply forallb_forall. intros [[a b] x] Ht. rewrite Forall_forall in H. specialize (H _ Ht).
      simpl in H. rewrite !andb_true_iff, !Z.leb_le, !Z.ltb_lt. lia.
  Qed.

  Lemma zz_dec (p q : Z * Z) : {p = q} + {p <> q}.
  Proof. decide equality; apply Z.eq_dec. Defined.

  Lemma set_blocks_ok info N dofTypes (t : triplets F) pairs : sizes_known info dofTypes N ->
    (forall a b, In (a, b) pairs -> In a dofTypes /\ In b dofTypes /\ Forall (tin (N a) (N b)) (t a b)) ->
    forall h, dsorted2 h ->
    exists h', set_blocks info t pairs h = Ok h' /\ dsorted2 h' /\
      (forall a b, In (a, b) pairs -> exists s, mat_at h' a b = Some s /\ srows s = N a /\ scols s = N b /\
         in_range s /\ forall r c, entry s r c = tsumZ (t a b) r c) /\
      (forall a b, ~ In (a, b) pairs -> mat_at h' a b = mat_at h a b).
  Proof.
    intros Hk. induction pairs as [|[a b] pairs IH]; intros Hp h Hh; simpl.
    - exists h. repeat split; auto. intros a b [].
    - destruct (Hp a b (or_introl eq_refl)) as (Ha & Hb & Ht).
      rewrite (info_size_known _ _ _ _ Hk Ha), (info_size_known _ _ _ _ Hk Hb). simpl.
      destruct (set_from_triplets_ok _ _ _ Ht) as (s & -> & Hs). simpl.
      destruct (IH (fun x y H => Hp x y (or_intror H)) (mset lt_dofpair (a, b) s h)) as (h' & E & Hs' & H1 & H2).
      { apply dsorted2_mset; auto. }
      exists h'. split; auto. split; auto. split.
      + intros x y Hxy. destruct (in_dec zz_dec (x, y) pairs) as [Hin|Hni]; [auto|].
        destruct Hxy as [E1|]; [|tauto]. injection E1 as <- <-. exists s. rewrite H2 by auto.
        unfold mat_at. rewrite dfind2_dset by auto. simpl. rewrite !Z.eqb_refl. simpl. tauto.
      + intros x y Hxy. rewrite H2 by tauto. unfold mat_at. rewrite dfind2_dset by auto. simpl.
        destruct (Z.eqb_spec x a), (Z.eqb_spec y b); simpl; auto. subst. tauto.
  Qed.

  (** ** BuildMatrix *)
  Lemma build_matrix_lemma info threads cells dofTypes N :
    NoDup dofTypes -> (0 < threads)%nat -> sizes_known info dofTypes N -> Forall (mcell_fits dofTypes N) cells ->
    (exists h, build_matrix (F := F) info threads cells dofTypes (Ok h)) /\
    forall r, build_matrix info threads cells dofTypes r ->
      exists h, r = Ok h /\
        (forall a b, In a dofTypes -> In b dofTypes -> exists m, mat_at h a b = Some m /\
           srows m = N a /\ scols m = N b /\ in_range m /\
           forall i j, entry m i j = sum_over cells (fun c => mcell_contrib c a b i j)) /\
        (forall a b, ~ (In a dofTypes /\ In b dofTypes) -> mat_at h a b = None).
  Proof.
    intros Hnd Ht Hk Hc. unfold build_matrix. rewrite (sizes_known_not_missing info dofTypes N Hk).
    set (both := fun a b => andb (existsb (Z.eqb a) dofTypes) (existsb (Z.eqb b) dofTypes)).
    assert (Hboth : forall a b, both a b = true <-> In a dofTypes /\ In b dofTypes).
    { intros. unfold both. rewrite andb_true_iff, !mem_existsb. tauto. }
    set (PL := fun t : triplets F => forall a b, In a dofTypes -> In b dofTypes -> Forall (tin (N a) (N b)) (t a b)).
    set (phi := fun (t : triplets F) (i : Z * Z * (nat * nat)) =>
      if both (fst (fst i)) (snd (fst i)) then tsumZ (t (fst (fst i)) (snd (fst i))) (fst (snd i)) (snd (snd i)) else 0).
    set (contr := fun (c : mcell F) (i : Z * Z * (nat * nat)) =>
      if both (fst (fst i)) (snd (fst i)) then mcell_contrib c (fst (fst i)) (snd (fst i)) (fst (snd i)) (snd (snd i)) else 0).
    destruct (parallel_lemma (matrix_cell dofTypes) (fun g l => Ok (splice dofTypes g l)) F PL PL
      (mcell_fits dofTypes N) phi phi contr) with
      (threads := threads) (l0 := fun _ _ : Z => @nil (Z * Z * F)) (g0 := fun _ _ : Z => @nil (Z * Z * F)) (cells := cells)
      as (Hex & Hall); auto.
    - intros t c HP (Hca & Hcf). unfold matrix_cell. rewrite dof_intersection_filter by auto.
      set (dofs := filter (fun d => existsb (Z.eqb d) dofTypes) (mat_types (mc_val c))).
      assert (Hdofs : forall d, In d dofs <-> In d (mat_types (mc_val c)) /\ In d dofTypes).
      { intros d. unfold dofs. rewrite filter_In, mem_existsb. tauto. }
      assert (HndD : NoDup dofs) by (apply NoDup_filter, mat_types_NoDup).
      set (loc := fun a b => match mfind lt_dofpair (a, b) (mc_val c) with
        | Some m => match local_triplets (mc_num c a) (mc_num c b) m with Ok l => l | _ => [] end | None => [] end).
      assert (Hloc : forall a b, In a dofs -> In b dofs -> exists m, mfind lt_dofpair (a, b) (mc_val c) = Some m /\
        local_triplets (mc_num c a) (mc_num c b) m = Ok (loc a b) /\ Forall (tin (N a) (N b)) (loc a b) /\
        forall i j, tsumZ (loc a b) i j = contrib2 (mc_num c a) (mc_num c b) m i j).
      { intros a b Ha Hb. apply Hdofs in Ha, Hb.
        destruct (Hcf a b) as (m & Em & Hr & Hcl & HI & HJ); try tauto.
        destruct (local_triplets_ok _ _ m _ _ Hr Hcl HI HJ) as (l & El & Hl & Hs).
        exists m. unfold loc. rewrite Em, El. auto. }
      destruct (matrix_rows_ok (mc_num c) (mc_val c) loc dofs dofs t HndD HndD) as (t' & E & Ht').
      { intros a b Ha Hb. destruct (Hloc a b Ha Hb) as (m & ? & ? & _). eauto. }
      exists t'. split; auto. split.
      + intros a b Ha Hb. rewrite Ht'. apply Forall_app. split; [auto|].
        destruct (andb _ _) eqn:E1; [|constructor]. apply andb_true_iff in E1. rewrite !mem_existsb in E1.
        destruct (Hloc a b) as (m & _ & _ & Hf & _); tauto.
      + intros [[a b] [i j]]. unfold phi, contr. simpl. destruct (both a b) eqn:Eb; [|ring].
        rewrite Ht'. unfold tsumZ at 1. rewrite sum_over_app. fold (tsumZ (t a b) i j). f_equal.
        unfold mcell_contrib. destruct (andb _ _) eqn:E1.
        * apply andb_true_iff in E1. rewrite !mem_existsb in E1.
          destruct (Hloc a b) as (m & Em & _ & _ & Hs); try tauto. rewrite Em. apply Hs.
        * destruct (mfind lt_dofpair (a, b) (mc_val c)) as [m|] eqn:Em; [|reflexivity].
          exfalso. apply find2_types in Em. apply Hboth in Eb.
          assert (In a dofs /\ In b dofs) as (Ha & Hb) by (rewrite !Hdofs; tauto).
          apply mem_existsb in Ha, Hb. rewrite Ha, Hb in E1. discriminate.
    - intros g l Hg Hl. eexists. split; [reflexivity|]. split.
      + intros a b Ha Hb. unfold splice. fold (both a b). rewrite (proj2 (Hboth a b)) by auto.
        apply Forall_app. split; auto.
      + intros [[a b] [i j]]. unfold phi. simpl. destruct (both a b) eqn:Eb; [|ring].
        unfold splice. fold (both a b). rewrite Eb. unfold tsumZ. apply sum_over_app.
    - intros a b _ _. constructor.
    - intros a b _ _. constructor.
    - intros [[a b] [i j]]. unfold phi. simpl. destruct (both a b); reflexivity.
    - assert (Hfin : forall t, PL t -> exists h, set_blocks info t (list_prod dofTypes dofTypes) [] = Ok h /\
        (forall a b, In a dofTypes -> In b dofTypes -> exists s, mat_at h a b = Some s /\ srows s = N a /\ scols s = N b /\
           in_range s /\ forall r c, entry s r c = tsumZ (t a b) r c) /\
        (forall a b, ~ (In a dofTypes /\ In b dofTypes) -> mat_at h a b = None)).
      { intros t HP. destruct (set_blocks_ok info N dofTypes t (list_prod dofTypes dofTypes) Hk) with (h := @nil ((Z * Z) * smat F))
          as (h & E & _ & H1 & H2).
        - intros a b Hab. apply in_prod_iff in Hab. destruct Hab. auto.
        - constructor.
        - exists h. split; auto. split.
          + intros a b Ha Hb. apply H1. apply in_prod_iff. auto.
          + intros a b Hab. rewrite H2; [reflexivity|]. rewrite in_prod_iff. auto. }
      split.
      + destruct Hex as (t & Hpt). destruct (Hall _ Hpt) as (t' & E & HP & _). injection E as <-.
        destruct (Hfin t HP) as (h & E & _). exists h. exists (Ok t). split; auto.
      + intros r (t & Hpt & ->). destruct (Hall _ Hpt) as (t' & -> & HP & Hphi). simpl.
        destruct (Hfin t' HP) as (h & E & H1 & H2). exists h. split; auto. split; auto.
        intros a b Ha Hb. destruct (H1 a b Ha Hb) as (s & Es & Hr & Hcl & Hin & He). exists s. repeat split; auto.
        intros i j. rewrite He. pose proof (Hphi (a, b, (i, j))) as Hp. unfold phi, contr in Hp. simpl in Hp.
        rewrite (proj2 (Hboth a b)) in Hp by auto. rewrite Hp. unfold tsumZ. rewrite sum_over_nil. ring.
  Qed.
End Scatter.
