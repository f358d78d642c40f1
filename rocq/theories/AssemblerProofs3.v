(** * Proofs for C19 *)
From Coq Require Import List ZArith Arith Bool Lia Ring Sorted.
From Verif Require Import Algebra Outcome DofModel DofSpec DofProofs AssemblerModel AssemblerSpec AssemblerProofs.
Import ListNotations.

Section C19.
  Context {F : CRing}.
  Add Ring Fring3 : (r_theory F).
  Local Open Scope cring_scope.

  (** ** VectorAssembler *)
  Definition av_rel (s : dofvec F) (a : avec) : Prop :=
    ascending s /\ (forall d, size_of s d = av_size a d) /\ (forall d n, val s d n = av_val a d n).

  Lemma va_resize_ok sizes : forall s : dofvec F, ascending s -> NoDup (map fst sizes) ->
    ascending (va_resize sizes s) /\
    (forall d, size_of (va_resize sizes s) d =
       match find (fun p => Z.eqb (fst p) d) sizes with Some p => Some (snd p) | None => size_of s d end) /\
    (forall d n, val (va_resize sizes s) d n = if existsb (fun p => Z.eqb (fst p) d) sizes then 0 else val s d n).
  Proof.
    induction sizes as [|[k m] sizes IH]; intros s Hs Hnd; simpl.
    - auto.
    - inversion Hnd as [|? ? Hni Hnd']; subst.
      assert (Hd : dsorted s) by (apply dsorted_ascending; auto).
      destruct (IH (mset lt_dof k (repeat 0 m) s)) as (H1 & H2 & H3); auto.
      { apply dsorted_ascending, dsorted_mset; auto. }
      assert (Hnone : find (fun p => Z.eqb (fst p) k) sizes = None /\ existsb (fun p => Z.eqb (fst p) k) sizes = false).
      { clear - Hni. induction sizes as [|[k' m'] sizes IH]; simpl in *; [auto|].
        destruct (Z.eqb_spec k' k); [subst; tauto|]. simpl. apply IH. tauto. }
      split; auto. split.
      + intros d. rewrite H2. unfold size_of. rewrite dfind_dset by auto. simpl.
        destruct (Z.eqb_spec k d) as [->|Hne].
        * destruct Hnone as (-> & _). rewrite Z.eqb_refl. simpl. rewrite repeat_length. reflexivity.
        * replace (Z.eqb d k) with false by (symmetry; apply Z.eqb_neq; auto). reflexivity.
      + intros d n. rewrite H3. unfold val. rewrite dfind_dset by auto.
        destruct (Z.eqb_spec k d) as [->|Hne]; simpl.
        * destruct Hnone as (_ & ->). rewrite Z.eqb_refl. apply nth_repeat.
        * replace (Z.eqb d k) with false by (symmetry; apply Z.eqb_neq; auto). reflexivity.
  Qed.

  Lemma available_dofs_spec {B} (num : list (Z * B)) ds : ascending num -> NoDup ds ->
    NoDup (available_dofs num ds) /\
    forall d, In d (available_dofs num ds) <-> (exists x, mfind lt_dof d num = Some x) /\ (ds = [] \/ In d ds).
  Proof.
    intros Hn Hd. unfold available_dofs. destruct ds as [|d0 ds].
    - split; [apply ascending_NoDup; auto|]. intros d. rewrite in_bv_keys by auto. tauto.
    - rewrite dof_intersection_filter by auto. split.
      + apply NoDup_filter. apply ascending_NoDup; auto.
      + intros d. rewrite filter_In, in_bv_keys, mem_existsb by auto. split; [tauto|].
        intros (H & [E|E]); [discriminate|]. tauto.
  Qed.

  Lemma selected_spec (ds : list Z) d :
    orb (match ds with [] => true | _ => false end) (existsb (Z.eqb d) ds) = true <-> ds = [] \/ In d ds.
  Proof.
    rewrite orb_true_iff, mem_existsb. split; (intros [H|H]; [left|right]; auto).
    - destruct ds; auto; discriminate.
    - subst. auto.
  Qed.

  Lemma va_step_ok s a o : av_rel s a -> va_fits a o ->
    exists s', va_step s o = Ok s' /\ av_rel s' (av_step a o).
  Proof.
    intros (Hs & Hsz & Hv) Hf. destruct o as [sizes|v num ds|]; simpl in *.
    - eexists. split; [reflexivity|]. destruct (va_resize_ok sizes s Hs Hf) as (H1 & H2 & H3).
      split; auto. split; simpl; intros; [rewrite H2|rewrite H3]; rewrite ?Hsz, ?Hv; reflexivity.
    - destruct Hf as (Hav & Han & Hnd & Hf). destruct (available_dofs_spec num ds Han Hnd) as (Hnd' & Hin).
      destruct (scatter_dofs_ok (num_of num) v (available_dofs num ds) s Hnd' Hs) as (s' & E & Ha & Hsz' & Hv').
      + intros d Hd. apply Hin in Hd. destruct Hd as ((nums & En) & Hsel).
        destruct (Hf d nums En Hsel) as (x & n & Ex & Hlen & Hsize & Hb).
        exists x, n. unfold num_of. rewrite En. repeat split; auto; [lia|]. rewrite Hsz. auto.
      + exists s'. split; auto. split; auto. split; simpl.
        * intros d. rewrite Hsz'. auto.
        * intros d n. rewrite Hv', Hv. f_equal. unfold add_contrib.
          destruct (existsb (Z.eqb d) (available_dofs num ds)) eqn:E1.
          -- apply mem_existsb, Hin in E1. destruct E1 as ((nums & En) & Hsel). unfold num_of. rewrite En.
             destruct (Hf d nums En Hsel) as (x & ? & Ex & _). rewrite Ex.
             rewrite (proj2 (selected_spec ds d) Hsel). reflexivity.
          -- destruct (mfind lt_dof d num) as [nums|] eqn:En; [|reflexivity].
             destruct (mfind lt_dof d v) as [x|] eqn:Ex; [|reflexivity].
             destruct (orb _ _) eqn:E2; [|reflexivity]. apply selected_spec in E2. exfalso.
             assert (H : In d (available_dofs num ds)) by (apply Hin; eauto).
             apply mem_existsb in H. congruence.
    - eexists. split; [reflexivity|]. destruct (dv_set_zero_lemma s Hs) as (H1 & H2 & H3).
      split; auto. split; simpl; intros; [rewrite H2; auto|]. apply H3.
  Qed.

  Lemma vector_assembler_lemma ops : forall s a, av_rel s a -> va_all_fit a ops ->
    exists s', va_run s ops = Ok s' /\ av_rel s' (fold_left av_step ops a).
  Proof.
    induction ops as [|o ops IH]; intros s a Hr Hf; simpl in *.
    - eauto.
    - destruct Hf as (Ho & Hf). destruct (va_step_ok s a o Hr Ho) as (s1 & -> & Hr1). simpl. eauto.
  Qed.

  (** ** MatrixAssembler *)
  Section Matrix.
    Variable sizes : list (Z * nat).
    Hypothesis sizes_nodup : NoDup (map fst sizes).

    (** the blocks are those of [sizes], with entries [val] *)
    Definition shaped (m : dofmat F) (value : Z -> Z -> nat -> nat -> F) : Prop :=
      dsorted2 m /\
      (forall a b na nb, In (a, na) sizes -> In (b, nb) sizes -> exists s, mat_at m a b = Some s /\
         srows s = na /\ scols s = nb /\ in_range s /\ forall i j, entry s i j = value a b i j) /\
      (forall a b s, mat_at m a b = Some s -> In a (map fst sizes) /\ In b (map fst sizes)).

    Lemma size_unique a n n' : In (a, n) sizes -> In (a, n') sizes -> n = n'.
    Proof.
      clear - sizes_nodup. induction sizes as [|[k m] l IH]; simpl in *; [tauto|].
      inversion sizes_nodup as [|? ? Hni Hnd]; subst.
      intros [E|H] [E'|H']; try congruence; auto.
      - injection E as -> ->. exfalso. apply Hni. apply in_map_iff. exists (a, n'). auto.
      - injection E' as -> ->. exfalso. apply Hni. apply in_map_iff. exists (a, n). auto.
    Qed.

    Lemma mat_types_keys (m : dofmat F) value : shaped m value ->
      forall d, In d (mat_types m) <-> In d (map fst sizes).
    Proof.
      intros (Hs & H1 & H2) d. rewrite in_mat_types. split.
      - intros ([[a b] s] & He & Hd). simpl in Hd.
        assert (E : mat_at m a b = Some s) by (apply in_mfind; first [exact ltpair_irrefl|exact ltpair_trans|exact ltpair_total|assumption]).
        destruct (H2 a b s E). destruct Hd; subst; auto.
      - intros Hd. apply in_map_iff in Hd. destruct Hd as ([a n] & <- & Ha).
        destruct (H1 a a n n Ha Ha) as (s & E & _). apply mfind_in in E; [|exact ltpair_total].
        exists ((a, a), s). simpl. auto.
    Qed.

    (** writing one block *)
    Lemma shaped_set (m : dofmat F) value a b na nb s v' : shaped m value -> In (a, na) sizes -> In (b, nb) sizes ->
      srows s = na -> scols s = nb -> in_range s -> (forall i j, entry s i j = v' i j) ->
      shaped (mset lt_dofpair (a, b) s m)
        (fun a' b' i j => if andb (Z.eqb a' a) (Z.eqb b' b) then v' i j else value a' b' i j).
    Proof.
      intros (Hs & H1 & H2) Ha Hb Hr Hc Hin He. split; [apply dsorted2_mset; auto|]. split.
      - intros a' b' na' nb' Ha' Hb'. unfold mat_at. rewrite dfind2_dset by auto. simpl.
        destruct (andb (Z.eqb a' a) (Z.eqb b' b)) eqn:E.
        + apply andb_true_iff in E. rewrite !Z.eqb_eq in E. destruct E; subst a' b'.
          rewrite (size_unique a na' na) by auto. rewrite (size_unique b nb' nb) by auto.
          exists s. auto.
        + apply H1; auto.
      - intros a' b' s'. unfold mat_at. rewrite dfind2_dset by auto. simpl.
        destruct (andb (Z.eqb a' a) (Z.eqb b' b)) eqn:E.
        + apply andb_true_iff in E. rewrite !Z.eqb_eq in E. destruct E; subst a' b'. intros _.
          split; [exact (in_map fst _ _ Ha)|exact (in_map fst _ _ Hb)].
        + apply H2.
    Qed.

    Lemma shaped_ext m v v' : (forall a b i j, In a (map fst sizes) -> In b (map fst sizes) -> v a b i j = v' a b i j) ->
      shaped m v -> shaped m v'.
    Proof.
      intros H (Hs & H1 & H2). split; auto. split; auto. intros a b na nb Ha Hb.
      destruct (H1 a b na nb Ha Hb) as (s & ? & ? & ? & ? & He). exists s. repeat split; auto. intros. rewrite He. apply H.
      - apply in_map_iff. eexists. split; [|exact Ha]. auto.
      - apply in_map_iff. eexists. split; [|exact Hb]. auto.
    Qed.

    (** Resize of the empty matrix *)
    Lemma ma_resize_ok : shaped (ma_resize sizes []) (fun _ _ _ _ => 0).
    Proof.
      unfold ma_resize.
      assert (H : forall pairs m, (forall p, In p pairs -> In (fst p) sizes /\ In (snd p) sizes) ->
        dsorted2 m -> (forall a b s, mat_at m a b = Some s -> trip s = [] /\ In (a, srows s) sizes /\ In (b, scols s) sizes) ->
        let m' := fold_left (fun m p => mset lt_dofpair (fst (fst p), fst (snd p)) (mkMat (F := F) (snd (fst p)) (snd (snd p)) []) m) pairs m in
        dsorted2 m' /\ (forall a b s, mat_at m' a b = Some s -> trip s = [] /\ In (a, srows s) sizes /\ In (b, scols s) sizes) /\
        (forall p, In p pairs -> mat_at m' (fst (fst p)) (fst (snd p)) <> None) /\
        (forall a b, mat_at m a b <> None -> mat_at m' a b <> None)).
      { induction pairs as [|[[a na] [b nb]] pairs IH]; intros m Hp Hs Hm; simpl.
        - split; auto.
        - destruct (IH (mset lt_dofpair (a, b) (mkMat na nb []) m)) as (H1 & H2 & H3 & H4).
          + intros; apply Hp; right; auto.
          + apply dsorted2_mset; auto.
          + intros a' b' s. unfold mat_at. rewrite dfind2_dset by auto. simpl.
            destruct (andb _ _) eqn:E; [|apply Hm]. apply andb_true_iff in E. rewrite !Z.eqb_eq in E.
            destruct E; subst. intros E. injection E as <-. simpl.
            destruct (Hp _ (or_introl eq_refl)). auto.
          + split; auto. split; auto. split.
            * intros p [<-|Hin]; auto. apply H4. simpl. unfold mat_at. rewrite dfind2_dset by auto. simpl.
              rewrite !Z.eqb_refl. simpl. discriminate.
            * intros a' b' Hab. apply H4. unfold mat_at in *. rewrite dfind2_dset by auto.
              destruct (andb _ _); [discriminate|auto]. }
      destruct (H (list_prod sizes sizes) []) as (H1 & H2 & H3 & _).
      - intros [x y] Hxy. apply in_prod_iff in Hxy. auto.
      - constructor.
      - discriminate.
      - split; auto. split.
        + intros a b na nb Ha Hb.
          pose proof (H3 ((a, na), (b, nb)) (proj2 (in_prod_iff _ _ _ _) (conj Ha Hb))) as Hne. simpl in Hne.
          destruct (mat_at _ a b) as [s|] eqn:E; [|congruence].
          destruct (H2 a b s E) as (Ht & Hr & Hc).
          exists s. split; auto. split; [eapply size_unique; eauto|]. split; [eapply size_unique; eauto|].
          unfold in_range, entry. rewrite Ht. split; [constructor|reflexivity].
        + intros a b s E. destruct (H2 a b s E) as (_ & Hr & Hc).
          split; [exact (in_map fst _ _ Hr)|exact (in_map fst _ _ Hc)].
    Qed.

    (** Add after Finish *)
    Section AddRows.
      Variables (num : Z -> list Z) (h : dofdense F).
      Definition fit_pair (a b : Z) : Prop := exists x na nb, mfind lt_dofpair (a, b) h = Some x /\
        drows x = length (num a) /\ dcols x = length (num b) /\
        In (a, na) sizes /\ In (b, nb) sizes /\ numbers_below (num a) na /\ numbers_below (num b) nb.
      Definition pair_contrib (a b : Z) (i j : nat) : F :=
        match mfind lt_dofpair (a, b) h with Some x => contrib2 (num a) (num b) x i j | None => 0 end.

      Lemma mat_add_row_ok dI dofs : forall m value, NoDup dofs -> (forall dJ, In dJ dofs -> fit_pair dI dJ) ->
        shaped m value -> exists m', mat_add_row num h dI dofs m = Ok m' /\
          shaped m' (fun a b i j => value a b i j +
            (if andb (Z.eqb a dI) (existsb (Z.eqb b) dofs) then pair_contrib a b i j else 0)).
      Proof.
        induction dofs as [|dJ dofs IH]; intros m value Hnd Hf Hm; simpl.
        - exists m. split; auto. eapply shaped_ext; [|exact Hm]. intros. rewrite andb_false_r. ring.
        - inversion Hnd; subst. destruct (Hf dJ (or_introl eq_refl)) as (x & na & nb & Ex & Hr & Hc & Ha & Hb & HI & HJ).
          rewrite Ex. destruct (proj1 (proj2 Hm) dI dJ na nb Ha Hb) as (blk & Eb & Hbr & Hbc & Hbin & Hbe). rewrite Eb.
          destruct (local_triplets_ok _ _ x na nb Hr Hc HI HJ) as (l & El & Hl & Hsum). rewrite El. cbn [obind].
          rewrite Hbr, Hbc. destruct (set_from_triplets_ok na nb l Hl) as (s & Es & Hsr & Hsc & Hsin & Hse).
          rewrite Es. cbn [obind].
          destruct (IH (mset lt_dofpair (dI, dJ) (mkMat na nb (trip blk ++ trip s)) m)
            (fun a' b' i j => if andb (Z.eqb a' dI) (Z.eqb b' dJ) then value dI dJ i j + pair_contrib dI dJ i j else value a' b' i j))
            as (m' & E' & Hm'); auto.
          + intros; apply Hf; right; auto.
          + apply (shaped_set _ _ _ _ na nb); auto.
            * unfold in_range in *. simpl. rewrite Hbr, Hbc in Hbin. rewrite Hsr, Hsc in Hsin. apply Forall_app. auto.
            * intros i j. unfold entry. simpl. rewrite sum_over_app. fold (entry blk i j). fold (entry s i j).
              rewrite Hbe, Hse, Hsum. unfold pair_contrib. rewrite Ex. reflexivity.
          + exists m'. split; auto. eapply shaped_ext; [|exact Hm']. intros a b i j _ _. cbv beta.
            destruct (Z.eqb_spec a dI) as [->|]; simpl; [|reflexivity].
            destruct (Z.eqb_spec b dJ) as [->|]; simpl; [|reflexivity].
            rewrite (in_nodup_existsb dJ dofs) by auto. ring.
      Qed.

      Lemma mat_add_rows_ok dofs rows : forall m value, NoDup dofs -> NoDup rows ->
        (forall dI dJ, In dI rows -> In dJ dofs -> fit_pair dI dJ) -> shaped m value ->
        exists m', mat_add_rows num h rows dofs m = Ok m' /\
          shaped m' (fun a b i j => value a b i j +
            (if andb (existsb (Z.eqb a) rows) (existsb (Z.eqb b) dofs) then pair_contrib a b i j else 0)).
      Proof.
        induction rows as [|dI rows IH]; intros m value Hnd Hnr Hf Hm; simpl.
        - exists m. split; auto. eapply shaped_ext; [|exact Hm]. intros. ring.
        - inversion Hnr; subst. destruct (mat_add_row_ok dI dofs m value Hnd) as (m1 & -> & Hm1); auto.
          { intros; apply Hf; simpl; auto. }
          simpl. assert (Hf' : forall a b, In a rows -> In b dofs -> fit_pair a b) by (intros; apply Hf; simpl; auto).
          destruct (IH m1 _ Hnd H2 Hf' Hm1) as (m' & E & Hm').
          exists m'. split; auto. eapply shaped_ext; [|exact Hm']. intros a b i j _ _. cbv beta.
          destruct (Z.eqb_spec a dI) as [->|]; simpl; [|ring].
          rewrite (in_nodup_existsb dI rows) by auto. simpl. ring.
      Qed.

      (** the triplets pushed before Finish *)
      Definition held (t : triplets F) (value : Z -> Z -> nat -> nat -> F) : Prop :=
        forall a b na nb, In (a, na) sizes -> In (b, nb) sizes ->
          Forall (tin na nb) (t a b) /\ forall i j, tsumZ (t a b) i j = value a b i j.

      Lemma matrix_rows_held dofs t value : NoDup dofs ->
        (forall dI dJ, In dI dofs -> In dJ dofs -> fit_pair dI dJ) -> held t value ->
        exists t', matrix_rows num h dofs dofs t = Ok t' /\
          held t' (fun a b i j => value a b i j +
            (if andb (existsb (Z.eqb a) dofs) (existsb (Z.eqb b) dofs) then pair_contrib a b i j else 0)).
      Proof.
        intros Hnd Hf Ht.
        set (loc := fun a b => match mfind lt_dofpair (a, b) h with
          | Some x => match local_triplets (num a) (num b) x with Ok l => l | _ => [] end | None => [] end).
        assert (Hloc : forall a b, In a dofs -> In b dofs -> exists m, mfind lt_dofpair (a, b) h = Some m /\
          local_triplets (num a) (num b) m = Ok (loc a b) /\
          (forall na nb, In (a, na) sizes -> In (b, nb) sizes -> Forall (tin na nb) (loc a b)) /\
          forall i j, tsumZ (loc a b) i j = pair_contrib a b i j).
        { intros a b Ha Hb. destruct (Hf a b Ha Hb) as (x & na & nb & Ex & Hr & Hc & Hna & Hnb & HI & HJ).
          destruct (local_triplets_ok _ _ x na nb Hr Hc HI HJ) as (l & El & Hl & Hsum).
          exists x. unfold loc, pair_contrib. rewrite Ex, El. repeat split; auto.
          intros na' nb' Ha' Hb'. rewrite (size_unique a na' na), (size_unique b nb' nb); auto. }
        destruct (matrix_rows_ok num h loc dofs dofs t Hnd Hnd) as (t' & E & Ht').
        { intros a b Ha Hb. destruct (Hloc a b Ha Hb) as (m & ? & ? & _). eauto. }
        exists t'. split; auto. intros a b na nb Ha Hb. destruct (Ht a b na nb Ha Hb) as (Hf1 & Hs1).
        rewrite Ht'. destruct (andb _ _) eqn:E1.
        - apply andb_true_iff in E1. rewrite !mem_existsb in E1. destruct E1 as (E1 & E2).
          destruct (Hloc a b E1 E2) as (m & _ & _ & Hfa & Hs2).
          split; [apply Forall_app; auto|]. intros i j. unfold tsumZ. rewrite sum_over_app.
          fold (tsumZ (t a b) i j). fold (tsumZ (loc a b) i j). rewrite Hs1, Hs2. reflexivity.
        - rewrite app_nil_r. split; auto. intros. rewrite Hs1. ring.
      Qed.
    End AddRows.

    (** Finish *)
    Lemma ma_finish_ok (t : triplets F) vt pairs : held t vt ->
      (forall a b, In (a, b) pairs -> In a (map fst sizes) /\ In b (map fst sizes)) ->
      forall m value, shaped m value -> exists m', ma_finish t pairs m = Ok m' /\
        shaped m' (fun a b i j => if in_dec zz_dec (a, b) pairs then vt a b i j else value a b i j).
    Proof.
      intros Ht. induction pairs as [|[a b] pairs IH]; intros Hp m value Hm; cbn [ma_finish].
      - exists m. split; auto.
      - destruct (Hp a b (or_introl eq_refl)) as (Ha & Hb). apply in_map_iff in Ha, Hb.
        destruct Ha as ([a' na] & Ea & Ha), Hb as ([b' nb] & Ebb & Hb). simpl in Ea, Ebb. subst a' b'.
        destruct (proj1 (proj2 Hm) a b na nb Ha Hb) as (blk & Eb & Hbr & Hbc & _ & _). rewrite Eb, Hbr, Hbc.
        destruct (Ht a b na nb Ha Hb) as (Hf & Hs).
        destruct (set_from_triplets_ok na nb (t a b) Hf) as (s & Es & Hsr & Hsc & Hsin & Hse). rewrite Es. cbn [obind].
        destruct (IH (fun x y H => Hp x y (or_intror H)) (mset lt_dofpair (a, b) s m)
          (fun a' b' i j => if andb (Z.eqb a' a) (Z.eqb b' b) then vt a b i j else value a' b' i j)) as (m' & E' & Hm').
        { apply (shaped_set _ _ _ _ na nb); auto. intros. rewrite Hse. auto. }
        exists m'. split; auto. eapply shaped_ext; [|exact Hm']. intros a' b' i j _ _. cbv beta.
        destruct (in_dec zz_dec (a', b') pairs) as [Hin|Hni].
        + destruct (in_dec zz_dec (a', b') ((a, b) :: pairs)) as [|Hn]; [reflexivity|]. exfalso. apply Hn. right. auto.
        + destruct (in_dec zz_dec (a', b') ((a, b) :: pairs)) as [[E1|]|Hn]; [|tauto|].
          * injection E1 as <- <-. rewrite !Z.eqb_refl. reflexivity.
          * destruct (Z.eqb_spec a' a), (Z.eqb_spec b' b); simpl; auto. subst. exfalso. apply Hn. left. auto.
    Qed.

    (** SetZero after Finish *)
    Lemma ma_zero_ok pairs : (forall a b, In (a, b) pairs -> In a (map fst sizes) /\ In b (map fst sizes)) ->
      forall m value, shaped m value ->
      shaped (fold_left (fun m p => mset lt_dofpair p
               (match mfind lt_dofpair p m with Some b => mkMat (F := F) (srows b) (scols b) [] | None => mkMat 0 0 [] end) m) pairs m)
        (fun a b i j => if in_dec zz_dec (a, b) pairs then 0 else value a b i j).
    Proof.
      induction pairs as [|[a b] pairs IH]; intros Hp m value Hm; [exact Hm|].
      cbn [fold_left].
      destruct (Hp a b (or_introl eq_refl)) as (Ha & Hb). apply in_map_iff in Ha, Hb.
      destruct Ha as ([a' na] & Ea & Ha), Hb as ([b' nb] & Ebb & Hb). simpl in Ea, Ebb. subst a' b'.
      destruct (proj1 (proj2 Hm) a b na nb Ha Hb) as (blk & Eb & Hbr & Hbc & _ & _). unfold mat_at in Eb. rewrite Eb.
      eapply shaped_ext; [|apply (IH (fun x y H => Hp x y (or_intror H)) _
        (fun a' b' i j => if andb (Z.eqb a' a) (Z.eqb b' b) then 0 else value a' b' i j))].
      - intros a' b' i j _ _. cbv beta. destruct (in_dec zz_dec (a', b') pairs) as [Hin|Hni].
        + destruct (in_dec zz_dec (a', b') ((a, b) :: pairs)) as [|Hn]; [reflexivity|]. exfalso. apply Hn. right. auto.
        + destruct (in_dec zz_dec (a', b') ((a, b) :: pairs)) as [[E1|]|Hn]; [|tauto|].
          * injection E1 as <- <-. rewrite !Z.eqb_refl. reflexivity.
          * destruct (Z.eqb_spec a' a), (Z.eqb_spec b' b); simpl; auto. subst. exfalso. apply Hn. left. auto.
      - apply (shaped_set _ _ _ _ na nb); auto. constructor.
    Qed.

    Lemma all_pairs (m : dofmat F) value : shaped m value ->
      forall a b, In (a, b) (list_prod (mat_types m) (mat_types m)) <-> In a (map fst sizes) /\ In b (map fst sizes).
    Proof. intros Hm a b. rewrite in_prod_iff, !(mat_types_keys m value Hm). reflexivity. Qed.

    Lemma fits_pairs m num ds : ma_fits sizes (MaAdd m num ds) ->
      NoDup (available_dofs num ds) /\
      (forall a b, In a (available_dofs num ds) -> In b (available_dofs num ds) -> fit_pair (num_of num) m a b) /\
      (forall a b i j, (if andb (existsb (Z.eqb a) (available_dofs num ds)) (existsb (Z.eqb b) (available_dofs num ds))
         then pair_contrib (num_of num) m a b i j else 0) = madd_contrib m num ds a b i j).
    Proof.
      intros (Hm2 & Han & Hnd & Hblk & Hsz). destruct (available_dofs_spec num ds Han Hnd) as (Hnd' & Hin).
      split; auto. split.
      - intros a b Ha Hb. apply Hin in Ha, Hb. destruct Ha as ((na & Ea) & Sa), Hb as ((nb & Eb) & Sb).
        destruct (Hblk a b na nb Ea Eb Sa Sb) as (x & Ex & Hr & Hc).
        destruct (Hsz a na Ea Sa) as (n & Hn & Hna), (Hsz b nb Eb Sb) as (k & Hk & Hnb).
        exists x, n, k. unfold num_of. rewrite Ea, Eb. auto 10.
      - intros a b i j. unfold madd_contrib, pair_contrib.
        destruct (andb (existsb _ _) _) eqn:E.
        + apply andb_true_iff in E. rewrite !mem_existsb, !Hin in E. destruct E as (((na & Ea) & Sa) & ((nb & Eb) & Sb)).
          unfold num_of. rewrite Ea, Eb. destruct (Hblk a b na nb Ea Eb Sa Sb) as (x & Ex & _). rewrite Ex.
          rewrite (proj2 (selected_spec ds a) Sa), (proj2 (selected_spec ds b) Sb). reflexivity.
        + destruct (mfind lt_dof a num) as [na|] eqn:Ea; [|reflexivity].
          destruct (mfind lt_dof b num) as [nb|] eqn:Eb; [|reflexivity].
          destruct (mfind lt_dofpair (a, b) m); [|reflexivity].
          destruct (andb (orb _ _) _) eqn:E2; [|reflexivity]. exfalso.
          apply andb_true_iff in E2. rewrite !selected_spec in E2. destruct E2 as (Sa & Sb).
          assert (In a (available_dofs num ds) /\ In b (available_dofs num ds)) as (H1 & H2) by (rewrite !Hin; eauto 6).
          apply mem_existsb in H1, H2. rewrite H1, H2 in E. discriminate.
    Qed.

    (** histories *)
    Definition not_resize (o : ma_op F) : Prop := match o with MaResize _ => False | _ => True end.
    Fixpoint no_early_reset (ops : list (ma_op F)) : Prop :=
      match ops with
      | [] => True
      | MaFinish :: _ => True
      | MaSetZero :: _ => False
      | _ :: ops' => no_early_reset ops'
      end.
    Definition is_finish (o : ma_op F) : bool := match o with MaFinish => true | _ => false end.

    Lemma ma_run_finished ops : forall t m value, Forall (ma_fits sizes) ops -> Forall not_resize ops -> shaped m value ->
      exists m' t', ma_run (mkMA t m true) ops = Ok (mkMA t' m' true) /\ shaped m' (since_reset ops value).
    Proof.
      induction ops as [|o ops IH]; intros t m value Hf Hr Hm; cbn [ma_run].
      - exists m, t. auto.
      - apply Forall_cons_iff in Hf, Hr. destruct Hf as (Hfo & Hf), Hr as (Hro & Hr).
        destruct o as [s|x num ds| |]; simpl in Hro; try tauto; cbn [ma_step ma_fin ma_trip ma_mat since_reset].
        + destruct (fits_pairs _ _ _ Hfo) as (Hnd & Hp & Hc).
          destruct (mat_add_rows_ok (num_of num) x _ _ m value Hnd Hnd Hp Hm) as (m1 & E1 & Hm1). rewrite E1. cbn [omap obind].
          apply IH; auto. eapply shaped_ext; [|exact Hm1]. intros. cbv beta. rewrite Hc. reflexivity.
        + cbn [obind]. apply IH; auto.
          eapply shaped_ext; [|apply (ma_zero_ok (list_prod (mat_types m) (mat_types m))); [apply (all_pairs m value Hm)|exact Hm]].
          intros a b i j Ha Hb. cbv beta.
          destruct (in_dec zz_dec (a, b) (list_prod (mat_types m) (mat_types m))) as [|Hn]; [reflexivity|].
          exfalso. apply Hn. apply (all_pairs m value Hm). auto.
        + cbn [obind]. apply IH; auto.
    Qed.

    Lemma ma_run_open ops : forall t m vt, Forall (ma_fits sizes) ops -> Forall not_resize ops -> no_early_reset ops ->
      shaped m (fun _ _ _ _ => 0) -> held t vt ->
      (existsb is_finish ops = true /\ exists m' t', ma_run (mkMA t m false) ops = Ok (mkMA t' m' true) /\ shaped m' (since_reset ops vt)) \/
      (existsb is_finish ops = false /\ exists t', ma_run (mkMA t m false) ops = Ok (mkMA t' m false) /\ held t' (since_reset ops vt)).
    Proof.
      induction ops as [|o ops IH]; intros t m vt Hf Hr Hn Hm Ht; cbn [ma_run].
      - right. split; auto. exists t. auto.
      - apply Forall_cons_iff in Hf, Hr. destruct Hf as (Hfo & Hf), Hr as (Hro & Hr).
        destruct o as [s|x num ds| |]; simpl in Hro, Hn; try tauto; cbn [ma_step ma_fin ma_trip ma_mat since_reset existsb is_finish orb].
        + destruct (fits_pairs _ _ _ Hfo) as (Hnd & Hp & Hc).
          destruct (matrix_rows_held (num_of num) x _ t vt Hnd Hp Ht) as (t1 & E1 & Ht1). rewrite E1. cbn [omap obind].
          apply IH; auto. intros a b na nb Ha Hb. destruct (Ht1 a b na nb Ha Hb) as (H1 & H2). split; auto.
          intros i j. rewrite H2. rewrite Hc. reflexivity.
        + left. split; auto.
          destruct (ma_finish_ok t vt (list_prod (mat_types m) (mat_types m)) Ht (fun a b H => proj1 (all_pairs m _ Hm a b) H) m _ Hm)
            as (m1 & E1 & Hm1). rewrite E1. cbn [omap obind].
          apply ma_run_finished; auto. eapply shaped_ext; [|exact Hm1]. intros a b i j Ha Hb. cbv beta.
          destruct (in_dec zz_dec (a, b) (list_prod (mat_types m) (mat_types m))) as [|Hno]; [reflexivity|].
          exfalso. apply Hno. apply (all_pairs m _ Hm). auto.
    Qed.

    Lemma matrix_assembler_lemma ops : Forall (ma_fits sizes) ops -> Forall not_resize ops -> no_early_reset ops ->
      exists s, ma_run ma_empty (MaResize sizes :: ops) = Ok s /\
        (if existsb is_finish ops then
           exists m, ma_get s = Ok m /\
             (forall a b na nb, In (a, na) sizes -> In (b, nb) sizes -> exists blk, mat_at m a b = Some blk /\
                srows blk = na /\ scols blk = nb /\ in_range blk /\
                forall i j, entry blk i j = since_reset ops (fun _ _ _ _ => 0) a b i j) /\
             (forall sz, ma_step s (MaResize sz) = Throw)
         else ma_get s = Throw /\ forall sz, exists s', ma_step s (MaResize sz) = Ok s').
    Proof.
      intros Hf Hr Hn. cbn [ma_run ma_step ma_empty ma_fin ma_trip ma_mat obind].
      destruct (ma_run_open ops (fun _ _ => []) (ma_resize sizes []) (fun _ _ _ _ => 0) Hf Hr Hn ma_resize_ok)
        as [(-> & m & t & E & Hm)|(-> & t & E & Ht)].
      - intros a b na nb _ _. split; [constructor|reflexivity].
      - rewrite E. eexists. split; [reflexivity|]. exists m. split; [reflexivity|]. split; [apply Hm|reflexivity].
      - rewrite E. eexists. split; [reflexivity|]. split; [reflexivity|]. intros sz. eexists. reflexivity.
    Qed.
  End Matrix.
End C19.
