(** * Proofs about Hessian0 and UpdateHistory *)
From Coq Require Import List ZArith Arith Bool Lia Lra Reals.
From Verif Require Import Outcome GroupModel DofModel DofSpec DofProofs ConstraintModel Algebra MergerModel MergerSpec MergerProofs
  AssemblerModel AssemblerSpec AssemblerProofs CellModel CellProofs TdpModel TdpSpec.
Import ListNotations.

Lemma NoDup_app_intro {A} (l m : list A) : NoDup l -> NoDup m -> (forall x, In x l -> In x m -> False) -> NoDup (l ++ m).
Proof.
  induction l as [|x l IH]; intros Hl Hm Hd; cbn [app]; [exact Hm|]. inversion Hl as [|? ? Hx Hl']; subst. constructor.
  - rewrite in_app_iff. intros [F|F]; [exact (Hx F)|exact (Hd x (or_introl eq_refl) F)].
  - apply IH; [exact Hl'|exact Hm|]. intros y Hy. apply Hd. right. exact Hy.
Qed.

(** ** addition of sparse block matrices *)
Definition joined (a b : smat R_cring) : smat R_cring := mkMat (srows a) (scols a) (trip a ++ trip b).
Definition same_size (a b : smat R_cring) : Prop := srows a = srows b /\ scols a = scols b.
Lemma smat_add_ok a b : same_size a b -> smat_add a b = Some (joined a b).
Proof. intros (H1 & H2). unfold smat_add. rewrite H1, H2, !Nat.eqb_refl. cbn [andb]. rewrite <- H1, <- H2. reflexivity. Qed.
Lemma joined_entry a b i j : entry (joined a b) i j = (entry a i j + entry b i j)%R.
Proof. unfold entry, joined. cbn [trip]. rewrite sum_over_app. reflexivity. Qed.
Lemma joined_range a b : same_size a b -> in_range a -> in_range b -> in_range (joined a b).
Proof.
  intros (H1 & H2) Ha Hb. unfold in_range, joined in *. cbn [trip srows scols]. apply Forall_app. split; [exact Ha|].
  rewrite H1, H2. exact Hb.
Qed.

Definition merged2 (a b : option (smat R_cring)) : option (smat R_cring) :=
  match a, b with Some x, Some y => Some (joined x y) | None, y => y | x, None => x end.

Lemma dofmat_add_spec rhs : forall m, dsorted2 m -> dsorted2 rhs ->
  (forall k x y, mfind lt_dofpair k m = Some x -> mfind lt_dofpair k rhs = Some y -> same_size x y) ->
  exists m', dofmat_add m rhs = Some m' /\ dsorted2 m' /\
    forall k, mfind lt_dofpair k m' = merged2 (mfind lt_dofpair k m) (mfind lt_dofpair k rhs).
Proof.
  unfold dofmat_add, bv_add. induction rhs as [|[k b] rhs IH]; intros m Hm Hr Hg; cbn [merge_blocks].
  - exists m. split; [reflexivity|]. split; [exact Hm|]. intros k. cbn [mfind]. destruct (mfind lt_dofpair k m); reflexivity.
  - destruct (msorted_inv _ _ _ _ Hr) as (Hr' & Hlt).
    assert (Hk : mfind lt_dofpair k rhs = None) by (apply mfind_lt_head; exact Hlt).
    assert (Hkb : mfind lt_dofpair k ((k, b) :: rhs) = Some b) by (cbn [mfind]; rewrite ltpair_irrefl; reflexivity).
    assert (Hother : forall d, d <> k -> mfind lt_dofpair d ((k, b) :: rhs) = mfind lt_dofpair d rhs).
    { intros d Hd. cbn [mfind]. destruct (lt_dofpair d k) eqn:E1.
      - symmetry. apply mfind_lt_head. intros k' Hk'. eapply ltpair_trans; [exact E1|apply Hlt; exact Hk'].
      - destruct (lt_dofpair k d) eqn:E2; [reflexivity|]. exfalso. apply Hd. apply ltpair_total; assumption. }
    assert (Hstep : exists m1, merge_entry lt_dofpair smat_add (fun b => b) m (k, b) = Some m1 /\ dsorted2 m1 /\
              (mfind lt_dofpair k m1 = merged2 (mfind lt_dofpair k m) (Some b)) /\ forall d, d <> k -> mfind lt_dofpair d m1 = mfind lt_dofpair d m).
    { assert (Set_ : forall w, dsorted2 (mset lt_dofpair k w m) /\ mfind lt_dofpair k (mset lt_dofpair k w m) = Some w /\
                forall d, d <> k -> mfind lt_dofpair d (mset lt_dofpair k w m) = mfind lt_dofpair d m).
      { intros w. split; [apply dsorted2_mset; exact Hm|]. split.
        - rewrite dfind2_dset by exact Hm. rewrite !Z.eqb_refl. reflexivity.
        - intros d Hd. rewrite dfind2_dset by exact Hm. destruct d as [d1 d2], k as [k1 k2]. cbn [fst snd].
          destruct (Z.eqb_spec d1 k1), (Z.eqb_spec d2 k2); cbn [andb]; try reflexivity. subst. congruence. }
      unfold merge_entry. cbn [fst snd]. destruct (mfind lt_dofpair k m) as [x|] eqn:E.
      - rewrite (smat_add_ok x b) by (eapply Hg; [exact E|exact Hkb]). eexists. split; [reflexivity|]. apply Set_.
      - eexists. split; [reflexivity|]. apply Set_. }
    destruct Hstep as (m1 & -> & Hm1 & Hf1 & Hf2).
    destruct (IH m1 Hm1 Hr') as (m' & -> & Hm' & Hf').
    { intros d x y Hx Hy. assert (d <> k) by (intros ->; congruence). rewrite Hf2 in Hx by assumption.
      apply (Hg d); [exact Hx|]. rewrite Hother by assumption. exact Hy. }
    exists m'. split; [reflexivity|]. split; [exact Hm'|]. intros d. rewrite Hf'.
    destruct d as [d1 d2], k as [k1 k2]. destruct (Z.eq_dec d1 k1) as [->|Hne], (Z.eq_dec d2 k2) as [->|Hne']; try (rewrite Hf2, Hother by congruence; reflexivity).
    rewrite Hk, Hkb, Hf1. destruct (mfind lt_dofpair (k1, k2) m); reflexivity.
Qed.

Lemma set_blocks_sorted info (t : triplets R_cring) pairs : forall h h', set_blocks info t pairs h = Ok h' -> dsorted2 h -> dsorted2 h'.
Proof.
  induction pairs as [|[a b] ps IH]; intros h h' E Hh; cbn [set_blocks] in E; [injection E as <-; exact Hh|].
  destruct (info_size info a) as [n| |]; cbn [obind] in E; try discriminate.
  destruct (info_size info b) as [m| |]; cbn [obind] in E; try discriminate.
  destruct (set_from_triplets n m (t a b)) as [s| |]; cbn [obind] in E; try discriminate.
  apply (IH _ _ E). apply dsorted2_mset. exact Hh.
Qed.
Lemma build_matrix_sorted info threads (cells : list (mcell R_cring)) dofs h : build_matrix info threads cells dofs (Ok h) -> dsorted2 h.
Proof.
  unfold build_matrix. destruct (missing_numbering info dofs); [discriminate|]. intros (t & _ & E). symmetry in E.
  destruct t as [t'| |]; cbn [obind] in E; try discriminate. apply (set_blocks_sorted _ _ _ _ _ E). constructor.
Qed.

(** ** Hessian0 *)
Section Hessian.
  Variables (info : dof_info) (threads : nat) (dofs : list Z) (t dt : R) (v : node_values) (h : nodes) (N : Z -> nat).
  Hypothesis Hnd : NoDup dofs.
  Hypothesis Hth : 0 < threads.
  Hypothesis Hsz : sizes_known info dofs N.

  Definition block_ok (m : dofmat R_cring) (a b : Z) : Prop :=
    exists s, mat_at m a b = Some s /\ srows s = N a /\ scols s = N b /\ in_range s.
  Definition macc_ok (m : dofmat R_cring) : Prop :=
    dsorted2 m /\ forall a b, mat_at m a b = None \/ (In a dofs /\ In b dofs /\ block_ok m a b).
  Definition mfits_all (fs : list hessian_function) : Prop := forall f, In f fs -> Forall (mcell_fits dofs N) (f t dt v h).

  Lemma hessian_loop_spec fs : forall acc, macc_ok acc -> mfits_all fs ->
    (exists g, hessian_loop info threads dofs t dt v h fs acc (Ok g)) /\
    forall r, hessian_loop info threads dofs t dt v h fs acc r ->
      exists g, r = Ok g /\ macc_ok g /\ (fs <> [] -> forall a b, In a dofs -> In b dofs -> block_ok g a b) /\
        (forall a b i j, In a dofs -> In b dofs -> at_entry g a b i j =
           @radd R_cring (at_entry acc a b i j) (@sum_over R_cring _ fs (fun f => @sum_over R_cring _ (f t dt v h) (fun c => mcell_contrib c a b i j)))).
  Proof.
    induction fs as [|f fs IH]; intros acc Hacc Hfit.
    - split; [exists acc; constructor|]. intros r Hr. inversion Hr; subst. exists acc. split; [reflexivity|]. split; [exact Hacc|].
      split; [intros F; congruence|]. intros a b i j _ _. symmetry. apply (Rplus_0_r).
    - destruct (build_matrix_lemma (F := R_cring) info threads (f t dt v h) dofs N Hnd Hth Hsz (Hfit f (or_introl eq_refl))) as ((g0 & B0) & Ball).
      assert (Hfit' : mfits_all fs) by (intros f' Hf'; apply Hfit; right; exact Hf').
      assert (Step: forall g, build_matrix info threads (f t dt v h) dofs (Ok g) -> exists acc', dofmat_add acc g = Some acc' /\ macc_ok acc' /\
          (forall a b, In a dofs -> In b dofs -> block_ok acc' a b) /\
          forall a b i j, In a dofs -> In b dofs -> at_entry acc' a b i j = @radd R_cring (at_entry acc a b i j) (@sum_over R_cring _ (f t dt v h) (fun c => mcell_contrib c a b i j))).
      { intros g Bg. pose proof (build_matrix_sorted _ _ _ _ _ Bg) as Sg. destruct (Ball _ Bg) as (g' & Eg & Vg & Ng). injection Eg as <-.
        destruct Hacc as (Sa & Ha).
        destruct (dofmat_add_spec g acc Sa Sg) as (acc' & E1 & E2 & E3).
        { intros [a b] x y Hx Hy. destruct (Ha a b) as [F|(Ia & Ib & s & Es & R1 & R2 & _)]; [unfold mat_at in F; congruence|].
          destruct (Vg a b Ia Ib) as (m & Em & Q1 & Q2 & _). unfold mat_at in Es, Em. assert (x = s) by congruence. assert (y = m) by congruence.
          subst x y. split; congruence. }
        assert (Full: forall a b, In a dofs -> In b dofs -> block_ok acc' a b /\
           forall i j, at_entry acc' a b i j = @radd R_cring (at_entry acc a b i j) (@sum_over R_cring _ (f t dt v h) (fun c => mcell_contrib c a b i j))).
        { intros a b Ia Ib. destruct (Vg a b Ia Ib) as (m & Em & Q1 & Q2 & Q3 & Q4).
          assert (Eb: mat_at acc' a b = merged2 (mat_at acc a b) (Some m)) by (unfold mat_at; rewrite E3; unfold mat_at in Em; rewrite Em; reflexivity).
          unfold at_entry, block_ok. rewrite Eb. destruct (Ha a b) as [F|(_ & _ & s & Es & R1 & R2 & R3)].
          - rewrite F. cbn [merged2]. split; [exists m; auto|]. intros i j. rewrite Q4. symmetry. apply Rplus_0_l.
          - rewrite Es. cbn [merged2]. split.
            + exists (joined s m). split; [reflexivity|]. split; [exact R1|]. split; [exact R2|]. apply joined_range; [split; congruence|exact R3|exact Q3].
            + intros i j. rewrite joined_entry, Q4. reflexivity. }
        exists acc'. split; [exact E1|]. split; [split; [exact E2|]|split].
        - intros a b. destruct (in_dec Z.eq_dec a dofs) as [Ia|Ia]; [destruct (in_dec Z.eq_dec b dofs) as [Ib|Ib]|].
          + right. split; [exact Ia|]. split; [exact Ib|]. apply Full; assumption.
          + left. unfold mat_at. rewrite E3. assert (F: mat_at g a b = None) by (apply Ng; tauto). unfold mat_at in F. rewrite F.
            destruct (Ha a b) as [F'|(_ & Ib' & _)]; [unfold mat_at in F'; rewrite F'; reflexivity|tauto].
          + left. unfold mat_at. rewrite E3. assert (F: mat_at g a b = None) by (apply Ng; tauto). unfold mat_at in F. rewrite F.
            destruct (Ha a b) as [F'|(Ia' & _)]; [unfold mat_at in F'; rewrite F'; reflexivity|tauto].
        - intros a b Ia Ib. apply Full; assumption.
        - intros a b i j Ia Ib. apply Full; assumption. }
      assert (Fin: forall acc' g, (forall a b, In a dofs -> In b dofs -> block_ok acc' a b) ->
                (fs <> [] -> forall a b, In a dofs -> In b dofs -> block_ok g a b) ->
                hessian_loop info threads dofs t dt v h fs acc' (Ok g) -> forall a b, In a dofs -> In b dofs -> block_ok g a b).
      { intros acc' g Ha Hg Hl a b Ia Ib. destruct fs as [|f' fs']; [inversion Hl; subst; auto|apply Hg; [discriminate|exact Ia|exact Ib]]. }
      split.
      + destruct (Step g0 B0) as (acc' & E1 & E2 & E3 & E4). destruct (IH acc' E2 Hfit') as ((g & Hg) & _).
        exists g. eapply hl_next; eauto.
      + intros r Hr. inversion Hr as [|? ? ? Hb|? ? ? Hb|? ? ? g Hb Hadd|? ? ? g acc1 ? Hb Hadd Hrest]; subst.
        * destruct (Ball _ Hb) as (g' & F & _). discriminate.
        * destruct (Ball _ Hb) as (g' & F & _). discriminate.
        * destruct (Step g Hb) as (acc' & E1 & _). congruence.
        * destruct (Step g Hb) as (acc' & E1 & E2 & E3 & E4). assert (acc1 = acc') by congruence. subst acc1.
          destruct (IH acc' E2 Hfit') as (_ & Hall). destruct (Hall r Hrest) as (g' & -> & G1 & G2 & G3).
          exists g'. split; [reflexivity|]. split; [exact G1|]. split; [intros _; apply (Fin acc' g'); assumption|].
          intros a b i j Ia Ib. rewrite (G3 a b i j Ia Ib), (E4 a b i j Ia Ib). cbn [sum_over map]. apply Rplus_assoc.
  Qed.
End Hessian.

(** ** UpdateHistory *)
Section Update.
  Context {S : Type}.
  Variable ips : ucell -> nat -> ipdata.
  Local Notation points_of := (points_of ips).

  Lemma update_cells_spec (f : S -> ipdata -> S) cells : (forall c i, In c cells -> i < uc_ips c -> cell_point c i (ips c i)) ->
    forall x, update_cells f cells x = Ok (fold_left f (points_of cells) x).
  Proof.
    induction cells as [|c cs IH]; intros H x; cbn [update_cells TdpSpec.points_of flat_map]; [reflexivity|].
    unfold cell_apply. rewrite (apply_loop_spec _ _ _ _ _ _ _ (ips c)).
    - cbn [obind]. rewrite IH by (intros c' i Hc; apply H; right; exact Hc). rewrite fold_left_app. f_equal. f_equal.
      generalize (seq 0 (uc_ips c)). intros l. revert x. induction l as [|i l IHl]; intros x; cbn [fold_left map]; [reflexivity|apply IHl].
    - intros i Hi. apply in_seq in Hi. apply H; [left; reflexivity|lia].
  Qed.

  Lemma update_loop_spec t dt v (fs : list (list ucell * update_function S)) :
    (forall cells f c i, In (cells, f) fs -> In c cells -> i < uc_ips c -> cell_point c i (ips c i)) ->
    forall x, update_loop t dt v fs x =
      Ok (fold_left (fun y call => fst call y (snd call)) (flat_map (fun e => map (fun ip => (snd e t dt v, ip)) (points_of (fst e))) fs) x).
  Proof.
    induction fs as [|[cells f] fs IH]; intros H x; cbn [update_loop flat_map]; [reflexivity|].
    rewrite update_cells_spec by (intros c i Hc Hi; apply (H cells f c i (or_introl eq_refl) Hc Hi)). cbn [obind].
    rewrite IH by (intros cells' f' c i Hin; apply (H cells' f' c i (or_intror Hin))). rewrite fold_left_app. f_equal. f_equal. cbn [fst snd].
    generalize (points_of cells). intros l. revert x. induction l as [|p l IHl]; intros x; cbn [fold_left map]; [reflexivity|apply IHl].
  Qed.
End Update.

(** ** a store of history data, updated point by point *)
Section Store.
  Context {H : Type}.
  Variable g : ipdata -> H -> H.
  Definition store_update (x : Z -> nat -> H) (ip : ipdata) : Z -> nat -> H :=
    fun c i => if andb (Z.eqb c (ipCell ip)) (Nat.eqb i (ipId ip)) then g ip (x c i) else x c i.

  Lemma store_fold l : NoDup (map (fun ip => (ipCell ip, ipId ip)) l) -> forall x,
    (forall ip, In ip l -> fold_left store_update l x (ipCell ip) (ipId ip) = g ip (x (ipCell ip) (ipId ip))) /\
    (forall c i, ~ In (c, i) (map (fun ip => (ipCell ip, ipId ip)) l) -> fold_left store_update l x c i = x c i).
  Proof.
    induction l as [|p l IH]; intros Hn x; cbn [map fold_left].
    - split; [intros ip []|reflexivity].
    - cbn [map] in Hn. inversion Hn as [|? ? Hni Hn']; subst. destruct (IH Hn' (store_update x p)) as (I1 & I2). split.
      + intros ip [<-|Hin].
        * rewrite I2 by exact Hni. unfold store_update. rewrite Z.eqb_refl, Nat.eqb_refl. reflexivity.
        * rewrite (I1 ip Hin). f_equal. unfold store_update.
          destruct (Z.eqb_spec (ipCell ip) (ipCell p)) as [E1|]; [|reflexivity]. destruct (Nat.eqb_spec (ipId ip) (ipId p)) as [E2|]; [|reflexivity].
          exfalso. apply Hni. rewrite <- E1, <- E2. apply (in_map (fun ip => (ipCell ip, ipId ip)) l ip Hin).
      + intros c i Hci. rewrite I2 by (intros F; apply Hci; right; exact F). unfold store_update.
        destruct (Z.eqb_spec c (ipCell p)) as [->|]; [|reflexivity]. destruct (Nat.eqb_spec i (ipId p)) as [->|]; [|reflexivity].
        exfalso. apply Hci. left. reflexivity.
  Qed.

  Lemma points_keys ips cells : (forall c i, In c cells -> i < uc_ips c -> cell_point c i (ips c i)) -> NoDup (map uc_id cells) ->
    NoDup (map (fun ip => (ipCell ip, ipId ip)) (points_of ips cells)) /\
    (forall c i, In (c, i) (map (fun ip => (ipCell ip, ipId ip)) (points_of ips cells)) <-> exists u, In u cells /\ uc_id u = c /\ i < uc_ips u).
  Proof.
    induction cells as [|u us IH]; intros Hp Hn; cbn [TdpSpec.points_of flat_map map].
    - split; [constructor|]. intros c i. split; [intros []|intros (u & [] & _)].
    - cbn [map] in Hn. inversion Hn as [|? ? Hni Hn']; subst.
      destruct (IH (fun c i Hc => Hp c i (or_intror Hc)) Hn') as (I1 & I2).
      assert (E: map (fun ip => (ipCell ip, ipId ip)) (map (ips u) (seq 0 (uc_ips u))) = map (fun i => (uc_id u, i)) (seq 0 (uc_ips u))).
      { rewrite map_map. apply map_ext_in. intros i Hi. apply in_seq in Hi.
        destruct (make_ip_fields _ _ _ _ _ _ i _ (Hp u i (or_introl eq_refl) ltac:(lia))) as (-> & -> & _). reflexivity. }
      rewrite map_app, E. split.
      + apply NoDup_app_intro.
        * apply FinFun.Injective_map_NoDup; [intros i j F; congruence|apply seq_NoDup].
        * exact I1.
        * intros [c i] H1 H2. apply in_map_iff in H1. destruct H1 as (j & F & _). injection F as <- <-.
          apply I2 in H2. destruct H2 as (u' & Hu' & F & _). apply Hni. rewrite <- F. apply in_map. exact Hu'.
      + intros c i. rewrite in_app_iff, in_map_iff, I2. split.
        * intros [(j & F & Hj)|(u' & Hu' & F)].
          -- injection F as <- <-. apply in_seq in Hj. exists u. split; [left; reflexivity|]. split; [reflexivity|lia].
          -- exists u'. split; [right; exact Hu'|exact F].
        * intros (u' & [<-|Hu'] & F & Hi).
          -- left. exists i. subst c. split; [reflexivity|]. apply in_seq. lia.
          -- right. exists u'. auto.
  Qed.
End Store.
