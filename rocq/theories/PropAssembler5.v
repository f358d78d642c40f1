(** * C19: what a MatrixAssembler holds after any history *)
From Coq Require Import List ZArith Arith Bool Lia.
From Verif Require Import Algebra Outcome DofModel DofSpec DofProofs AssemblerModel AssemblerSpec AssemblerProofs AssemblerProofs2 AssemblerProofs3 PropAssembler.
Import ListNotations.

(** what the assembler really holds: until Finish everything that was added, whatever SetZero and Resize were called in between;
    after it what was added since the last SetZero *)
Fixpoint assembled {F : CRing} (ops : list (ma_op F)) (acc : Z -> Z -> nat -> nat -> F) : Z -> Z -> nat -> nat -> F :=
  match ops with
  | [] => acc
  | MaAdd m n ds :: ops' => assembled ops' (fun a b i j => radd (acc a b i j) (madd_contrib m n ds a b i j))
  | MaFinish :: ops' => since_reset ops' acc
  | _ :: ops' => assembled ops' acc
  end.

Section Histories.
  Context {F : CRing}.
  Variable sizes : list (Z * nat).
  Hypothesis ND : NoDup (map fst sizes).
  Let T := map fst sizes.
  Definition keysin (m : dofmat F) : Prop := dsorted2 m /\ forall a b s, mat_at m a b = Some s -> In a T /\ In b T.

  Lemma keysin_set m a b s : keysin m -> In a T -> In b T -> keysin (mset lt_dofpair (a, b) s m).
  Proof.
    intros (S & K) Ha Hb. split; [apply dsorted2_mset; exact S|]. intros a' b' s'. unfold mat_at. rewrite dfind2_dset by exact S. cbn [fst snd].
    destruct (andb (Z.eqb a' a) (Z.eqb b' b)) eqn:E; [|apply K]. apply andb_true_iff in E. rewrite !Z.eqb_eq in E. destruct E as (-> & ->). auto.
  Qed.
  Lemma keysin_resize sz m : (forall d, In d (map fst sz) -> In d T) -> keysin m -> keysin (ma_resize sz m).
  Proof.
    intros H. unfold ma_resize. assert (P : forall p, In p (list_prod sz sz) -> In (fst (fst p)) T /\ In (fst (snd p)) T).
    { intros [x y] Hp. apply in_prod_iff in Hp. destruct Hp. split; apply H, in_map; assumption. }
    revert P. generalize (list_prod sz sz). intros pairs. revert m. induction pairs as [|p pairs IH]; intros m P K; [exact K|]. cbn [fold_left].
    apply IH; [intros q Hq; apply P; right; exact Hq|]. destruct (P p (or_introl eq_refl)). apply keysin_set; assumption.
  Qed.
  Lemma keysin_types m d : keysin m -> In d (mat_types m) -> In d T.
  Proof.
    intros (S & K). rewrite in_mat_types. intros ([[a b] s] & He & Hd). cbn [fst snd] in Hd.
    assert (E : mat_at m a b = Some s) by (apply in_mfind; first [exact ltpair_irrefl|exact ltpair_trans|exact ltpair_total|assumption]).
    destruct (K a b s E). destruct Hd; subst; auto.
  Qed.
  Lemma keysin_zero m : keysin m -> keysin (fold_left (fun m p => mset lt_dofpair p
               (match mfind lt_dofpair p m with Some b => mkMat (F := F) (srows b) (scols b) [] | None => mkMat 0 0 [] end) m)
               (list_prod (mat_types m) (mat_types m)) m).
  Proof.
    intros K. assert (P : forall a b, In (a, b) (list_prod (mat_types m) (mat_types m)) -> In a T /\ In b T).
    { intros a b H. apply in_prod_iff in H. destruct H. split; apply (keysin_types m); assumption. }
    revert P K. generalize (list_prod (mat_types m) (mat_types m)). intros pairs. revert m. induction pairs as [|[a b] pairs IH]; intros m P K; [exact K|]. cbn [fold_left].
    apply IH; [intros x y Hq; apply P; right; exact Hq|]. destruct (P a b (or_introl eq_refl)). apply keysin_set; assumption.
  Qed.
  (** the last Resize *)
  Lemma resize_shaped m : keysin m -> shaped sizes (ma_resize sizes m) (fun _ _ _ _ => r0).
  Proof.
    intros K. assert (K' : keysin (ma_resize sizes m)) by (apply keysin_resize; auto).
    assert (X : forall pairs m, (forall p, In p pairs -> In (fst p) sizes /\ In (snd p) sizes) -> dsorted2 m ->
      let m' := fold_left (fun m p => mset lt_dofpair (fst (fst p), fst (snd p)) (mkMat (F := F) (snd (fst p)) (snd (snd p)) []) m) pairs m in
      forall a b na nb, In (a, na) sizes -> In (b, nb) sizes ->
        (In ((a, na), (b, nb)) pairs \/ mat_at m a b = Some (mkMat na nb [])) -> mat_at m' a b = Some (mkMat na nb [])).
    { clear K K' m. induction pairs as [|[[c nc] [d nd]] pairs IH]; intros m P S m' a b na nb Ha Hb H; [destruct H as [[]|H]; exact H|].
      unfold m'. cbn [fold_left fst snd]. destruct (P _ (or_introl eq_refl)) as (Hc & Hd). cbn [fst snd] in Hc, Hd.
      apply IH; [intros q Hq; apply P; right; exact Hq|apply dsorted2_mset; exact S|exact Ha|exact Hb|].
      destruct H as [[E|H]|H]; [|left; exact H|].
      - injection E as -> -> -> ->. right. unfold mat_at. rewrite dfind2_dset by exact S. cbn [fst snd]. rewrite !Z.eqb_refl. reflexivity.
      - right. unfold mat_at in *. rewrite dfind2_dset by exact S. cbn [fst snd]. destruct (andb (Z.eqb a c) (Z.eqb b d)) eqn:E; [|exact H].
        apply andb_true_iff in E. rewrite !Z.eqb_eq in E. destruct E as (-> & ->).
        rewrite (size_unique sizes ND c na nc Ha Hc), (size_unique sizes ND d nb nd Hb Hd). reflexivity. }
    split; [apply K'|]. split; [|apply K'].
    intros a b na nb Ha Hb. exists (mkMat na nb []). split.
    - apply (X (list_prod sizes sizes) m); auto; [intros [x y] Hp; apply in_prod_iff in Hp; exact Hp|apply K|]. left. apply in_prod_iff. auto.
    - split; [reflexivity|]. split; [reflexivity|]. split; [constructor|reflexivity].
  Qed.

  (** before the last Resize *)
  Lemma run_before ops : forall t m vt rest, Forall (ma_fits sizes) ops -> existsb is_finish ops = false ->
    (forall sz d, In (MaResize sz) ops -> In d (map fst sz) -> In d T) -> keysin m -> held sizes t vt ->
    exists t' m' vt', ma_run (mkMA t m false) (ops ++ rest) = ma_run (mkMA t' m' false) rest /\ keysin m' /\ held sizes t' vt' /\
      forall l, assembled (ops ++ l) vt = assembled l vt'.
  Proof.
    induction ops as [|o ops IH]; intros t m vt rest Hf Hn Hs K Ht; [exists t, m, vt; auto|].
    apply Forall_cons_iff in Hf. destruct Hf as (Hfo & Hf). cbn [existsb] in Hn. apply orb_false_iff in Hn. destruct Hn as (Hno & Hn).
    assert (Hs' : forall sz d, In (MaResize sz) ops -> In d (map fst sz) -> In d T) by (intros sz d H; apply Hs; right; exact H).
    cbn [app ma_run]. destruct o as [sz|x num ds| |]; cbn [ma_step ma_fin ma_trip ma_mat]; [| | |discriminate].
    - cbn [obind]. destruct (IH t (ma_resize sz m) vt rest Hf Hn Hs') as (t' & m' & vt' & E & H); [|exact Ht|].
      + apply keysin_resize; [|exact K]. intros d. apply Hs. left. reflexivity.
      + exists t', m', vt'. split; [exact E|]. exact H.
    - destruct (fits_pairs sizes _ _ _ Hfo) as (Hnd & Hp & Hc).
      destruct (matrix_rows_held sizes ND (num_of num) x _ t vt Hnd Hp Ht) as (t1 & E1 & Ht1). rewrite E1. cbn [omap obind].
      destruct (IH t1 m (fun a b i j => radd (vt a b i j) (madd_contrib x num ds a b i j)) rest Hf Hn Hs' K) as (t' & m' & vt' & E & H).
      + intros a b na nb Ha Hb. destruct (Ht1 a b na nb Ha Hb) as (H1 & H2). split; [exact H1|]. intros i j. rewrite H2, Hc. reflexivity.
      + exists t', m', vt'. split; [exact E|]. exact H.
    - cbn [obind]. destruct (IH t _ vt rest Hf Hn Hs' (keysin_zero m K) Ht) as (t' & m' & vt' & E & H).
      exists t', m', vt'. split; [exact E|]. exact H.
  Qed.
  (** after it *)
  Lemma run_after (ops : list (ma_op F)) : forall t m vt, Forall (ma_fits sizes) ops -> Forall not_resize ops ->
    shaped sizes m (fun _ _ _ _ => r0) -> held sizes t vt ->
    (existsb is_finish ops = true /\ exists m' t', ma_run (mkMA t m false) ops = Ok (mkMA t' m' true) /\ shaped sizes m' (assembled ops vt)) \/
    (existsb is_finish ops = false /\ exists m' t', ma_run (mkMA t m false) ops = Ok (mkMA t' m' false)).
  Proof.
    induction ops as [|o ops IH]; intros t m vt Hf Hr Hm Ht; cbn [ma_run].
    - right. split; auto. exists m, t. auto.
    - apply Forall_cons_iff in Hf, Hr. destruct Hf as (Hfo & Hf), Hr as (Hro & Hr).
      destruct o as [s|x num ds| |]; [destruct Hro| | |]; cbn [ma_step ma_fin ma_trip ma_mat assembled existsb is_finish orb].
      + destruct (fits_pairs sizes _ _ _ Hfo) as (Hnd & Hp & Hc).
        destruct (matrix_rows_held sizes ND (num_of num) x _ t vt Hnd Hp Ht) as (t1 & E1 & Ht1). rewrite E1. cbn [omap obind].
        apply IH; auto. intros a b na nb Ha Hb. destruct (Ht1 a b na nb Ha Hb) as (H1 & H2). split; [exact H1|]. intros i j. rewrite H2, Hc. reflexivity.
      + cbn [obind]. apply IH; auto.
        eapply shaped_ext; [|apply (ma_zero_ok sizes ND (list_prod (mat_types m) (mat_types m))); [apply (all_pairs sizes m _ Hm)|exact Hm]].
        intros a b i j Ha Hb. cbv beta. destruct (in_dec zz_dec (a, b) _); reflexivity.
      + left. split; [reflexivity|].
        destruct (ma_finish_ok sizes ND t vt (list_prod (mat_types m) (mat_types m)) Ht (fun a b H => proj1 (all_pairs sizes m _ Hm a b) H) m _ Hm)
          as (m1 & E1 & Hm1). rewrite E1. cbn [omap obind].
        apply ma_run_finished; auto. eapply shaped_ext; [|exact Hm1]. intros a b i j Ha Hb. cbv beta.
        destruct (in_dec zz_dec (a, b) (list_prod (mat_types m) (mat_types m))) as [|Hno]; [reflexivity|].
        exfalso. apply Hno. apply (all_pairs sizes m _ Hm). auto.
  Qed.
End Histories.

(** Every history of a MatrixAssembler: [sizes] is the argument of the last Resize, which names all dof types resized before, and the
    contributions fit to it.  Then nothing fails; Get throws before Finish; after it the blocks have the sizes of [sizes] and
    the entries are what [assembled] says: SetZero and Resize before Finish discard nothing. *)
Theorem C19_matrix_assembler_histories : forall (F : CRing) before sizes ops, NoDup (map fst sizes) ->
  existsb is_finish before = false -> (forall sz d, In (MaResize sz) before -> In d (map fst sz) -> In d (map fst sizes)) ->
  Forall (ma_fits (F := F) sizes) (before ++ ops) -> Forall not_resize ops ->
  exists s, ma_run ma_empty (before ++ MaResize sizes :: ops) = Ok s /\
    (if existsb is_finish ops then
       exists m, ma_get s = Ok m /\
         forall a b na nb, In (a, na) sizes -> In (b, nb) sizes -> exists blk, mat_at m a b = Some blk /\
            srows blk = na /\ scols blk = nb /\ in_range blk /\
            forall i j, entry blk i j = assembled (before ++ ops) (fun _ _ _ _ => r0) a b i j
     else ma_get s = Throw).
Proof.
  intros F before sizes ops ND Hb Hs Hf Hr. apply Forall_app in Hf. destruct Hf as (Hf1 & Hf2).
  destruct (run_before (F := F) sizes ND before (fun _ _ => []) [] (fun _ _ _ _ => r0) (MaResize sizes :: ops) Hf1 Hb Hs) as (t & m & vt & E & K & Ht & A).
  - split; [constructor|discriminate].
  - intros a b na nb _ _. split; [constructor|reflexivity].
  - unfold ma_empty. rewrite E. cbn [ma_run ma_step ma_fin ma_trip ma_mat obind].
    destruct (run_after sizes ND ops t (ma_resize sizes m) vt Hf2 Hr (resize_shaped sizes ND m K) Ht) as [(-> & m' & t' & E' & Hm)|(-> & m' & t' & E')].
    + rewrite E'. eexists. split; [reflexivity|]. exists m'. split; [reflexivity|]. rewrite A. apply Hm.
    + rewrite E'. eexists. split; reflexivity.
Qed.
Print Assumptions C19_matrix_assembler_histories.

(** Finding: a Resize of one dof type leaves its blocks with the other types as they were, so that contributions within the new
    sizes are written out of bounds; the VectorAssembler takes them. *)
Theorem C19_resize_one_type_refuted :
  exists (m : dofdense Z_cring) (v : dofvec Z_cring) numbering, ma_fits [(7%Z, 2); (8%Z, 1)] (MaAdd m numbering []) /\
    ma_run ma_empty [MaResize [(7%Z, 1); (8%Z, 1)]; MaResize [(7%Z, 2)]; MaAdd m numbering []; MaFinish] = UB /\
    va_run (F := Z_cring) [] [VaResize [(7%Z, 1); (8%Z, 1)]; VaResize [(7%Z, 2)]; VaAdd v numbering []] = Ok [(7%Z, [0; 1]%Z); (8%Z, [1%Z])].
Proof.
  set (blk := mkD (F := Z_cring) 1 1 (fun _ _ => 1%Z)).
  exists [((7, 7)%Z, blk); ((7, 8)%Z, blk); ((8, 7)%Z, blk); ((8, 8)%Z, blk)], [(7%Z, [1%Z]); (8%Z, [1%Z])], [(7%Z, [1%Z]); (8%Z, [0%Z])].
  split; [|split; vm_compute; reflexivity].
  assert (K : forall a na, mfind lt_dof a [(7%Z, [1%Z]); (8%Z, [0%Z])] = Some na -> (a = 7%Z /\ na = [1%Z]) \/ (a = 8%Z /\ na = [0%Z])).
  { intros a na H. apply mfind_in in H; [|exact ltdof_total]. destruct H as [H|[H|[]]]; injection H as <- <-; auto. }
  split; [repeat constructor|]. split; [repeat constructor|]. split; [constructor|]. split.
  - intros a b na nb Ha Hb _ _. apply K in Ha, Hb. destruct Ha as [(-> & ->)|(-> & ->)], Hb as [(-> & ->)|(-> & ->)]; exists blk; repeat split.
  - intros a na Ha _. apply K in Ha. destruct Ha as [(-> & ->)|(-> & ->)]; [exists 2|exists 1]; (split; [cbn; auto|]); repeat constructor; lia.
Qed.
Print Assumptions C19_resize_one_type_refuted.

(** added, reset, resized, added, finished: the first contribution counts as well *)
Example C19_history_case : exists before ops : list (ma_op Z_cring), existsb is_finish before = false /\ existsb is_finish ops = true /\
  Forall (ma_fits [(7%Z, 2)]) (before ++ ops) /\ Forall not_resize ops /\
  assembled (before ++ ops) (fun _ _ _ _ => 0%Z) 7%Z 7%Z 0 0 = 3%Z /\ since_reset (before ++ ops) (fun _ _ _ _ => 0%Z) 7%Z 7%Z 0 0 = 2%Z.
Proof.
  exists [MaResize [(7%Z, 1)]; ex_add 1; MaSetZero], [ex_add 2; MaFinish]. split; [reflexivity|]. split; [reflexivity|].
  split; [repeat (apply Forall_cons; [first [apply ex_add_fits|exact I]|]); apply Forall_nil|]. split; [repeat constructor|].
  split; vm_compute; reflexivity.
Qed.

(** Finding: a contribution of a dof type that was never given a size is dropped without a word if it comes before Finish: nothing
    throws, Get works and has no block for it.  The same contribution after Finish is written out of bounds. *)
Theorem C19_unsized_type_refuted : forall (F : CRing) sizes d g (x : F), NoDup (map fst sizes) -> ~ In d (map fst sizes) ->
  let m := [((d, d), mkD 1 1 (fun _ _ => x))] in
  (exists s r, ma_run ma_empty [MaResize sizes; MaAdd m [(d, [g])] []; MaFinish] = Ok s /\ ma_get s = Ok r /\
     (forall b, mat_at r d b = None) /\
     forall a b na nb, In (a, na) sizes -> In (b, nb) sizes -> exists blk, mat_at r a b = Some blk /\ forall i j, entry blk i j = r0) /\
  ma_run ma_empty [MaResize sizes; MaFinish; MaAdd m [(d, [g])] []] = UB.
Proof.
  intros F sizes d g x ND Hd m.
  assert (K0 : keysin (F := F) sizes []) by (split; [constructor|discriminate]).
  assert (Hm := resize_shaped sizes ND [] K0).
  assert (F1 : mfind lt_dofpair (d, d) m = Some (mkD 1 1 (fun _ _ => x))).
  { unfold m, mfind, lt_dofpair. cbn [fst snd]. rewrite Z.ltb_irrefl, Z.eqb_refl. cbn [orb andb negb]. reflexivity. }
  assert (F2 : num_of [(d, [g])] d = [g]) by (unfold num_of, mfind, lt_dof; rewrite Z.ltb_irrefl; reflexivity).
  assert (Ef : forall t : triplets F, matrix_rows (num_of [(d, [g])]) m [d] [d] t = Ok (push t d d [(g, g, x)])).
  { intros t. cbn [matrix_rows matrix_row]. rewrite F1, F2. reflexivity. }
  assert (No : forall r : dofmat F, keysin sizes r -> forall b, mat_at r d b = None).
  { intros r (_ & K) b. destruct (mat_at r d b) eqn:E; [|reflexivity]. apply K in E. destruct E. contradiction. }
  split.
  - assert (Ht : held sizes (push (fun _ _ => []) d d [(g, g, x)]) (fun _ _ _ _ => r0)).
    { intros a b na nb Ha _. unfold push. destruct (Z.eqb_spec a d) as [->|_]; [|split; [constructor|reflexivity]].
      exfalso. apply Hd. apply in_map_iff. exists (d, na). auto. }
    destruct (run_after sizes ND [MaFinish] _ (ma_resize sizes []) _ (Forall_cons MaFinish I (Forall_nil _)) (Forall_cons MaFinish I (Forall_nil _)) Hm Ht)
      as [(_ & r & t' & E' & Hr)|(B & _)]; [|discriminate].
    exists (mkMA t' r true), r. split; [|split; [reflexivity|split]].
    + cbn [ma_run]. cbn [ma_step ma_fin ma_trip ma_mat ma_empty obind available_dofs bv_keys map fst]. rewrite Ef. cbn [omap obind]. exact E'.
    + apply No. destruct Hr as (S & _ & K). split; [exact S|exact K].
    + intros a b na nb Ha Hb. destruct Hr as (_ & B & _). destruct (B a b na nb Ha Hb) as (blk & E1 & _ & _ & _ & E2). exists blk. split; [exact E1|]. exact E2.
  - assert (Ht : held sizes (fun _ _ => []) (fun _ _ _ _ => r0 (c := F))) by (intros a b na nb _ _; split; [constructor|reflexivity]).
    destruct (run_after sizes ND [MaFinish] _ (ma_resize sizes []) _ (Forall_cons MaFinish I (Forall_nil _)) (Forall_cons MaFinish I (Forall_nil _)) Hm Ht)
      as [(_ & r & t' & E' & Hr)|(B & _)]; [|discriminate].
    assert (N : mat_at r d d = None) by (apply No; destruct Hr as (S & _ & K); split; [exact S|exact K]).
    cbn [ma_run] in E'. destruct (ma_step (mkMA (fun _ _ => []) (ma_resize sizes []) false) MaFinish) as [s1| |] eqn:E1; [|discriminate..].
    cbn [obind] in E'. injection E' as ->.
    cbn [ma_run]. change (ma_step ma_empty (MaResize sizes)) with (Ok (mkMA (fun _ _ => []) (ma_resize (F := F) sizes []) false)). cbn [obind].
    rewrite E1. cbn [obind ma_step ma_fin ma_mat available_dofs bv_keys map fst mat_add_rows mat_add_row]. rewrite F1, F2, N.
    change (local_triplets [g] [g] (mkD 1 1 (fun _ _ => x))) with (Ok [(g, g, x)]). cbn [obind srows scols].
    assert (U : set_from_triplets 0 0 [(g, g, x)] = UB).
    { unfold set_from_triplets. cbn [forallb]. destruct (Z.leb_spec 0 g), (Z.ltb_spec g (Z.of_nat 0)); first [reflexivity|exfalso; lia]. }
    rewrite U. reflexivity.
Qed.
Print Assumptions C19_unsized_type_refuted.
