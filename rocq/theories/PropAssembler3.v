(** * C17, C19: incomplete numberings and incomplete contributions of cells *)
From Coq Require Import List ZArith Arith Bool Lia.
From Verif Require Import Algebra Outcome DofModel DofProofs AssemblerModel AssemblerSpec AssemblerProofs.
Import ListNotations.

(** A dof type without a number of dependent or of independent dofs is rejected by BuildVector before any cell is evaluated,
    and by BuildMatrix if the number of independent dofs is missing. *)
Lemma resized_throws {F : CRing} info d : forall dofTypes v, In d dofTypes ->
  mfind lt_dof d (numDependent info) = None ->
  (forall d' a b, In d' dofTypes -> mfind lt_dof d' (numIndependent info) = Some a -> mfind lt_dof d' (numDependent info) = Some b -> (0 <= a + b)%Z) ->
  properly_resized (F := F) info dofTypes v = Throw.
Proof.
  induction dofTypes as [|e ds IH]; intros v Hi Hd Hp; [destruct Hi|]. cbn [properly_resized]. unfold info_size.
  destruct (mfind lt_dof e (numIndependent info)) as [a|] eqn:Ea; [|reflexivity].
  destruct (mfind lt_dof e (numDependent info)) as [b|] eqn:Eb; [|reflexivity].
  destruct (Z.leb_spec 0 (a + b)) as [H|H]; [|specialize (Hp e a b (or_introl eq_refl) Ea Eb); lia].
  cbn [obind]. apply IH; [|exact Hd|intros d' a' b' Hi'; apply Hp; right; exact Hi'].
  destruct Hi as [-> |Hi]; [congruence|exact Hi].
Qed.
Theorem C17_throws_without_dependent_number : forall (F : CRing) info threads cells dofTypes d,
  In d dofTypes -> mfind lt_dof d (numDependent info) = None ->
  (forall d' a b, In d' dofTypes -> mfind lt_dof d' (numIndependent info) = Some a -> mfind lt_dof d' (numDependent info) = Some b -> (0 <= a + b)%Z) ->
  forall r, build_vector (F := F) info threads cells dofTypes r <-> r = Throw.
Proof.
  intros F info threads cells dofTypes d Hi Hd Hp r. unfold build_vector. destruct (missing_numbering info dofTypes); [reflexivity|].
  rewrite (resized_throws info d) by assumption. reflexivity.
Qed.
Print Assumptions C17_throws_without_dependent_number.
Theorem C17_matrix_throws_without_numbering : forall (F : CRing) info threads cells dofTypes d,
  In d dofTypes -> mfind lt_dof d (numIndependent info) = None ->
  forall r, build_matrix (F := F) info threads cells dofTypes r <-> r = Throw.
Proof.
  intros F info threads cells dofTypes d Hi Hd r. unfold build_matrix.
  enough (missing_numbering info dofTypes = true) as -> by reflexivity.
  apply existsb_exists. exists d. split; [exact Hi|]. rewrite Hd. reflexivity.
Qed.
Print Assumptions C17_matrix_throws_without_numbering.

(** ** an exception of a cell *)
Lemma pexec_no_throw {C L G} (step : L -> C -> outcome L) (merge : G -> L -> outcome G) bad : (forall l, step l bad = Throw) ->
  forall s r, pexec step merge s r -> In bad (pool s) -> r = UB.
Proof.
  intros Hb s r H. induction H as [ls g H|s s' r Hs Hr IH|s Hs|s Hs]; intros Hin; [destruct Hin| |reflexivity|reflexivity].
  apply IH. inversion Hs as [p1 c p2 ls g i l Hl E1 E2|p ls g i l Hl E1 E2]; subst.
  - cbn [pool] in Hin. destruct (step l c) as [l'| |] eqn:El; try discriminate. cbn [omap obind] in E2. injection E2 as <-. cbn [pool].
    apply in_app_iff in Hin. apply in_app_iff. destruct Hin as [Hin|[<- |Hin]]; [left; exact Hin| |right; exact Hin]. rewrite Hb in El. discriminate.
  - destruct (merge g l) as [g'| |]; try discriminate. cbn [omap obind] in E2. injection E2 as <-. exact Hin.
Qed.
Lemma row_throws {F : CRing} num (h : @dofdense F) a b dofs : In b dofs -> mfind lt_dofpair (a, b) h = None ->
  (forall b' m, In b' dofs -> mfind lt_dofpair (a, b') h = Some m -> length (num a) <= drows m /\ length (num b') <= dcols m) ->
  forall t, matrix_row num h a dofs t = Throw.
Proof.
  intros Hi Hm. induction dofs as [|e ds IH]; intros Hf t; [destruct Hi|]. cbn [matrix_row].
  destruct (mfind lt_dofpair (a, e) h) as [m|] eqn:E; [|reflexivity].
  destruct (Hf e m (or_introl eq_refl) E) as (H1 & H2). unfold local_triplets.
  apply Nat.leb_le in H1, H2. rewrite H1, H2, orb_true_r. cbn [obind]. apply IH; [|intros b' m' Hb'; apply Hf; right; exact Hb'].
  destruct Hi as [-> |Hi]; [congruence|exact Hi].
Qed.
Lemma rows_throw {F : CRing} num (h : @dofdense F) a b rows dofs : In a rows -> In b dofs -> mfind lt_dofpair (a, b) h = None ->
  (forall a' b' m, In a' rows -> In b' dofs -> mfind lt_dofpair (a', b') h = Some m -> length (num a') <= drows m /\ length (num b') <= dcols m) ->
  forall t, matrix_rows num h rows dofs t = Throw.
Proof.
  intros Ha Hb Hm. induction rows as [|e rows IH]; intros Hf t; [destruct Ha|]. cbn [matrix_rows].
  destruct (in_dec Z.eq_dec a rows) as [Hin|Hnin].
  - assert (X : forall t, (exists t', matrix_row num h e dofs t = Ok t') \/ matrix_row num h e dofs t = Throw).
    { clear -Hf. assert (Hf' : forall b' m, In b' dofs -> mfind lt_dofpair (e, b') h = Some m -> length (num e) <= drows m /\ length (num b') <= dcols m)
        by (intros b' m H1 H2; apply Hf; [left; reflexivity|exact H1|exact H2]). clear Hf. induction dofs as [|d ds IH]; intros t; cbn [matrix_row]; [left; eexists; reflexivity|].
      destruct (mfind lt_dofpair (e, d) h) as [m|] eqn:E; [|right; reflexivity].
      destruct (Hf' d m (or_introl eq_refl) E) as (H1 & H2). unfold local_triplets. apply Nat.leb_le in H1, H2. rewrite H1, H2, orb_true_r. cbn [obind].
      apply IH. intros b' m' Hb'. apply Hf'. right. exact Hb'. }
    destruct (X t) as [(t' & ->)| ->]; [|reflexivity]. cbn [obind]. apply IH; [exact Hin|]. intros a' b' m Ha'. apply Hf. right. exact Ha'.
  - destruct Ha as [-> |Ha]; [|contradiction]. rewrite (row_throws num h a b); [reflexivity|exact Hb|exact Hm|].
    intros b' m Hb'. apply Hf; [left; reflexivity|exact Hb'].
Qed.

(** A cell whose matrix lacks the block of two of its dof types is not reported with an exception: the exception is thrown in
    the parallel region of BuildMatrix and ends the program, in every schedule.  The same holds for any exception of the
    function that is integrated. *)
Theorem C17_cell_exception_refuted : forall (F : CRing) info threads cells dofTypes bad a b,
  missing_numbering info dofTypes = false -> In bad cells ->
  let types := mat_types (mc_val bad) in
  In a types -> In a dofTypes -> In b types -> In b dofTypes -> mfind lt_dofpair (a, b) (mc_val bad) = None ->
  (forall a' b' m, mfind lt_dofpair (a', b') (mc_val bad) = Some m -> length (mc_num bad a') <= drows m /\ length (mc_num bad b') <= dcols m) ->
  forall r, build_matrix (F := F) info threads cells dofTypes r -> r = UB.
Proof.
  intros F info threads cells dofTypes bad a b Hmis Hin types Ta Da Tb Db Hm Hf r. unfold build_matrix. rewrite Hmis. intros (t & Ht & ->).
  assert (I : forall d, In d types -> In d dofTypes -> In d (dof_intersection types dofTypes)).
  { intros d H1 H2. unfold dof_intersection. apply in_flat_map. exists d. split; [exact H1|]. apply in_map_iff. exists d.
    split; [reflexivity|]. apply filter_In. split; [exact H2|apply Z.eqb_refl]. }
  unfold parallel in Ht. apply pexec_no_throw with (bad := bad) in Ht; [subst t; reflexivity| |exact Hin].
  intros l. unfold matrix_cell. apply (rows_throw _ _ a b); [apply I; assumption|apply I; assumption|exact Hm|]. intros a' b' m _ _. apply Hf.
Qed.
Print Assumptions C17_cell_exception_refuted.

(** ** the sequential assemblers report them *)
Theorem C19_missing_block_rejected : forall (F : CRing) s m numbering dofTypes a b, ma_fin (F := F) s = false ->
  let dofs := available_dofs numbering dofTypes in
  In a dofs -> In b dofs -> mfind lt_dofpair (a, b) m = None ->
  (forall a' b' x, mfind lt_dofpair (a', b') m = Some x -> length (num_of numbering a') <= drows x /\ length (num_of numbering b') <= dcols x) ->
  ma_step s (MaAdd m numbering dofTypes) = Throw.
Proof.
  intros F s m numbering dofTypes a b Hfin dofs Ha Hb Hm Hf. cbn [ma_step]. rewrite Hfin. fold dofs.
  rewrite (rows_throw _ _ a b dofs dofs Ha Hb Hm); [reflexivity|]. intros a' b' x _ _. apply Hf.
Qed.
Print Assumptions C19_missing_block_rejected.
Theorem C19_missing_vector_rejected : forall (F : CRing) s v d n rest dofs, n <> [] -> mfind lt_dof d v = None ->
  let numbering := (d, n) :: rest in
  available_dofs numbering dofs = d :: tl (available_dofs numbering dofs) ->
  va_step (F := F) s (VaAdd v numbering dofs) = Throw.
Proof.
  intros F s v d n rest dofs Hn Hv numbering Hd. cbn [va_step]. rewrite Hd. cbn [scatter_dofs].
  assert (E : num_of numbering d = n) by (unfold num_of, numbering; cbn [mfind]; rewrite ltdof_irrefl; reflexivity).
  rewrite E. destruct n; [congruence|]. cbn [length Nat.eqb]. rewrite Hv. reflexivity.
Qed.
Print Assumptions C19_missing_vector_rejected.

(** two dof types, a cell without the block of the second and the first *)
Example C17_cell_exception_case : exists info cells dofTypes bad a b,
  missing_numbering info dofTypes = false /\ In bad cells /\ length cells = 2 /\ In a (mat_types (mc_val bad)) /\ In b (mat_types (mc_val bad)) /\
  In a dofTypes /\ In b dofTypes /\ mfind lt_dofpair (a, b) (mc_val (F := Z_cring) bad) = None /\
  (forall a' b' m, mfind lt_dofpair (a', b') (mc_val bad) = Some m -> length (mc_num bad a') <= drows m /\ length (mc_num bad b') <= dcols m).
Proof.
  set (blk := mkD (F := Z_cring) 1 1 (fun _ _ => 1%Z)).
  set (bad := mkMCell (F := Z_cring) [((0, 0)%Z, blk); ((0, 1)%Z, blk); ((1, 1)%Z, blk)] (fun d => [d])).
  exists (mkInfo [(0, 2); (1, 2)]%Z [(0, 0); (1, 0)]%Z), [mkMCell [((0, 0)%Z, blk)] (fun d => [d]); bad], [0; 1]%Z, bad, 1%Z, 0%Z.
  split; [reflexivity|]. split; [right; left; reflexivity|]. split; [reflexivity|]. split; [cbn; auto|]. split; [cbn; auto|]. split; [cbn; auto|].
  split; [cbn; auto|]. split; [reflexivity|]. intros a' b' m H. apply mfind_in in H; [|exact ltpair_total].
  destruct H as [H|[H|[H|[]]]]; injection H as _ _ <-; cbn; lia.
Qed.
