(** * Properties C17-C19 (assembly) *)
From Coq Require Import List ZArith Arith Bool Reals Lra Lia Sorted.
From Verif Require Import Algebra Outcome DofModel DofSpec AssemblerModel AssemblerSpec AssemblerProofs AssemblerProofs2 AssemblerProofs3.
Import ListNotations.

(** C17.  [build_vector info threads cells dofTypes r]: some schedule of the
    parallel region ends with result [r].  There is one, and every one returns
    the sum of the scattered cell contributions. *)
Theorem C17_vector_schedule_independent :
  forall (F : CRing) info threads cells dofTypes N,
  NoDup dofTypes -> 0 < threads -> sizes_known info dofTypes N -> Forall (vcell_fits dofTypes N) cells ->
  (exists g, build_vector (F := F) info threads cells dofTypes (Ok g)) /\
  forall r, build_vector info threads cells dofTypes r ->
    exists g, r = Ok g /\ ascending g /\
      (forall d, size_of g d = if existsb (Z.eqb d) dofTypes then Some (N d) else None) /\
      (forall d n, In d dofTypes -> val g d n = sum_over cells (fun c => vcell_contrib c d n)).
Proof. exact (fun F => @build_vector_lemma F). Qed.
Print Assumptions C17_vector_schedule_independent.

Theorem C17_matrix_schedule_independent :
  forall (F : CRing) info threads cells dofTypes N,
  NoDup dofTypes -> 0 < threads -> sizes_known info dofTypes N -> Forall (mcell_fits dofTypes N) cells ->
  (exists h, build_matrix (F := F) info threads cells dofTypes (Ok h)) /\
  forall r, build_matrix info threads cells dofTypes r ->
    exists h, r = Ok h /\
      (forall a b, In a dofTypes -> In b dofTypes -> exists m, mat_at h a b = Some m /\
         srows m = N a /\ scols m = N b /\ in_range m /\
         forall i j, entry m i j = sum_over cells (fun c => mcell_contrib c a b i j)) /\
      (forall a b, ~ (In a dofTypes /\ In b dofTypes) -> mat_at h a b = None).
Proof. exact (fun F => @build_matrix_lemma F). Qed.
Print Assumptions C17_matrix_schedule_independent.

Theorem C17_throws_without_numbering :
  forall (F : CRing) info threads cells dofTypes d,
  In d dofTypes -> mfind lt_dof d (numIndependent info) = None ->
  forall r, build_vector (F := F) info threads cells dofTypes r <-> r = Throw.
Proof. exact (fun F => @build_vector_throw_lemma F). Qed.
Print Assumptions C17_throws_without_numbering.

(** two truss elements 0-1, 1-2; DofInfo with 2 independent and 1 dependent dofs *)
Definition ex_info := mkInfo [(7, 2)]%Z [(7, 1)]%Z.
Definition ex_cells : list (vcell Z_cring) :=
  [mkVCell (F := Z_cring) [(7, [10; 20])]%Z (fun _ => [0; 1]%Z);
   mkVCell (F := Z_cring) [(7, [5; 6])]%Z (fun _ => [1; 2]%Z)].
Example C17_example :
  sizes_known ex_info [7%Z] (fun _ => 3) /\ Forall (vcell_fits [7%Z] (fun _ => 3)) ex_cells /\
  sum_over ex_cells (fun c => vcell_contrib c 7 1) = 25%Z.
Proof.
  split; [|split; [|reflexivity]].
  - intros d [<-|[]]. exists 2%Z, 1%Z. repeat split; lia.
  - repeat apply Forall_cons; try apply Forall_nil; (split; [repeat constructor|]);
      intros d x [<-|[]] E; vm_compute in E; injection E as <-; (split; [reflexivity|]);
      repeat constructor; simpl; lia.
Qed.

Lemma take_first {C L G} (step : L -> C -> outcome L) (merge : G -> L -> outcome G) c p ls g i l l' r :
  nth_error ls i = Some (Some l) -> step l c = Ok l' ->
  pexec step merge (mkP p (set_nth i (Some l') ls) g) r -> pexec step merge (mkP (c :: p) ls g) r.
Proof.
  intros Hi Hs H. eapply PStep; [|exact H].
  pose proof (PTake step merge [] c p ls g i l Hi) as T. rewrite Hs in T. exact T.
Qed.
Lemma commit_at {C L G} (step : L -> C -> outcome L) (merge : G -> L -> outcome G) p ls g i l g' r :
  nth_error ls i = Some (Some l) -> merge g l = Ok g' ->
  pexec step merge (mkP p (set_nth i None ls) g') r -> pexec step merge (mkP p ls g) r.
Proof.
  intros Hi Hs H. eapply PStep; [|exact H].
  pose proof (PCommit step merge p ls g i l Hi) as T. rewrite Hs in T. exact T.
Qed.

(** a dof type listed twice is assembled twice *)
Theorem C17_duplicate_types_refuted :
  exists info cells dofTypes d n (g : dofvec Z_cring),
    sizes_known info dofTypes (fun _ => 3) /\ Forall (vcell_fits dofTypes (fun _ => 3)) cells /\ In d dofTypes /\
    build_vector info 1 cells dofTypes (Ok g) /\ val g d n <> sum_over cells (fun c => vcell_contrib c d n).
Proof.
  exists ex_info, [mkVCell (F := Z_cring) [(7, [10; 20])]%Z (fun _ => [0; 1]%Z)], [7; 7]%Z, 7%Z, 0, [(7, [20; 40; 0])]%Z.
  split; [|split; [|split; [|split]]].
  - intros d [<-|[<-|[]]]; exists 2%Z, 1%Z; repeat split; lia.
  - apply Forall_cons; [|apply Forall_nil]. split; [repeat constructor|].
    intros d x [<-|[<-|[]]] E; vm_compute in E; injection E as <-; (split; [reflexivity|]); repeat constructor; simpl; lia.
  - simpl. auto.
  - unfold build_vector. simpl. unfold parallel. simpl.
    eapply (take_first _ _ _ _ _ _ 0); [reflexivity|vm_compute; reflexivity|]. simpl.
    eapply (commit_at _ _ _ _ _ 0); [reflexivity|vm_compute; reflexivity|]. simpl. constructor. repeat constructor.
  - vm_compute. discriminate.
Qed.
Print Assumptions C17_duplicate_types_refuted.

(** C18.  [num d] is the number of components of dof type [d].  What the code
    guarantees: num * (sum of the lumped entries) = sum of all entries of the
    assembled consistent matrix, for any two schedules. *)
Theorem C18_lumped_total_partial :
  forall num info threads threads' cells dofTypes N d g K m,
  NoDup dofTypes -> 0 < threads -> 0 < threads' -> sizes_known info dofTypes N ->
  Forall (mcell_fits dofTypes N) cells -> In d dofTypes -> 0 < num d ->
  (forall c x, In c cells -> mfind lt_dofpair (d, d) (mc_val c) = Some x -> @lsum R_cring (local_diagonal x) <> 0%R) ->
  build_lumped num info threads cells dofTypes (Ok g) ->
  build_matrix info threads' cells dofTypes (Ok K) -> mat_at K d d = Some m ->
  (INR (num d) * @sum_n R_cring (N d) (fun n => val g d n) =
   @sum_n R_cring (N d) (fun i => @sum_n R_cring (N d) (fun j => entry m i j)))%R.
Proof. exact lumped_total_lemma. Qed.
Print Assumptions C18_lumped_total_partial.

(** hence the mass is preserved for dof types with one component *)
Theorem C18_scalar_mass_preserved_partial :
  forall num info threads threads' cells dofTypes N d g K m,
  NoDup dofTypes -> 0 < threads -> 0 < threads' -> sizes_known info dofTypes N ->
  Forall (mcell_fits dofTypes N) cells -> In d dofTypes -> num d = 1 ->
  (forall c x, In c cells -> mfind lt_dofpair (d, d) (mc_val c) = Some x -> @lsum R_cring (local_diagonal x) <> 0%R) ->
  build_lumped num info threads cells dofTypes (Ok g) ->
  build_matrix info threads' cells dofTypes (Ok K) -> mat_at K d d = Some m ->
  @sum_n R_cring (N d) (fun n => val g d n) =
  @sum_n R_cring (N d) (fun i => @sum_n R_cring (N d) (fun j => entry m i j)).
Proof.
  intros num info threads threads' cells dofTypes N d g K m H1 H2 H3 H4 H5 H6 H7 H8 H9 H10 H11.
  rewrite <- (lumped_total_lemma num info threads threads' cells dofTypes N d g K m); auto; [|lia].
  rewrite H7. simpl. symmetry. apply Rmult_1_l.
Qed.
Print Assumptions C18_scalar_mass_preserved_partial.

Theorem C18_nonnegative :
  forall num info threads cells dofTypes N d g,
  NoDup dofTypes -> 0 < threads -> sizes_known info dofTypes N ->
  Forall (mcell_fits dofTypes N) cells -> In d dofTypes -> 0 < num d ->
  (forall c x, In c cells -> mfind lt_dofpair (d, d) (mc_val c) = Some x ->
     Forall (Rle 0) (local_diagonal x) /\ (0 < full_sum x)%R) ->
  build_lumped num info threads cells dofTypes (Ok g) -> forall n, (0 <= val g d n)%R.
Proof. exact lumped_nonneg_lemma. Qed.
Print Assumptions C18_nonnegative.

Theorem C18_every_schedule :
  forall num info threads cells dofTypes N,
  NoDup dofTypes -> 0 < threads -> sizes_known info dofTypes N -> Forall (mcell_fits dofTypes N) cells ->
  (exists g, build_lumped num info threads cells dofTypes (Ok g)) /\
  forall r, build_lumped num info threads cells dofTypes r ->
    exists g, r = Ok g /\ ascending g /\
      (forall d, size_of g d = if existsb (Z.eqb d) dofTypes then Some (N d) else None) /\
      (forall d n, In d dofTypes -> val g d n = @sum_over R_cring _ cells (fun c => lumped_contrib num c d n)).
Proof. exact build_lumped_lemma. Qed.
Print Assumptions C18_every_schedule.

(** a vector valued dof: one node, two components, local mass diag(3,3).  Each
    component has mass 3, the lumped entries are 3/2. *)
Definition mass_cell : mcell R_cring :=
  mkMCell (F := R_cring) [((7, 7)%Z, mkD (F := R_cring) 2 2 (fun i j => if Nat.eqb i j then 3%R else 0%R))] (fun _ => [0; 1]%Z).
Example C18_example :
  sizes_known (mkInfo [(7, 2)]%Z [(7, 0)]%Z) [7%Z] (fun _ => 2) /\ mcell_fits [7%Z] (fun _ => 2) mass_cell.
Proof.
  split.
  - intros d [<-|[]]. exists 2%Z, 0%Z. repeat split; lia.
  - split; [repeat constructor|]. intros a b [<-|[]] [<-|[]] _ _. eexists. split; [vm_compute; reflexivity|].
    repeat split; repeat constructor; simpl; lia.
Qed.

Theorem C18_vector_mass_refuted :
  exists num info cells dofTypes N d g K m,
    sizes_known info dofTypes N /\ Forall (mcell_fits dofTypes N) cells /\ num d = 2 /\
    build_lumped num info 1 cells dofTypes (Ok g) /\
    build_matrix info 1 cells dofTypes (Ok K) /\ mat_at K d d = Some m /\
    (* component 0 consists of dof 0 only *)
    N d = 2 /\ val g d 0 <> entry m 0 0.
Proof.
  destruct C18_example as (Hs & Hf).
  assert (Hnd : NoDup [7%Z]) by (repeat constructor; simpl; tauto).
  assert (Hc : Forall (mcell_fits [7%Z] (fun _ => 2)) [mass_cell]) by (constructor; auto).
  destruct (build_lumped_lemma (fun _ => 2) _ 1 _ _ _ Hnd (le_n 1) Hs Hc) as ((g & Hg) & Hall).
  destruct (build_matrix_lemma (F := R_cring) _ 1 _ _ _ Hnd (le_n 1) Hs Hc) as ((K & HK) & HallK).
  destruct (Hall _ Hg) as (g' & E & _ & _ & Hv). injection E as <-.
  destruct (HallK _ HK) as (K' & E & He & _). injection E as <-.
  destruct (He 7%Z 7%Z) as (m & Em & _ & _ & _ & Hent); [simpl; auto..|].
  exists (fun _ => 2), (mkInfo [(7, 2)]%Z [(7, 0)]%Z), [mass_cell], [7%Z], (fun _ => 2), 7%Z, g, K, m.
  repeat split; auto. rewrite Hv, Hent by (simpl; auto).
  unfold sum_over, lumped_contrib, mcell_contrib. cbn [map lsum fold_right mass_cell mc_val mc_num mfind lt_dofpair fst snd].
  replace (if if Z.eqb 7 7 then Z.ltb 7 7 else Z.ltb 7 7 then _ else _) with
    (Some (mkD (F := R_cring) 2 2 (fun i j => if Nat.eqb i j then 3%R else 0%R))) by reflexivity.
  unfold contrib, contrib2, lumped_local, full_sum, local_diagonal, sum_n, sum_over. simpl.
  intros E. field_simplify in E. lra.
Qed.
Print Assumptions C18_vector_mass_refuted.

(** C19.  VectorAssembler: [av_step] is the specification (resize and reset the
    named types, add, reset all).  Every history that fits is executed without
    error and leaves exactly the specified sizes and values. *)
Theorem C19_vector_assembler :
  forall (F : CRing) ops, va_all_fit (F := F) av_empty ops ->
  exists s, va_run [] ops = Ok s /\
    (forall d, size_of s d = av_size (fold_left av_step ops av_empty) d) /\
    (forall d n, val s d n = av_val (fold_left av_step ops av_empty) d n).
Proof.
  intros F ops Hf. destruct (vector_assembler_lemma (F := F) ops [] av_empty) as (s & E & _ & H1 & H2); auto.
  - split; [constructor|]. split; reflexivity.
  - eauto.
Qed.
Print Assumptions C19_vector_assembler.

(** MatrixAssembler constructed with [sizes]: for every history of Add, SetZero,
    Finish without a SetZero before the first Finish the assembled entries are
    the contributions added since the last SetZero; Get throws before Finish,
    Resize throws after it. *)
Theorem C19_matrix_assembler_partial :
  forall (F : CRing) sizes, NoDup (map fst sizes) ->
  forall ops, Forall (ma_fits (F := F) sizes) ops -> Forall not_resize ops -> no_early_reset ops ->
  exists s, ma_run ma_empty (MaResize sizes :: ops) = Ok s /\
    (if existsb is_finish ops then
       exists m, ma_get s = Ok m /\
         (forall a b na nb, In (a, na) sizes -> In (b, nb) sizes -> exists blk, mat_at m a b = Some blk /\
            srows blk = na /\ scols blk = nb /\ in_range blk /\
            forall i j, entry blk i j = since_reset ops (fun _ _ _ _ => r0) a b i j) /\
         (forall sz, ma_step s (MaResize sz) = Throw)
     else ma_get s = Throw /\ forall sz, exists s', ma_step s (MaResize sz) = Ok s').
Proof. exact (fun F => @matrix_assembler_lemma F). Qed.
Print Assumptions C19_matrix_assembler_partial.

Definition ex_add (x : Z) : ma_op Z_cring :=
  MaAdd (F := Z_cring) [((7, 7)%Z, mkD (F := Z_cring) 2 2 (fun i j => (x + 10 * Z.of_nat i + Z.of_nat j)%Z))] [(7, [0; 1])]%Z [].
Lemma ex_add_fits x : ma_fits [(7%Z, 2)] (ex_add x).
Proof.
  split; [repeat constructor|]. split; [repeat constructor|]. split; [constructor|]. split.
  - intros a b na nb Ha Hb _ _. simpl in Ha, Hb.
    unfold lt_dof in *. destruct (Z.ltb a 7) eqn:E1; [discriminate|]. destruct (Z.ltb 7 a) eqn:E2; [discriminate|].
    destruct (Z.ltb b 7) eqn:E3; [discriminate|]. destruct (Z.ltb 7 b) eqn:E4; [discriminate|].
    apply Z.ltb_ge in E1, E2, E3, E4. assert (a = 7%Z) by lia. assert (b = 7%Z) by lia. subst.
    injection Ha as <-. injection Hb as <-. eexists. split; [vm_compute; reflexivity|]. split; reflexivity.
  - intros a na Ha _. simpl in Ha. unfold lt_dof in Ha.
    destruct (Z.ltb a 7) eqn:E1; [discriminate|]. destruct (Z.ltb 7 a) eqn:E2; [discriminate|].
    apply Z.ltb_ge in E1, E2. assert (a = 7%Z) by lia. subst. injection Ha as <-.
    exists 2. split; [simpl; auto|]. repeat constructor; simpl; lia.
Qed.
Example C19_example :
  let ops := [ex_add 1; MaFinish; ex_add 100; MaSetZero; ex_add 5; MaFinish; ex_add 6] in
  Forall (ma_fits [(7%Z, 2)]) ops /\ Forall not_resize ops /\ no_early_reset ops /\
  since_reset ops (fun _ _ _ _ => 0%Z) 7%Z 7%Z 1 0 = 31%Z.
Proof.
  cbn zeta. split; [|split; [|split]]; [|repeat constructor|simpl; auto|vm_compute; reflexivity].
  repeat (apply Forall_cons; [first [apply ex_add_fits|exact I]|]). apply Forall_nil.
Qed.

(** the full claim fails: SetZero before Finish does not discard what was added *)
Theorem C19_reset_before_finish_refuted :
  exists sizes (ops : list (ma_op Z_cring)) s m blk, NoDup (map fst sizes) /\
    Forall (ma_fits sizes) ops /\ Forall not_resize ops /\
    ma_run ma_empty (MaResize sizes :: ops) = Ok s /\ ma_get s = Ok m /\ mat_at m 7 7 = Some blk /\
    entry blk 1 0 <> since_reset ops (fun _ _ _ _ => 0%Z) 7%Z 7%Z 1 0.
Proof.
  eexists [(7%Z, 2)], [ex_add 1; MaSetZero; MaFinish], _, _, _.
  split; [repeat constructor; simpl; tauto|].
  split; [repeat (apply Forall_cons; [first [apply ex_add_fits|exact I]|]); apply Forall_nil|]. split; [repeat constructor|].
  split; [vm_compute; reflexivity|]. split; [vm_compute; reflexivity|]. split; [vm_compute; reflexivity|].
  vm_compute. discriminate.
Qed.
Print Assumptions C19_reset_before_finish_refuted.
