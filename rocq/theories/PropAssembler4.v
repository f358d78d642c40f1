(** * C18: lumped matrices with incomplete numberings and incomplete contributions of cells *)
From Coq Require Import List ZArith Arith Bool Reals Lia.
From Verif Require Import Algebra Outcome DofModel DofProofs AssemblerModel AssemblerSpec AssemblerProofs PropAssembler3.
Import ListNotations.

Lemma resized_throws_any {F : CRing} info d : forall dofTypes v, In d dofTypes ->
  mfind lt_dof d (numDependent info) = None \/ mfind lt_dof d (numIndependent info) = None ->
  (forall d' a b, In d' dofTypes -> mfind lt_dof d' (numIndependent info) = Some a -> mfind lt_dof d' (numDependent info) = Some b -> (0 <= a + b)%Z) ->
  properly_resized (F := F) info dofTypes v = Throw.
Proof.
  induction dofTypes as [|e ds IH]; intros v Hi Hd Hp; [destruct Hi|]. cbn [properly_resized]. unfold info_size.
  destruct (mfind lt_dof e (numIndependent info)) as [a|] eqn:Ea; [|reflexivity].
  destruct (mfind lt_dof e (numDependent info)) as [b|] eqn:Eb; [|reflexivity].
  destruct (Z.leb_spec 0 (a + b)) as [H|H]; [|specialize (Hp e a b (or_introl eq_refl) Ea Eb); lia].
  cbn [obind]. apply IH; [|exact Hd|intros d' a' b' Hi'; apply Hp; right; exact Hi'].
  destruct Hi as [-> |Hi]; [destruct Hd; congruence|exact Hi].
Qed.

(** BuildDiagonallyLumpedMatrix rejects a dof type without a number of dependent or of independent dofs, before any cell is
    evaluated. *)
Theorem C18_throws_without_numbering : forall num info threads cells dofTypes d, In d dofTypes ->
  mfind lt_dof d (numDependent info) = None \/ mfind lt_dof d (numIndependent info) = None ->
  (forall d' a b, In d' dofTypes -> mfind lt_dof d' (numIndependent info) = Some a -> mfind lt_dof d' (numDependent info) = Some b -> (0 <= a + b)%Z) ->
  forall r, build_lumped num info threads cells dofTypes r <-> r = Throw.
Proof.
  intros num info threads cells dofTypes d Hi Hd Hp r. unfold build_lumped. rewrite (resized_throws_any info d) by assumption. reflexivity.
Qed.
Print Assumptions C18_throws_without_numbering.

(** the first dof type without a diagonal block *)
Lemma lumped_stops num nums (h : @dofdense R_cring) d : forall dofs v, In d dofs -> mfind lt_dofpair (d, d) h = None ->
  lumped_dofs num nums h dofs v = Throw \/ lumped_dofs num nums h dofs v = UB.
Proof.
  induction dofs as [|e ds IH]; intros v Hi Hm; [destruct Hi|]. cbn [lumped_dofs].
  destruct (mfind lt_dofpair (e, e) h) as [m|] eqn:E; [|left; reflexivity].
  destruct (@dc_index (vec R_cring) [] v e) as [vd v1]. destruct (scatter vd (nums e) (lumped_local num e m)) as [vd'| |]; cbn [obind]; [|left; reflexivity|right; reflexivity].
  apply IH; [|exact Hm]. destruct Hi as [-> |Hi]; [congruence|exact Hi].
Qed.
Lemma pexec_stops {C L G} (step : L -> C -> outcome L) (merge : G -> L -> outcome G) bad : (forall l x, step l bad <> Ok x) ->
  forall s r, pexec step merge s r -> In bad (pool s) -> r = UB.
Proof.
  intros Hb s r H. induction H as [ls g H|s s' r Hs Hr IH|s Hs|s Hs]; intros Hin; [destruct Hin| |reflexivity|reflexivity].
  apply IH. inversion Hs as [p1 c p2 ls g i l Hl E1 E2|p ls g i l Hl E1 E2]; subst.
  - cbn [pool] in Hin. destruct (step l c) as [l'| |] eqn:El; try discriminate. cbn [omap obind] in E2. injection E2 as <-. cbn [pool].
    apply in_app_iff in Hin. apply in_app_iff. destruct Hin as [Hin|[<- |Hin]]; [left; exact Hin| |right; exact Hin]. destruct (Hb _ _ El).
  - destruct (merge g l) as [g'| |]; try discriminate. cbn [omap obind] in E2. injection E2 as <-. exact Hin.
Qed.

(** A cell that couples a dof type with another one but has no block of the type with itself - as in a mixed formulation without
    compressibility - is not reported: the exception is thrown in the parallel region and ends the program, in every schedule. *)
Theorem C18_cell_exception_refuted : forall num info threads cells dofTypes bad d zero,
  properly_resized (F := R_cring) info dofTypes [] = Ok zero -> In bad cells ->
  In d (mat_types (mc_val bad)) -> In d dofTypes -> mfind lt_dofpair (d, d) (mc_val bad) = None ->
  forall r, build_lumped num info threads cells dofTypes r -> r = UB.
Proof.
  intros num info threads cells dofTypes bad d zero Hz Hin Td Dd Hm r. unfold build_lumped. rewrite Hz. unfold parallel. intros H.
  apply pexec_stops with (bad := bad) in H; [exact H| |exact Hin].
  intros l x. unfold lumped_cell. destruct (lumped_stops num (mc_num bad) (mc_val bad) d (dof_intersection (mat_types (mc_val bad)) dofTypes) l) as [-> | ->]; try discriminate; [|exact Hm].
  unfold dof_intersection. apply in_flat_map. exists d. split; [exact Td|]. apply in_map_iff. exists d. split; [reflexivity|]. apply filter_In. split; [exact Dd|apply Z.eqb_refl].
Qed.
Print Assumptions C18_cell_exception_refuted.

(** displacements (0) and pressures (1), coupled with each other; there is no block of the pressures *)
Example C18_cell_exception_case : exists info dofTypes (bad : mcell R_cring) zero,
  properly_resized (F := R_cring) info dofTypes [] = Ok zero /\ In 1%Z (mat_types (mc_val bad)) /\ In 1%Z dofTypes /\
  mfind lt_dofpair (1, 1)%Z (mc_val bad) = None /\ length (mc_val bad) = 3.
Proof.
  set (blk := mkD (F := R_cring) 1 1 (fun _ _ => 1%R)).
  exists (mkInfo [(0, 2); (1, 2)]%Z [(0, 0); (1, 0)]%Z), [0; 1]%Z, (mkMCell (F := R_cring) [((0, 0)%Z, blk); ((0, 1)%Z, blk); ((1, 0)%Z, blk)] (fun d => [d])).
  eexists. split; [reflexivity|]. split; [cbn; auto|]. split; [cbn; auto|]. split; reflexivity.
Qed.
