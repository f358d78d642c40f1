(** * Properties C07-C09 (nuto/mechanics/dofs) *)
From Coq Require Import List ZArith Arith Bool Lia Sorted.
From Verif Require Import Algebra DofModel DofSpec DofProofs.
Import ListNotations.

(** C07.  Any sequence of operations on a DofContainer returns exactly what the
    same sequence returns on an abstract function from dof ids to values, and
    iteration visits the stored entries in ascending id order. *)
Theorem C07_dof_container_is_a_map :
  forall (V : Type) (default : V) (ops : list (@dc_op V)),
    let m := fst (dc_run default [] ops) in
    let f := fst (abs_run default (fun _ => None) ops) in
    snd (dc_run default [] ops) = snd (abs_run default (fun _ => None) ops) /\
    (forall k, mfind lt_dof k m = f k) /\
    StronglySorted Z.lt (map fst m) /\ (forall k v, In (k, v) m <-> f k = Some v).
Proof. exact @dof_container_lemma. Qed.
Print Assumptions C07_dof_container_is_a_map.

Theorem C07_dof_info_merge :
  forall i d other, dsorted (numIndependent i) -> dsorted (numDependent i) ->
  let get m k := match mfind lt_dof k m with Some n => n | None => 0%Z end in
  let i' := dof_info_merge i d other in
  get (numIndependent i') d = get (numIndependent other) d /\
  get (numDependent i') d = get (numDependent other) d /\
  (forall k, k <> d -> mfind lt_dof k (numIndependent i') = mfind lt_dof k (numIndependent i) /\
                       mfind lt_dof k (numDependent i') = mfind lt_dof k (numDependent i)).
Proof. exact dof_info_merge_lemma. Qed.
Print Assumptions C07_dof_info_merge.

Example C07_example :
  snd (dc_run 0%Z [] [DcInsert 5 10; DcInsert 2 20; DcIndex 3; DcInsert 5 30; DcAt 7; DcAtAssign 2 9; DcConstIndex 2; DcHas 3]%Z)
  = [OUnit; OUnit; OVal 0; OThrow; OThrow; OUnit; OVal 9; OBool true]%Z
  /\ map fst (fst (dc_run 0%Z [] [DcInsert 5 10; DcInsert 2 20; DcIndex 3]%Z)) = [2; 3; 5]%Z.
Proof. split; reflexivity. Qed.

(** C08.  [val v d i]: component i of the block of dof type d, a missing block
    counting as zero.  [compatible]: common blocks have equal sizes. *)
Theorem C08_add :
  forall (F : CRing) (a b : dofvec F), ascending a -> ascending b -> compatible a b ->
  exists c, dv_add a b = Some c /\ ascending c /\
    (forall d, size_of c d = osize (size_of a d) (size_of b d)) /\
    (forall d i, val c d i = radd (val a d i) (val b d i)).
Proof. exact @dv_add_lemma. Qed.
Print Assumptions C08_add.

Theorem C08_subtract :
  forall (F : CRing) (a b : dofvec F), ascending a -> ascending b -> compatible a b ->
  exists c, dv_sub a b = Some c /\ ascending c /\
    (forall d, size_of c d = osize (size_of a d) (size_of b d)) /\
    (forall d i, val c d i = rsub (val a d i) (val b d i)).
Proof. exact @dv_sub_lemma. Qed.
Print Assumptions C08_subtract.

Theorem C08_add_scaled :
  forall (F : CRing) (s : F) (a b : dofvec F), ascending a -> ascending b -> compatible a b ->
  exists c, dv_add_scaled a b s = Some c /\ ascending c /\
    (forall d, size_of c d = osize (size_of a d) (size_of b d)) /\
    (forall d i, val c d i = radd (val a d i) (rmul (val b d i) s)).
Proof. exact @dv_add_scaled_lemma. Qed.
Print Assumptions C08_add_scaled.

Theorem C08_scale :
  forall (F : CRing) (s : F) (a : dofvec F), ascending a ->
  ascending (dv_scale a s) /\ (forall d, size_of (dv_scale a s) d = size_of a d) /\
  (forall d i, val (dv_scale a s) d i = rmul (val a d i) s).
Proof. exact @dv_scale_lemma. Qed.
Print Assumptions C08_scale.

Theorem C08_set_zero :
  forall (F : CRing) (a : dofvec F), ascending a ->
  ascending (dv_set_zero a) /\ (forall d, size_of (dv_set_zero a) d = size_of a d) /\
  (forall d i, val (dv_set_zero a) d i = r0).
Proof. exact @dv_set_zero_lemma. Qed.
Print Assumptions C08_set_zero.

Theorem C08_dof_types :
  forall (F : CRing) (a : dofvec F), ascending a ->
  StronglySorted Z.lt (bv_keys a) /\ (forall d, In d (bv_keys a) <-> size_of a d <> None).
Proof. exact @dv_types_lemma. Qed.
Print Assumptions C08_dof_types.

(** hypotheses are met: one common block, one block on either side only *)
Example C08_example :
  let a : dofvec Z_cring := [(1, [1; 2]); (4, [5])]%Z in
  let b : dofvec Z_cring := [(2, [7]); (4, [10])]%Z in
  ascending a /\ ascending b /\ compatible a b /\
  dv_sub a b = Some [(1, [1; 2]); (2, [-7]); (4, [-5])]%Z.
Proof.
  cbn zeta. repeat split; try (repeat constructor).
  intros d x y. simpl. unfold lt_dof.
  repeat match goal with |- context [Z.ltb ?u ?v] => destruct (Z.ltb_spec u v) end; try lia; try congruence;
    intros [= <-] [= <-]; reflexivity.
Qed.

(** C09, vectors *)
Theorem C09_vector_from_to :
  forall (F : CRing) (x : vec F) dofs (dest : dofvec F), ascending dest -> NoDup dofs ->
  total_rows dest dofs = Some (length x) ->
  exists dest', from_eigen x dofs dest = Some dest' /\ ascending dest' /\
    to_eigen dest' dofs = Some x /\
    (forall d, size_of dest' d = size_of dest d) /\
    (forall d, ~ In d dofs -> mfind lt_dof d dest' = mfind lt_dof d dest).
Proof. exact @from_to_eigen_lemma. Qed.
Print Assumptions C09_vector_from_to.

Theorem C09_vector_to_from :
  forall (F : CRing) (v : dofvec F) (x : vec F) dofs (dest : dofvec F),
  ascending v -> ascending dest -> NoDup dofs ->
  (forall d, In d dofs -> size_of dest d = size_of v d) -> to_eigen v dofs = Some x ->
  exists dest', from_eigen x dofs dest = Some dest' /\
    (forall d, In d dofs -> mfind lt_dof d dest' = mfind lt_dof d v) /\
    (forall d, ~ In d dofs -> mfind lt_dof d dest' = mfind lt_dof d dest).
Proof. exact @to_from_eigen_lemma. Qed.
Print Assumptions C09_vector_to_from.

Theorem C09_to_eigen_defined :
  forall (F : CRing) (v : dofvec F) dofs,
  to_eigen v dofs <> None <-> (forall d, In d dofs -> size_of v d <> None).
Proof. exact @to_eigen_defined. Qed.
Print Assumptions C09_to_eigen_defined.

(** C09, matrices: block (a,b) lands at the row offset of a and the column
    offset of b; nothing outside the matrix; every index lies in a block. *)
Theorem C09_matrix_blocks :
  forall (F : CRing) (K : dofmat F) rdim cdim dofs, shapes_fit K dofs rdim cdim ->
  exists M, mat_to_eigen K dofs = Some M /\ in_range M /\
    srows M = offset rdim dofs (length dofs) /\ scols M = offset cdim dofs (length dofs) /\
    forall k a n b i j m, nth_error dofs k = Some a -> nth_error dofs n = Some b ->
      mat_at K a b = Some m -> i < srows m -> j < scols m ->
      entry M (offset rdim dofs k + i) (offset cdim dofs n + j) = entry m i j.
Proof. exact @mat_to_eigen_lemma. Qed.
Print Assumptions C09_matrix_blocks.

Theorem C09_blocks_cover :
  forall dim dofs i, i < offset dim dofs (length dofs) ->
  exists k a r, nth_error dofs k = Some a /\ r < dim a /\ i = offset dim dofs k + r.
Proof. exact offset_cover. Qed.
Print Assumptions C09_blocks_cover.

(** the combined matrix times the combined vector is the blockwise product *)
Theorem C09_matrix_product :
  forall (F : CRing) (K : dofmat F) rdim cdim dofs M (x : nat -> F),
  shapes_fit K dofs rdim cdim -> mat_to_eigen K dofs = Some M ->
  forall k a i, nth_error dofs k = Some a -> i < rdim a ->
  mat_vec M x (offset rdim dofs k + i) =
  sum_n (length dofs) (fun n => match nth_error dofs n with
    | Some b => match mat_at K a b with
                | Some m => mat_vec m (fun j => x (offset cdim dofs n + j)) i
                | None => r0 end
    | None => r0 end).
Proof. exact @mat_to_eigen_product_lemma. Qed.
Print Assumptions C09_matrix_product.

Example C09_example :
  let K : dofmat Z_cring :=
    [((1, 1)%Z, mkMat (F := Z_cring) 1 1 [(0, 0, 5%Z)]); ((1, 2)%Z, mkMat (F := Z_cring) 1 2 [(0, 1, 7%Z)]);
     ((2, 1)%Z, mkMat (F := Z_cring) 2 1 [(1, 0, 3%Z)]); ((2, 2)%Z, mkMat (F := Z_cring) 2 2 [(0, 0, 1%Z); (0, 0, 1%Z)])] in
  shapes_fit K [1; 2]%Z (fun d => Z.to_nat d) (fun d => Z.to_nat d) /\
  option_map (fun M => (srows M, scols M, entry M 0 2, entry M 2 0, entry M 1 1)) (mat_to_eigen K [1; 2]%Z)
  = Some (3, 3, 7%Z, 3%Z, 2%Z) /\
  NoDup [1; 2]%Z.
Proof.
  cbn zeta. split; [|split; [reflexivity|]].
  - intros a b [<-|[<-|[]]] [<-|[<-|[]]]; eexists; (split; [reflexivity|]);
      (split; [reflexivity|split; [reflexivity|]]); repeat constructor.
  - repeat constructor; simpl; intuition discriminate.
Qed.
