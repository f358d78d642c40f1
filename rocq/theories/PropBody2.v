(** * C105: the stiffness of cells whose displacements are interpolated otherwise than their geometry *)
From Coq Require Import List Arith ZArith Bool Reals Lra Lia.
From Verif Require Import Outcome RSum Algebra GroupModel GroupProofs DofModel DofSpec ConstraintModel AssemblerModel
  CellModel CellSpec CellProofs ElasticModel IntegrandModel InterpolationModel InterpolationSpec PropInterpolation PropIntegrand EquilibriumModel EquilibriumSpec EquilibriumProofs EquilibriumProofs2
  EquilibriumProofs3 PropEquilibrium BodyModel BodySpec BodyProofs BodyProofs2 PropBody.
Import ListNotations.
Local Open Scope R_scope.

Lemma cell_stiffness_any d E nu ps coordinate value c : solid d c -> 0 < E -> -1 < nu < 1/2 ->
  let l := le_make d E nu ps in let n := length (e_nodes (bc_element c)) in let v := fun (z : Z -> nat -> R) k => z (nth k (bc_nodes c) 0%Z) in
  forall f K, cell_Forces d coordinate value (fun _ s => Ok (le_Stress d l s)) c = Ok f ->
    cell_Stiffness d coordinate value (fun _ s => Ok (le_Tangent l s)) c = Ok K ->
    (forall a, f a = apply_stiffness d n K (v value) a) /\ (forall a b, K a b = K b a) /\
    ((forall q, (q < bc_numIps c)%nat -> 0 < det_at d coordinate c q * bc_ipWeight c q) -> forall w, 0 <= nodal_work d n (apply_stiffness d n K (v w)) (v w)).
Proof.
  intros (Ux & Uu & Dx & Du) HE Hnu l n v f K Ef EK. set (X := fun k => coordinate (nth k (bc_coordinateNodes c) 0%Z)).
  set (ex := bc_geometry c) in *. set (eu := bc_element c) in *.
  destruct (elastic_gradient d E nu ps ex eu X (bc_id c) (bc_numIps c) (bc_ipCoord c) (bc_ipWeight c) Ux Dx (cell_values value c)) as (f' & E1 & Hf).
  destruct (elastic_hessian d E nu ps ex eu X (bc_id c) (bc_numIps c) (bc_ipCoord c) (bc_ipWeight c) Ux Dx (cell_values value c)) as (K' & E2 & HK).
  assert (f' = f) by (apply (f_equal (fun o => match o with Ok v => v | _ => fun _ => 0 end) (eq_trans (eq_sym E1) Ef))).
  assert (K' = K) by (apply (f_equal (fun o => match o with Ok v => v | _ => fun _ _ => 0 end) (eq_trans (eq_sym E2) EK))). subst f' K'.
  split; [|split].
  - intros a. rewrite Hf. symmetry. apply (K_apply d E nu ps ex eu X (bc_id c) (bc_numIps c) (bc_ipCoord c) (bc_ipWeight c)). exact HK.
  - intros a b. rewrite !HK. apply rsum_ext. intros q Hq. f_equal. apply Kq_symmetric.
  - intros P w. assert (En : nodal_work d n (apply_stiffness d n K (v w)) (v w) = _) by (apply (K_energy d E nu ps ex eu X (bc_id c) (bc_numIps c) (bc_ipCoord c) (bc_ipWeight c) K (v w) (v w) HK)).
    rewrite En. apply rsum_nonneg. intros q Hq. apply Rmult_le_pos; [|left; apply P; exact Hq]. apply (energy_point d E nu ps ex eu (bc_numIps c) (bc_ipCoord c) Ux Dx Du HE Hnu).
Qed.

(** whatever the interpolations of geometry and displacements are (linear geometry with quadratic displacements, for instance): the
    assembled stiffness gives the assembled forces, is symmetric, and positive semidefinite if all determinants and weights are positive *)
Theorem C105_stiffness_any_geometry : forall d t h g cons h' numInd numDep coordinate value E nu ps cells vcs mcs threads r r',
  group_ok g -> (forall a, In a (mData g) -> length (h a) = d) -> build_numbering h g t cons = Ok (h', numInd, numDep) ->
  (forall c, In c cells -> solid d c /\ nodes_of_mesh (mData g) c) ->
  0 < E -> -1 < nu < 1/2 -> let l := le_make d E nu ps in let info := mkInfo [(t, numInd)] [(t, numDep)] in
  local_vectors d t h' (cell_Forces d coordinate value (fun _ s => Ok (le_Stress d l s))) cells = Ok vcs ->
  local_matrices d t h' (cell_Stiffness d coordinate value (fun _ s => Ok (le_Tangent l s))) cells = Ok mcs -> (0 < threads)%nat ->
  build_vector info threads vcs [t] r -> build_matrix info threads mcs [t] r' ->
  exists F K, r = Ok F /\ r' = Ok K /\ let k := at_nodes h' t K in
    (forall a i, In a (mData g) -> (i < d)%nat -> at_node h' t F a i = stiffness_force d (mData g) k value a i) /\
    (forall a i b j, In a (mData g) -> In b (mData g) -> (i < d)%nat -> (j < d)%nat -> k a i b j = k b j a i) /\
    ((forall c q, In c cells -> (q < bc_numIps c)%nat -> 0 < det_at d coordinate c q * bc_ipWeight c q) ->
     forall w, 0 <= total_work d (mData g) (stiffness_force d (mData g) k w) w).
Proof.
  intros d t h g cons h' ni nd coordinate value E nu ps cells vcs mcs threads r r' Og Sz Nb Hc HE Hnu l info Ev Em Ht B B'.
  destruct (assembled_vector d t h g cons h' ni nd Og Sz Nb _ cells vcs threads r Ht (fun c H => proj2 (Hc c H)) Ev B) as (F & fs & -> & Hf & _ & W).
  destruct (assembled_matrix d t h g cons h' ni nd Og Sz Nb _ cells mcs threads r' Ht (fun c H => proj2 (Hc c H)) Em B') as (K & ks & -> & Hk & _ & W').
  exists F, K. split; [reflexivity|]. split; [reflexivity|]. intros k. pose proof (group_nodup g Og) as ND.
  assert (fk : forall c x, In c cells -> cell_Stiffness d coordinate value (fun _ s => Ok (le_Tangent l s)) c = Ok x /\ length (bc_nodes c) = length (e_nodes (bc_element c)) ->
     exists f, cell_Forces d coordinate value (fun _ s => Ok (le_Stress d l s)) c = Ok f).
  { intros c x Ic Hx. destruct (forall2_both _ _ _ _ _ Hk Hf c x Ic Hx) as (f & Ef & _). exists f. exact Ef. }
  split; [|split].
  - intros a i Ha Hi. rewrite <- (work_unit d _ _ a i ND Ha Hi), W. rewrite <- (work_unit d _ (stiffness_force d (mData g) k value) a i ND Ha Hi). unfold k. rewrite W'.
    apply (combine_sum2 _ _ _ _ _ _ _ Hf Hk). intros c f x Ic (Ef & _) (Ex & _). cbn [fst snd]. cbv zeta.
    destruct (Hc c Ic) as (Sc & _). destruct (cell_stiffness_any d E nu ps coordinate value c Sc HE Hnu f x Ef Ex) as (H1 & _).
    apply nodal_ext_f. exact H1.
  - intros a i b j Ha Hb Hi Hj. rewrite <- (stiffness_unit d (mData g) k a i b j ND Hb Hj), <- (stiffness_unit d (mData g) k b j a i ND Ha Hi).
    rewrite <- (work_unit d _ (stiffness_force d (mData g) k (unit_at b j)) a i ND Ha Hi), <- (work_unit d _ (stiffness_force d (mData g) k (unit_at a i)) b j ND Hb Hj).
    unfold k. rewrite !W'. f_equal.
    apply map_ext_in. intros (c & x) Icx. cbn [fst snd]. cbv zeta. apply nodal_symmetric.
    destruct (proj1 (Forall_forall (fun p => In (fst p) cells /\ cell_Stiffness d coordinate value (fun _ s => Ok (le_Tangent l s)) (fst p) = Ok (snd p)) (combine cells ks))) with (x := (c, x)) as (Ic & Ex); [|exact Icx|].
    { apply Forall_forall. intros (c1 & x1) I1. split; [exact (in_combine_l _ _ _ _ I1)|].
      clear - Hk I1. induction Hk as [|a' x' l' k' (E' & _) Hr IH]; [destruct I1|]. destruct I1 as [I1|I1]; [injection I1 as -> ->; exact E'|exact (IH I1)]. }
    cbn [fst snd] in Ic, Ex.
    assert (Lx : exists f, cell_Forces d coordinate value (fun _ s => Ok (le_Stress d l s)) c = Ok f).
    { clear - Hf Ic. induction Hf as [|a' f' l' k' (E' & _) Hr IH]; [destruct Ic|]. destruct Ic as [->|Ic]; [exists f'; exact E'|exact (IH Ic)]. }
    destruct Lx as (f & Ef). destruct (Hc c Ic) as (Sc & _). apply (cell_stiffness_any d E nu ps coordinate value c Sc HE Hnu f x Ef Ex).
  - intros P w. unfold k. rewrite W'. apply (combine_nonneg _ _ _ _ Hk). intros c x Ic Hx. cbn [fst snd]. cbv zeta. destruct (fk c x Ic Hx) as (f & Ef). destruct Hx as (Ex & _).
    destruct (Hc c Ic) as (Sc & _). destruct (cell_stiffness_any d E nu ps coordinate value c Sc HE Hnu f x Ef Ex) as (_ & _ & H4).
    apply H4. intros q Hq. apply P; assumption.
Qed.
Print Assumptions C105_stiffness_any_geometry.

(** a triangle with linear geometry and quadratic displacements *)
Definition sub_cell : body_cell := mkBody triangle_linear [0; 1; 2]%Z triangle_quadratic [0; 1; 2; 3; 4; 5]%Z 0 1 (fun _ => [1/3; 1/3]) (fun _ => 1/2).
Example C105_any_geometry_case : exists g h' vcs mcs,
  group_ok g /\ mData g = [0; 1; 2; 3; 4; 5]%Z /\ build_numbering sq_nodes g 7 cons_empty = Ok (h', 12%Z, 0%Z) /\ solid 2 sub_cell /\ nodes_of_mesh (mData g) sub_cell /\
  bc_element sub_cell <> bc_geometry sub_cell /\ 0 < det_at 2 sq_place sub_cell 0 * bc_ipWeight sub_cell 0 /\
  let l := le_make 2 30000 (1/5) PLANE_STRESS in
  local_vectors 2 7 h' (cell_Forces 2 sq_place sq_value (fun _ s => Ok (le_Stress 2 l s))) [sub_cell] = Ok vcs /\
  local_matrices 2 7 h' (cell_Stiffness 2 sq_place sq_value (fun _ s => Ok (le_Tangent l s))) [sub_cell] = Ok mcs /\
  (exists F, build_vector (mkInfo [(7, 12)] [(7, 0)])%Z 3 vcs [7%Z] (Ok F)).
Proof.
  destruct (group_history [0; 1; 2; 3; 4; 5]%Z) as (g & Hg & Hok & _). vm_compute in Hg. injection Hg as <-.
  match type of Hok with group_ok ?x => set (g := x) in * end.
  assert (Sz : forall a, In a (mData g) -> length (sq_nodes a) = 2%nat) by (intros; reflexivity).
  assert (NB : exists h', build_numbering sq_nodes g 7 cons_empty = Ok (h', 12%Z, 0%Z) /\ map h' [0; 1; 2; 3; 4; 5]%Z = [[0; 1]; [2; 3]; [4; 5]; [6; 7]; [8; 9]; [10; 11]]%Z).
  { eexists. split; [vm_compute; reflexivity|vm_compute; reflexivity]. }
  destruct NB as (h' & NB & Hh). injection Hh as H0 H1 H2 H3 H4 H5.
  assert (Sol : solid 2 sub_cell) by (repeat split; left; cbn; tauto).
  assert (Nm : nodes_of_mesh (mData g) sub_cell) by (intros a Ha; cbn in *; intuition).
  assert (Nums : exists nums, cell_numbers 2 h' sub_cell = Ok nums).
  { eexists. unfold cell_numbers. cbn. unfold dof_number. cbn [fst snd Z.ltb Z.compare]. rewrite ?H0, ?H1, ?H2, ?H3, ?H4, ?H5. cbn. reflexivity. }
  destruct Nums as (nums & En). set (l := le_make 2 30000 (1/5) PLANE_STRESS). pose proof Sol as (Ux & Uu & Dx & Du).
  set (X := fun k => sq_place (nth k (bc_coordinateNodes sub_cell) 0%Z)).
  assert (V : exists vcs, local_vectors 2 7 h' (cell_Forces 2 sq_place sq_value (fun _ s => Ok (le_Stress 2 l s))) [sub_cell] = Ok vcs).
  { destruct (elastic_gradient 2 30000 (1/5) PLANE_STRESS (bc_geometry sub_cell) (bc_element sub_cell) X (bc_id sub_cell) (bc_numIps sub_cell) (bc_ipCoord sub_cell) (bc_ipWeight sub_cell) Ux Dx (cell_values sq_value sub_cell)) as (f & Ef & _).
    eexists. unfold local_vectors. cbn [map all_of]. unfold local_vector. change (nodes_fit sub_cell) with true. cbv iota. unfold cell_Forces, cell_coordinates.
    change (extract_node_values 2 (length (e_nodes (bc_geometry sub_cell))) (fun k => sq_place (nth k (bc_coordinateNodes sub_cell) 0%Z))) with (flat 2 (length (e_nodes (bc_geometry sub_cell))) X).
    unfold l. rewrite Ef, En. reflexivity. }
  assert (M : exists mcs, local_matrices 2 7 h' (cell_Stiffness 2 sq_place sq_value (fun _ s => Ok (le_Tangent l s))) [sub_cell] = Ok mcs).
  { destruct (elastic_hessian 2 30000 (1/5) PLANE_STRESS (bc_geometry sub_cell) (bc_element sub_cell) X (bc_id sub_cell) (bc_numIps sub_cell) (bc_ipCoord sub_cell) (bc_ipWeight sub_cell) Ux Dx (cell_values sq_value sub_cell)) as (f & Ef & _).
    eexists. unfold local_matrices. cbn [map all_of]. unfold local_matrix. change (nodes_fit sub_cell) with true. cbv iota. unfold cell_Stiffness, cell_coordinates.
    change (extract_node_values 2 (length (e_nodes (bc_geometry sub_cell))) (fun k => sq_place (nth k (bc_coordinateNodes sub_cell) 0%Z))) with (flat 2 (length (e_nodes (bc_geometry sub_cell))) X).
    unfold l. rewrite Ef, En. reflexivity. }
  destruct V as (vcs & V). destruct M as (mcs & M). exists g, h', vcs, mcs. split; [exact Hok|]. split; [reflexivity|]. split; [exact NB|]. split; [exact Sol|]. split; [exact Nm|].
  split; [intros Q; apply (f_equal (fun e => length (e_nodes e))) in Q; discriminate Q|]. split; [|cbv zeta; split; [exact V|split; [exact M|]]].
  - unfold det_at, geometry_det, leibniz, sub_cell; cbn [bc_geometry bc_coordinateNodes bc_ipCoord bc_ipWeight].
    unfold triangle_linear; cbn [e_nodes e_deriv]; unfold triangle_linear_nodes, triangle_linear_deriv, sq_place; cbn [length rsum nth]; lra.
  - apply (vector_exists 2 7 sq_nodes g cons_empty h' 12 0 Hok Sz NB _ [sub_cell] vcs 3 ltac:(lia)) with (2 := V). intros c [<-|[]]. exact Nm.
Qed.
