(** * C105: the patch test on assembled meshes of triangles and tetrahedra *)
From Coq Require Import List Arith ZArith Bool Reals Lra Lia.
From Verif Require Import Outcome RSum Algebra GroupModel GroupProofs DofModel DofSpec ConstraintModel AssemblerModel
  CellModel CellSpec CellProofs ElasticModel IntegrandModel InterpolationModel EquilibriumModel EquilibriumSpec EquilibriumProofs EquilibriumProofs2
  EquilibriumProofs3 BodyModel BodySpec BodyProofs BodyProofs2 PatchProofs PropBody.
Import ListNotations.
Local Open Scope R_scope.

Lemma cells_side d s i place a cells : (1 <= d <= 3)%nat ->
  rlsum (map (fun c => voigt_work d s i (side_vec d place (edges_around (bc_nodes c) a))) cells) =
  voigt_work d s i (side_vec d place (flat_map (fun c => edges_around (bc_nodes c) a) cells)).
Proof.
  intros Hd. induction cells as [|c cells IH]; cbn [map rlsum flat_map].
  - symmetry. apply voigt_work_zero; [exact Hd|]. reflexivity.
  - rewrite IH, <- voigt_work_add. apply voigt_work_ext; [exact Hd|]. intros j Hj. unfold side_vec. rewrite map_app, rlsum_app. reflexivity.
Qed.

(** a homogeneous deformation x |-> A x + b of a mesh of one material needs no nodal forces at the inner nodes: with displacements
    A x + b prescribed on the boundary, the exact solution is a solution of the assembled equations, whatever the shapes of the cells *)
Theorem C105_patch_test : forall d t h g cons h' numInd numDep coordinate place stress A b sigma0 weight cells vcs threads r,
  group_ok g -> (forall a, In a (mData g) -> length (h a) = d) -> build_numbering h g t cons = Ok (h', numInd, numDep) ->
  (forall c, In c cells -> solid d c /\ nodes_of_mesh (mData g) c /\ isoparametric coordinate place c /\ regular d coordinate c /\ simplex d c /\
     rsum (bc_numIps c) (bc_ipWeight c) = weight) ->
  (forall ip s, map s (seq 0 (Voigt_Dim d)) = voigt_components d A -> exists sigma, stress ip s = Ok sigma /\ forall m, (m < Voigt_Dim d)%nat -> sigma m = sigma0 m) ->
  local_vectors d t h' (cell_Forces d coordinate (affine_at d A b place) stress) cells = Ok vcs -> (0 < threads)%nat ->
  build_vector (mkInfo [(t, numInd)] [(t, numDep)]) threads vcs [t] r ->
  exists F, r = Ok F /\ forall a i, In a (mData g) -> (i < d)%nat -> inner_node d cells a -> at_node h' t F a i = 0.
Proof.
  intros d t h g cons h' ni nd coordinate place stress A b sigma0 weight cells vcs threads r Og Sz Nb Hc Hs Ev Ht B.
  destruct (assembled_vector d t h g cons h' ni nd Og Sz Nb _ cells vcs threads r Ht (fun c H => proj1 (proj2 (Hc c H))) Ev B) as (F & fs & -> & Hf & _ & W).
  exists F. split; [reflexivity|]. intros a i Ha Hi In. rewrite <- (work_unit d _ _ a i (group_nodup g Og) Ha Hi), W.
  rewrite (combine_sum _ _ (fun c => voigt_work d sigma0 i (side_vec d place (edges_around (bc_nodes c) a)) * weight) _ _ Hf).
  - assert (Hd : (1 <= d <= 3)%nat) by (destruct d as [|[|[|[|d]]]]; cbn in In; try contradiction; lia).
    rewrite rlsum_scal_r, cells_side by exact Hd. rewrite voigt_work_zero; [ring|exact Hd|]. intros j Hj. apply closed_side; assumption.
  - intros c f Ic (Ef & Ln). cbn [fst snd]. destruct (Hc c Ic) as (S1 & _ & S3 & S4 & S5 & S6).
    rewrite (simplex_force d coordinate place stress sigma0 A b c f a i S1 S3 S4 S5 Ln Hi Hs Ef), S6. ring.
Qed.
Print Assumptions C105_patch_test.

(** every linear elastic material qualifies *)
Lemma elastic_homogeneous d E nu ps A : forall (ip : ipdata) s, map s (seq 0 (Voigt_Dim d)) = voigt_components d A ->
  exists sigma, Ok (le_Stress d (le_make d E nu ps) s) = Ok sigma /\
    forall m, (m < Voigt_Dim d)%nat -> sigma m = le_Stress d (le_make d E nu ps) (fun k => nth k (voigt_components d A) 0) m.
Proof.
  intros ip s Hs. eexists. split; [reflexivity|]. intros m Hm. unfold le_Stress. 
  apply rsum_ext. intros k Hk. f_equal. rewrite <- Hs, (nth_indep _ 0 (s 0%nat)) by (rewrite map_length, seq_length; exact Hk). rewrite map_nth, seq_nth by exact Hk. reflexivity.
Qed.

(** a square of four triangles around a node that is not in its middle; the sum of the nodal forces is exactly zero there *)
Definition pt_place (a : Z) (i : nat) : R := nth i (match a with 0%Z => [0; 0] | 1%Z => [2; 0] | 2%Z => [2; 2] | 3%Z => [0; 2] | _ => [1/2; 1] end) 0.
Definition pt_cells : list body_cell := [sq_cell 0 [0; 1; 4]%Z; sq_cell 1 [4; 1; 2]%Z; sq_cell 2 [3; 4; 2]%Z; sq_cell 3 [0; 4; 3]%Z].
Definition pt_A : nat -> nat -> R := fun i j => match i, j with 0%nat, 0%nat => 1/10 | 0%nat, 1%nat => 1/5 | _, _ => 1/30 end.
Lemma pt_det : forall c q, In c pt_cells -> 0 < det_at 2 pt_place c q.
Proof.
  intros c q Hc. cbn in Hc. destruct Hc as [<-|[<-|[<-|[<-|[]]]]]; unfold det_at, geometry_det, leibniz, sq_cell; cbn [bc_geometry bc_coordinateNodes bc_ipCoord];
    unfold triangle_linear; cbn [e_nodes e_deriv]; unfold triangle_linear_nodes, triangle_linear_deriv, pt_place; cbn [length rsum nth]; lra.
Qed.
Example C105_patch_case : exists g h' vcs F,
  group_ok g /\ mData g = [0; 1; 2; 3; 4]%Z /\ build_numbering sq_nodes g 7 cons_empty = Ok (h', 10%Z, 0%Z) /\
  local_vectors 2 7 h' (cell_Forces 2 pt_place (affine_at 2 pt_A (fun _ => 3) pt_place) (fun _ s => Ok (le_Stress 2 (le_make 2 30000 (1/5) PLANE_STRESS) s))) pt_cells = Ok vcs /\
  build_vector (mkInfo [(7, 10)] [(7, 0)])%Z 3 vcs [7%Z] (Ok F) /\ inner_node 2 pt_cells 4 /\ ~ inner_node 2 pt_cells 1 /\
  at_node h' 7 F 4 0 = 0 /\ at_node h' 7 F 4 1 = 0.
Proof.
  destruct (group_history [0; 1; 2; 3; 4]%Z) as (g & Hg & Hok & _). vm_compute in Hg. injection Hg as <-.
  match type of Hok with group_ok ?x => set (g := x) in * end.
  assert (Sz : forall a, In a (mData g) -> length (sq_nodes a) = 2%nat) by (intros; reflexivity).
  assert (NB : exists h', build_numbering sq_nodes g 7 cons_empty = Ok (h', 10%Z, 0%Z) /\ map h' [0; 1; 2; 3; 4]%Z = [[0; 1]; [2; 3]; [4; 5]; [6; 7]; [8; 9]]%Z).
  { eexists. split; [vm_compute; reflexivity|vm_compute; reflexivity]. }
  destruct NB as (h' & NB & Hh).
  assert (Sol : forall c, In c pt_cells -> solid 2 c /\ nodes_of_mesh (mData g) c /\ isoparametric pt_place pt_place c /\ regular 2 pt_place c /\ simplex 2 c /\
     rsum (bc_numIps c) (bc_ipWeight c) = 1/2).
  { intros c Hc. split; [|split; [|split; [|split; [|split]]]].
    - cbn in Hc. destruct Hc as [<-|[<-|[<-|[<-|[]]]]]; (repeat split; left; cbn; tauto).
    - cbn in Hc. destruct Hc as [<-|[<-|[<-|[<-|[]]]]]; intros a Ha; cbn in *; intuition.
    - cbn in Hc. destruct Hc as [<-|[<-|[<-|[<-|[]]]]]; (split; [reflexivity|intros; reflexivity]).
    - intros q _. pose proof (pt_det c q Hc). lra.
    - cbn in Hc. destruct Hc as [<-|[<-|[<-|[<-|[]]]]]; (split; [|left; split; reflexivity]); repeat constructor; cbn; intuition discriminate.
    - cbn in Hc. destruct Hc as [<-|[<-|[<-|[<-|[]]]]]; cbn [bc_numIps bc_ipWeight sq_cell rsum]; lra. }
  assert (Hh4 : h' 0%Z = [0; 1]%Z /\ h' 1%Z = [2; 3]%Z /\ h' 2%Z = [4; 5]%Z /\ h' 3%Z = [6; 7]%Z /\ h' 4%Z = [8; 9]%Z) by (injection Hh; auto).
  destruct Hh4 as (H0 & H1 & H2 & H3 & H4).
  assert (Nums : forall c, In c pt_cells -> exists nums, cell_numbers 2 h' c = Ok nums).
  { intros c Hc. cbn in Hc. destruct Hc as [<-|[<-|[<-|[<-|[]]]]]; eexists; unfold cell_numbers; cbn; unfold dof_number; cbn [fst snd Z.ltb Z.compare]; rewrite ?H0, ?H1, ?H2, ?H3, ?H4; cbn; reflexivity. }
  set (l := le_make 2 30000 (1/5) PLANE_STRESS). set (value := affine_at 2 pt_A (fun _ => 3) pt_place).
  assert (V : exists vcs, local_vectors 2 7 h' (cell_Forces 2 pt_place value (fun _ s => Ok (le_Stress 2 l s))) pt_cells = Ok vcs).
  { assert (One : forall c, In c pt_cells -> exists v, local_vector 2 7 h' (cell_Forces 2 pt_place value (fun _ s => Ok (le_Stress 2 l s))) c = Ok v).
    { intros c Hc. destruct (Nums c Hc) as (nums & En). destruct (Sol c Hc) as ((Ux & Uu & Dx & Du) & _).
      destruct (elastic_gradient 2 30000 (1/5) PLANE_STRESS (bc_geometry c) (bc_element c) (fun k => pt_place (nth k (bc_coordinateNodes c) 0%Z)) (bc_id c) (bc_numIps c) (bc_ipCoord c) (bc_ipWeight c) Ux Dx (cell_values value c)) as (f & Ef & _).
      eexists. unfold local_vector. replace (nodes_fit c) with true by (cbn in Hc; destruct Hc as [<-|[<-|[<-|[<-|[]]]]]; reflexivity).
      unfold cell_Forces. unfold cell_coordinates. change (extract_node_values 2 (length (e_nodes (bc_geometry c))) (fun k => pt_place (nth k (bc_coordinateNodes c) 0%Z)))
        with (flat 2 (length (e_nodes (bc_geometry c))) (fun k => pt_place (nth k (bc_coordinateNodes c) 0%Z))).
      unfold l. rewrite Ef, En. reflexivity. }
    destruct (One _ (or_introl eq_refl)) as (v1 & E1). destruct (One _ (or_intror (or_introl eq_refl))) as (v2 & E2).
    destruct (One _ (or_intror (or_intror (or_introl eq_refl)))) as (v3 & E3). destruct (One _ (or_intror (or_intror (or_intror (or_introl eq_refl))))) as (v4 & E4).
    exists [v1; v2; v3; v4]. unfold local_vectors, pt_cells. cbn [map all_of]. rewrite E1, E2, E3, E4. reflexivity. }
  destruct V as (vcs & V).
  destruct (vector_exists 2 7 sq_nodes g cons_empty h' 10 0 Hok Sz NB _ pt_cells vcs 3 ltac:(lia) (fun c Hc => proj1 (proj2 (Sol c Hc))) V) as (F & HF).
  assert (I4 : inner_node 2 pt_cells 4).
  { intros p. cbn [flat_map pt_cells bc_nodes sq_cell edges_around app Z.eqb Pos.eqb]. cbn [filter fst snd].
    destruct (Z.eqb_spec 0 p); [subst; reflexivity|]. destruct (Z.eqb_spec 1 p); [subst; reflexivity|]. destruct (Z.eqb_spec 2 p); [subst; reflexivity|].
    destruct (Z.eqb_spec 3 p); [subst; reflexivity|]. reflexivity. }
  destruct (C105_patch_test 2 7 sq_nodes g cons_empty h' 10 0 pt_place pt_place _ pt_A (fun _ => 3) _ (1/2) pt_cells vcs 3 (Ok F) Hok Sz NB Sol
    (elastic_homogeneous 2 30000 (1/5) PLANE_STRESS pt_A) V ltac:(lia) HF) as (F' & EF & P). injection EF as <-.
  exists g, h', vcs, F. split; [exact Hok|]. split; [reflexivity|]. split; [exact NB|]. split; [exact V|]. split; [exact HF|]. split; [exact I4|]. split.
  - intros C. specialize (C 2%Z). vm_compute in C. discriminate C.
  - split; apply P; try exact I4; try lia; cbn; auto 10.
Qed.
