(** * C106: the patch test with SolveTrialState *)
From Coq Require Import List Arith ZArith Bool Reals Lra Lia.
From Flocq Require Import Core.
From Verif Require Import Outcome RSum Algebra GroupModel GroupProofs DofModel DofSpec ConstraintModel ConstraintSpec ConstraintProofs2 ConstraintProofs3 AssemblerModel AssemblerSpec CellModel CellSpec
  ElasticModel IntegrandModel InterpolationModel EquilibriumModel EquilibriumSpec EquilibriumProofs3 BodyModel BodySpec BodyProofs SolveModel SolveSpec SolveProofs PropSolve PropEquilibrium PropBody
  PropPatch SupportSpec SupportProofs SupportProofs2 SupportProofs3 PropSupport.
Import ListNotations.
Local Open Scope R_scope.

(** the stiffness of linear elasticity does not depend on the displacements *)
Lemma stiffness_value d coordinate value value' l c :
  cell_Stiffness d coordinate value (fun _ s => Ok (le_Tangent l s)) c = cell_Stiffness d coordinate value' (fun _ s => Ok (le_Tangent l s)) c.
Proof. reflexivity. Qed.

(** where the matrices can be computed, the forces can be *)
Lemma forces_exist d t h coordinate value E nu ps cells mcs :
  (forall c, In c cells -> solid d c) ->
  local_matrices d t h (cell_Stiffness d coordinate value (fun _ s => Ok (le_Tangent (le_make d E nu ps) s))) cells = Ok mcs ->
  exists vcs, local_vectors d t h (cell_Forces d coordinate value (fun _ s => Ok (le_Stress d (le_make d E nu ps) s))) cells = Ok vcs.
Proof.
  unfold local_matrices, local_vectors. intros S Em. apply all_of_map_ok in Em. revert S.
  induction Em as [|c m cs ms Hm Hr IH]; intros S; [exists []; reflexivity|].
  destruct (IH (fun c' H => S c' (or_intror H))) as (vcs & Ev). destruct (S c (or_introl eq_refl)) as (Ux & Uu & Dx & Du).
  destruct (elastic_gradient d E nu ps (bc_geometry c) (bc_element c) (fun k => coordinate (nth k (bc_coordinateNodes c) 0%Z)) (bc_id c) (bc_numIps c) (bc_ipCoord c) (bc_ipWeight c) Ux Dx (cell_values value c)) as (f & Ef & _).
  assert (L : exists v, local_vector d t h (cell_Forces d coordinate value (fun _ s => Ok (le_Stress d (le_make d E nu ps) s))) c = Ok v).
  { unfold local_matrix in Hm. unfold local_vector. destruct (nodes_fit c); [|discriminate].
    destruct (cell_Stiffness _ _ _ _ c) as [k| |]; try discriminate. cbn [obind] in Hm. destruct (cell_numbers d h c) as [nums| |]; try discriminate.
    unfold cell_Forces. unfold cell_coordinates. change (extract_node_values d (length (e_nodes (bc_geometry c))) (fun k => coordinate (nth k (bc_coordinateNodes c) 0%Z)))
        with (flat d (length (e_nodes (bc_geometry c))) (fun k => coordinate (nth k (bc_coordinateNodes c) 0%Z))).
    rewrite Ef. eexists. reflexivity. }
  destruct L as (v & L). exists (v :: vcs). cbn [map all_of]. rewrite L, Ev. reflexivity.
Qed.

(** the forces that hold a homogeneous deformation act on the boundary only *)
Lemma homogeneous_forces d t h g cons h' numInd numDep coordinate place value E nu ps weight A b cells mcs threads K :
  group_ok g -> (forall a, In a (mData g) -> length (h a) = d) -> build_numbering h g t cons = Ok (h', numInd, numDep) ->
  (forall c, In c cells -> elastic_cell d (mData g) coordinate place c /\ simplex d c /\ rsum (bc_numIps c) (bc_ipWeight c) = weight) ->
  0 < E -> -1 < nu < 1/2 ->
  local_matrices d t h' (cell_Stiffness d coordinate value (fun _ s => Ok (le_Tangent (le_make d E nu ps) s))) cells = Ok mcs -> (0 < threads)%nat ->
  build_matrix (mkInfo [(t, numInd)] [(t, numDep)]) threads mcs [t] (Ok K) ->
  forall a i, In a (mData g) -> (i < d)%nat -> inner_node d cells a ->
    stiffness_force d (mData g) (at_nodes h' t K) (affine_at d A b place) a i = 0.
Proof.
  intros Og Sz Nb Hc HE Hnu Em Ht B a i Ha Hi In. set (aff := affine_at d A b place).
  assert (R : forall c, List.In c cells -> solid d c /\ nodes_of_mesh (mData g) c /\ isoparametric coordinate place c /\ regular d coordinate c).
  { intros c Ic. destruct (Hc c Ic) as ((S1 & S2 & S3 & _ & _ & S6) & _). split; [exact S1|]. split; [exact S2|]. split; [exact S3|].
    intros q Hq Z. specialize (S6 q Hq). rewrite Z in S6. lra. }
  assert (Em' : local_matrices d t h' (cell_Stiffness d coordinate aff (fun _ s => Ok (le_Tangent (le_make d E nu ps) s))) cells = Ok mcs).
  { rewrite <- Em. unfold local_matrices. f_equal. }
  destruct (forces_exist d t h' coordinate aff E nu ps cells mcs (fun c Ic => proj1 (R c Ic)) Em') as (vcs & Ev).
  destruct (vector_exists d t h g cons h' numInd numDep Og Sz Nb _ cells vcs threads Ht (fun c Ic => proj1 (proj2 (R c Ic))) Ev) as (F & HF).
  destruct (C105_stiffness d t h g cons h' numInd numDep coordinate place aff E nu ps cells vcs mcs threads (Ok F) (Ok K) Og Sz Nb R HE Hnu Ev Em' Ht HF B)
    as (F' & K' & EF & EK & Q & _). injection EF as <-. injection EK as <-. rewrite <- (Q a i Ha Hi).
  assert (R' : forall c, List.In c cells -> solid d c /\ nodes_of_mesh (mData g) c /\ isoparametric coordinate place c /\ regular d coordinate c /\ simplex d c /\
     rsum (bc_numIps c) (bc_ipWeight c) = weight).
  { intros c Ic. destruct (R c Ic) as (R1 & R2 & R3 & R4). destruct (Hc c Ic) as (_ & S & W). auto 10. }
  destruct (C105_patch_test d t h g cons h' numInd numDep coordinate place (fun _ s => Ok (le_Stress d (le_make d E nu ps) s)) A b
    (le_Stress d (le_make d E nu ps) (fun k => nth k (voigt_components d A) 0)) weight cells vcs threads (Ok F) Og Sz Nb R' (elastic_homogeneous d E nu ps A) Ev Ht HF)
    as (F' & EF & P). injection EF as <-. apply P; assumption.
Qed.

(** A body of one elastic material, meshed with linear triangles or tetrahedra of any shape: every node is inner or its displacements are
    prescribed, and what is prescribed changes from [oldTime] to [newTime] by A x + b.  Then SolveTrialState on the assembled
    stiffness without other forces finds the change A x + b at every node of the mesh.  (The solvers subtract its result.) *)
Theorem C106_patch_test : forall linsolve, solver_correct linsolve -> solver_complete linsolve ->
  forall d t h g ops h' numInd numDep coordinate place value E nu ps weight A b cells mcs threads r oldTime newTime,
  let c := cons_run cons_empty ops in let l := mData g in
  group_ok g -> (forall a, In a l -> length (h a) = d) -> build_numbering h g t c = Ok (h', numInd, numDep) ->
  (forall c, In c cells -> elastic_cell d l coordinate place c /\ simplex d c /\ rsum (bc_numIps c) (bc_ipWeight c) = weight) ->
  one_piece d cells -> cells <> [] -> (forall a, In a l -> node_of_cells cells a) ->
  0 < E -> -1 < nu < 1/2 -> no_self_reference ops -> supported d c t l place ->
  local_matrices d t h' (cell_Stiffness d coordinate value (fun _ s => Ok (le_Tangent (le_make d E nu ps) s))) cells = Ok mcs -> (0 < threads)%nat ->
  build_matrix (mkInfo [(t, numInd)] [(t, numDep)]) threads mcs [t] r ->
  (forall e, In e (equations c t) -> exists a i, edep e = (a, Z.of_nat i) /\ (i < d)%nat /\ eind e = [] /\
     to_float (erhs e newTime) - to_float (erhs e oldTime) = affine_at d A b place a i) ->
  (forall a i, In a l -> (i < d)%nat -> inner_node d cells a \/ exists e, In e (equations c t) /\ edep e = (a, Z.of_nat i)) ->
  exists K u, r = Ok K /\ solve_trial linsolve h' c K [(t, repeat 0 (Z.to_nat (numInd + numDep)))] oldTime newTime [t] = Ok u /\
    forall a i, In a l -> (i < d)%nat -> - at_node h' t u a i = affine_at d A b place a i.
Proof.
  intros linsolve Hls Hcp d t h g ops h' numInd numDep coordinate place value E nu ps weight A b cells mcs threads r oldT newT c l
    Og Sz Nb Hc One Ne Cov HE Hnu Ns Sup Em Ht B Pr In.
  assert (Hc' : forall c, List.In c cells -> elastic_cell d (mData g) coordinate place c) by (intros c1 H; apply (Hc c1 H)).
  destruct (body_energy d t h g c h' numInd numDep coordinate place value E nu ps cells mcs threads r Og Sz Nb Hc' One Ne HE Hnu Em Ht B) as (K & -> & Km & _ & En).
  assert (Mt : forall e k, List.In e (equations c t) -> List.In k (edep e :: ind_keys e) -> (0 <= snd k < Z.of_nat d)%Z).
  { intros e k He Hk. destruct (Pr e He) as (a & i & E1 & E2 & E3 & _). unfold ind_keys in Hk. rewrite E1, E3 in Hk. destruct Hk as [<-|[]]. cbn [snd]. lia. }
  assert (Cf : forall e tm, List.In e (equations c t) -> List.In tm (eind e) -> coef tm = 0 \/ / 10 ^ 18 < Rabs (coef tm)).
  { intros e tm He Htm. destruct (Pr e He) as (a & i & _ & _ & E3 & _). rewrite E3 in Htm. destruct Htm. }
  assert (Inc : forall a, node_of_cells cells a -> List.In a (mData g)).
  { intros a (c1 & Ic & Ia). exact (proj1 (proj2 (Hc' c1 Ic)) a Ia). }
  set (N := length (cell_keys d (mData g))). assert (EN : Z.to_nat (numInd + numDep) = N).
  { rewrite (proj2 (BodyProofs.numbered d t h g c h' numInd numDep Og Sz Nb)), Nat2Z.id. reflexivity. }
  rewrite EN. set (f := [(t, repeat 0 N)] : dofvec R_cring).
  assert (Sf : system_fits K f [t] (fun _ => N)) by (apply (sys_fit d t g K Km (repeat 0 N)); apply repeat_length).
  assert (Cof := cons_fit d t h g ops h' numInd numDep Og Sz Nb Ns Cf Mt).
  assert (Df : definite K c [t] (fun _ => N) (fun _ => num_in h')) by (apply (definite_iff_supported d t h g ops h' numInd numDep K Og Sz Nb Mt Km place cells En Cov Inc); exact Sup).
  destruct (C106_trial linsolve Hls Hcp h' ops K f oldT newT [t] (fun _ => N) (fun _ => num_in h') Sf Cof eq_refl Df) as (u & Eu & _ & _ & U).
  exists K, u. split; [reflexivity|]. split; [exact Eu|].
  set (k0 := (0, 0)%Z : dofkey). set (aff := affine_at d A b place).
  set (W := fun n => - as_key aff (nth n (cell_keys d (mData g)) k0)).
  assert (Key : forall k, List.In k (cell_keys d (mData g)) -> W (num_in h' k) = - as_key aff k).
  { intros k Hk. destruct (key_num d t h g ops h' numInd numDep Og Sz Nb k Hk) as (_ & E2). unfold W. fold k0 in E2. rewrite E2. reflexivity. }
  assert (S : forall n, (n < N)%nat -> W n = dval u t n).
  { intros n Hn. apply (U (fun _ => W)); [| |left; reflexivity|exact Hn].
    - intros t' e [<-|[]] He. destruct (Pr e He) as (a & i & E1 & Hi & E3 & E4). rewrite E4. unfold lhs. rewrite E3. cbn [fold_right].
      rewrite (Key (edep e)) by (apply (mentioned_in d t h g ops h' numInd numDep Og Nb Mt e); [exact He|left; reflexivity]).
      rewrite E1. unfold as_key. cbn [fst snd]. rewrite Nat2Z.id. fold aff. lra.
    - intros w Aw. set (w' := by_node h' (w t)).
      assert (HW : forall n, (n < N)%nat -> w t n = as_key w' (nth n (cell_keys d (mData g)) k0)) by (intros m Hm; apply (by_node_key d t h g ops h' numInd numDep Og Sz Nb); exact Hm).
      assert (Fw : fulfils c t w').
      { apply (proj2 (fulfils_admissible d t h g ops h' numInd numDep Og Sz Nb Mt w' (w t) HW)). intros t' e [<-|[]] He. exact (Aw t e (or_introl eq_refl) He). }
      assert (V : virtual_work (fun _ => N) [t] (fun _ => w t) (residual K (fun _ => N) [t] (fun _ => W) (fun _ => dval f t)) = 0).
      { etransitivity; [apply (virtual_keys d t h g ops h' numInd numDep K Og Sz Nb Km (fun a i => - aff a i) w' (fun _ _ => 0) W (w t) (dval f t))|].
        4:{ unfold total_work, over_nodes. assert (Z : forall G : Z -> nat -> R, (forall a i, List.In a (mData g) -> (i < d)%nat -> G a i = 0) -> rlsum (map (fun a => rsum d (G a)) (mData g)) = 0).
          { intros G HG. rewrite (rlsum_ext' _ _ (fun _ => 0)); [|intros a Ha; apply rsum_zero; intros i Hi; apply HG; assumption]. clear. induction (mData g) as [|x xs IH]; [reflexivity|]. cbn [map rlsum]. rewrite IH. ring. }
          rewrite (Z (fun a i => stiffness_force d (mData g) (at_nodes h' t K) (fun a i => - aff a i) a i * w' a i)), (Z (fun a i => 0 * w' a i)); [ring|intros; ring|].
          intros a i Ha Hi. destruct (In a i Ha Hi) as [Inn|(e & He & Ee)].
          + assert (SF : stiffness_force d (mData g) (at_nodes h' t K) (fun a i => - aff a i) a i = - stiffness_force d (mData g) (at_nodes h' t K) aff a i).
            { unfold stiffness_force, over_nodes. clear. induction (mData g) as [|x xs IH]; cbn [map rlsum]; [ring|]. rewrite IH.
              rewrite (rsum_ext d (fun j => at_nodes h' t K a i x j * - aff x j) (fun j => (-1) * (at_nodes h' t K a i x j * aff x j))) by (intros; ring).
              rewrite rsum_scal. ring. }
            rewrite SF. unfold aff. rewrite (homogeneous_forces d t h g c h' numInd numDep coordinate place value E nu ps weight A b cells mcs threads K Og Sz Nb Hc HE Hnu Em Ht B a i Ha Hi Inn). ring.
          + destruct (Pr e He) as (a' & i' & E1 & Hi' & E3 & _). pose proof (Fw e He) as Q. cbv zeta in Q. rewrite Ee, E3 in Q. cbn [fst snd fold_right] in Q.
            rewrite Nat2Z.id in Q. replace (w' a i) with 0 by lra. ring. }
        - intros m Hm. reflexivity.
        - exact HW.
        - intros m Hm. unfold dval, f, val. cbn [mfind]. unfold lt_dof. rewrite Z.ltb_irrefl. cbn. unfold as_key. apply nth_repeat. }
      exact V. }
  intros a i Ha Hi. assert (Hk : List.In (a, Z.of_nat i) (cell_keys d (mData g))) by (apply in_cell_keys; split; [exact Ha|exists i; auto]).
  destruct (key_num d t h g ops h' numInd numDep Og Sz Nb _ Hk) as (H1 & H2).
  pose proof (at_node_key d t h g c h' numInd numDep Og Sz Nb u _ H1) as Q. rewrite H2 in Q. unfold as_key in Q. cbn [fst snd] in Q. rewrite Nat2Z.id in Q.
  rewrite Q. fold N in H1. pose proof (S _ H1) as Q'. rewrite (Key _ Hk) in Q'. unfold dval in Q'. unfold as_key in Q'. cbn [fst snd] in Q'. rewrite Nat2Z.id in Q'.
  rewrite <- Q'. unfold aff. ring.
Qed.
Print Assumptions C106_patch_test.

(** the square of four triangles: its corners are moved, the node inside follows *)
Definition pt_eq (a i : Z) (v : R) : equation := mkEq (a, i) [] (fun time => time * v).
Definition pt_equations : list equation :=
  [pt_eq 0 0 0; pt_eq 0 1 0; pt_eq 1 0 2; pt_eq 1 1 2; pt_eq 2 0 4; pt_eq 2 1 2; pt_eq 3 0 2; pt_eq 3 1 0].
Definition pt_grad : nat -> nat -> R := fun i j => match i, j with 1%nat, 1%nat => 0 | _, _ => 1 end.
Lemma pt_elastic c : In c pt_cells -> elastic_cell 2 [0; 1; 2; 3; 4]%Z pt_place pt_place c /\ nodes_fit c = true.
Proof.
  intros Hc. split; [|cbn in Hc; destruct Hc as [<-|[<-|[<-|[<-|[]]]]]; reflexivity]. split; [|split; [|split; [|split; [|split]]]].
  - cbn in Hc. destruct Hc as [<-|[<-|[<-|[<-|[]]]]]; (repeat split; left; cbn; tauto).
  - cbn in Hc. destruct Hc as [<-|[<-|[<-|[<-|[]]]]]; intros a Ha; cbn in *; intuition.
  - cbn in Hc. destruct Hc as [<-|[<-|[<-|[<-|[]]]]]; (split; [reflexivity|intros; reflexivity]).
  - cbn in Hc. destruct Hc as [<-|[<-|[<-|[<-|[]]]]]; (split; [|cbn; tauto]); repeat constructor; cbn; intuition; discriminate.
  - cbn in Hc. destruct Hc as [<-|[<-|[<-|[<-|[]]]]]; cbn; lia.
  - intros q Hq. pose proof (pt_det c q Hc). cbn in Hc. destruct Hc as [<-|[<-|[<-|[<-|[]]]]]; cbn [bc_ipWeight sq_cell]; lra.
Qed.
Lemma pt_one_piece : one_piece 2 pt_cells.
Proof.
  assert (S : forall i j p q l1 l2, In (sq_cell i l1) pt_cells -> In (sq_cell j l2) pt_cells -> p <> q -> In p l1 -> In p l2 -> In q l1 -> In q l2 -> common_side 2 (sq_cell i l1) (sq_cell j l2)).
  { intros i j p q l1 l2 H1 H2 Ne A1 A2 A3 A4. exists [p; q]. split; [constructor; [intros [H|[]]; congruence|constructor; [intros []|constructor]]|]. split; [reflexivity|].
    intros a [<-|[<-|[]]]; cbn [bc_nodes sq_cell]; auto. }
  set (c0 := sq_cell 0 [0; 1; 4]%Z). set (c1 := sq_cell 1 [4; 1; 2]%Z). set (c2 := sq_cell 2 [3; 4; 2]%Z). set (c3 := sq_cell 3 [0; 4; 3]%Z).
  assert (I0 : In c0 pt_cells) by (cbn; auto). assert (I1 : In c1 pt_cells) by (cbn; auto). assert (I2 : In c2 pt_cells) by (cbn; auto). assert (I3 : In c3 pt_cells) by (cbn; auto).
  assert (S01 : common_side 2 c0 c1) by (apply (S 0 1 1 4)%Z; auto; cbn; auto; lia). assert (S10 : common_side 2 c1 c0) by (apply (S 1 0 1 4)%Z; auto; cbn; auto; lia).
  assert (S12 : common_side 2 c1 c2) by (apply (S 1 2 2 4)%Z; auto; cbn; auto; lia). assert (S21 : common_side 2 c2 c1) by (apply (S 2 1 2 4)%Z; auto; cbn; auto; lia).
  assert (S23 : common_side 2 c2 c3) by (apply (S 2 3 3 4)%Z; auto; cbn; auto; lia). assert (S32 : common_side 2 c3 c2) by (apply (S 3 2 3 4)%Z; auto; cbn; auto; lia).
  assert (S30 : common_side 2 c3 c0) by (apply (S 3 0 0 4)%Z; auto; cbn; auto; lia). assert (S03 : common_side 2 c0 c3) by (apply (S 0 3 0 4)%Z; auto; cbn; auto; lia).
  assert (P : forall a b, In a pt_cells -> In b pt_cells -> common_side 2 a b -> side_path 2 pt_cells a b).
  { intros a b Ha Hb Hs. exact (path_step 2 pt_cells a a b (path_here 2 pt_cells a Ha) Hb Hs). }
  assert (P2 : forall a b e, In a pt_cells -> In b pt_cells -> In e pt_cells -> common_side 2 a b -> common_side 2 b e -> side_path 2 pt_cells a e).
  { intros a b e Ha Hb He H1 H2. exact (path_step 2 pt_cells a b e (P a b Ha Hb H1) He H2). }
  intros c c' Hc Hc'. change (In c [c0; c1; c2; c3]) in Hc. change (In c' [c0; c1; c2; c3]) in Hc'.
  destruct Hc as [<-|[<-|[<-|[<-|[]]]]]; destruct Hc' as [<-|[<-|[<-|[<-|[]]]]];
    first [apply path_here; assumption|apply P; assumption|apply (P2 _ c1); assumption|apply (P2 _ c2); assumption].
Qed.
Lemma pt_supported : supported 2 (cons_run cons_empty [AddMany 7 pt_equations]) 7 [0; 1; 2; 3; 4]%Z pt_place.
Proof.
  intros A b SA F. change (forall e, In e pt_equations -> let at_key k := affine_at 2 A b pt_place (fst k) (Z.to_nat (snd k)) in
    at_key (edep e) + fold_right (fun tm s => coef tm * at_key (tkey tm) + s) 0 (eind e) = 0) in F.
  pose proof (F (pt_eq 0 0 0) ltac:(cbn; auto)) as F1. pose proof (F (pt_eq 0 1 0) ltac:(cbn; auto)) as F2. pose proof (F (pt_eq 1 1 2) ltac:(cbn; auto)) as F3. clear F.
  assert (S0 := SA 0%nat 0%nat ltac:(lia) ltac:(lia)). assert (S1 := SA 1%nat 1%nat ltac:(lia) ltac:(lia)). assert (S2 := SA 1%nat 0%nat ltac:(lia) ltac:(lia)).
  cbv beta zeta in F1, F2, F3. cbn [pt_eq edep eind fst snd fold_right coef tkey] in F1, F2, F3.
  change (Z.to_nat 0) with 0%nat in *. change (Z.to_nat 1) with 1%nat in *. unfold affine_at in *. cbn [rsum] in *. unfold pt_place in F1, F2, F3. cbn [nth] in F1, F2, F3.
  assert (A00 : A 0%nat 0%nat = 0) by lra. assert (A11 : A 1%nat 1%nat = 0) by lra. assert (B0 : b 0%nat = 0) by lra. assert (B1 : b 1%nat = 0) by lra.
  assert (A10 : A 1%nat 0%nat = 0) by lra. assert (A01 : A 0%nat 1%nat = 0) by lra.
  intros a i Ha Hi. destruct i as [|[|i]]; [| |lia]; rewrite ?A10, ?A00, ?A11, ?B0, ?B1, ?A01; ring.
Qed.
Lemma pt_inner : inner_node 2 pt_cells 4.
Proof.
  intros p. cbn [flat_map pt_cells bc_nodes sq_cell edges_around app Z.eqb Pos.eqb]. cbn [filter fst snd].
  destruct (Z.eqb_spec 0 p); [subst; reflexivity|]. destruct (Z.eqb_spec 1 p); [subst; reflexivity|]. destruct (Z.eqb_spec 2 p); [subst; reflexivity|].
  destruct (Z.eqb_spec 3 p); [subst; reflexivity|]. reflexivity.
Qed.
Example C106_patch_case : exists g h' mcs K u,
  mData g = [0; 1; 2; 3; 4]%Z /\ build_numbering sq_nodes g 7 (cons_run cons_empty [AddMany 7 pt_equations]) = Ok (h', 2%Z, 8%Z) /\
  local_matrices 2 7 h' (cell_Stiffness 2 pt_place sq_value (fun _ s => Ok (le_Tangent (le_make 2 30000 (1/5) PLANE_STRESS) s))) pt_cells = Ok mcs /\
  build_matrix (mkInfo [(7, 2)] [(7, 8)])%Z 3 mcs [7%Z] (Ok K) /\
  solve_trial gauss h' (cons_run cons_empty [AddMany 7 pt_equations]) K [(7%Z, repeat 0 10)] 0 1 [7%Z] = Ok u /\
  - at_node h' 7 u 4 0 = 3/2 /\ - at_node h' 7 u 4 1 = 1/2.
Proof.
  destruct (group_history [0; 1; 2; 3; 4]%Z) as (g & Hg & Hok & _). vm_compute in Hg. injection Hg as <-.
  match type of Hok with group_ok ?x => set (g := x) in * end.
  assert (Sz : forall a, In a (mData g) -> length (sq_nodes a) = 2%nat) by (intros; reflexivity).
  assert (NB : exists h', build_numbering sq_nodes g 7 (cons_run cons_empty [AddMany 7 pt_equations]) = Ok (h', 2%Z, 8%Z)).
  { eexists. unfold build_numbering, build_call. cbv - [Rdiv IZR Rinv Rmult R1 Rplus]. reflexivity. }
  destruct NB as (h' & NB).
  destruct (C106_assembles 2 7 sq_nodes g _ h' 2 8 pt_place pt_place sq_value 30000 (1/5) PLANE_STRESS pt_cells 3 Hok Sz NB pt_elastic ltac:(lra) ltac:(lra) ltac:(lia)) as (mcs & K & Em & B).
  destruct (C106_patch_test gauss (proj1 gauss_solver) (proj2 gauss_solver) 2 7 sq_nodes g [AddMany 7 pt_equations] h' 2 8 pt_place pt_place sq_value 30000 (1/5) PLANE_STRESS (1/2)
    pt_grad (fun _ => 0) pt_cells mcs 3 (Ok K) 0 1 Hok Sz NB) as (K' & u & EK & Eu & Q).
  - intros c Hc. split; [apply pt_elastic; exact Hc|]. cbn in Hc. destruct Hc as [<-|[<-|[<-|[<-|[]]]]]; (split; [split; [|left; split; reflexivity]; repeat constructor; cbn; intuition discriminate|cbn [bc_numIps bc_ipWeight sq_cell rsum]; lra]).
  - exact pt_one_piece.
  - discriminate.
  - intros a Ha. change (In a [0; 1; 2; 3; 4]%Z) in Ha. cbn in Ha. unfold node_of_cells.
    destruct Ha as [<-|[<-|[<-|[<-|[<-|[]]]]]]; [exists (sq_cell 0 [0; 1; 4]%Z)|exists (sq_cell 0 [0; 1; 4]%Z)|exists (sq_cell 1 [4; 1; 2]%Z)|exists (sq_cell 3 [0; 4; 3]%Z)|exists (sq_cell 0 [0; 1; 4]%Z)]; cbn; intuition.
  - lra.
  - lra.
  - intros o e Ho He. cbn in Ho. destruct Ho as [<-|[]]. cbn in He.
    repeat (destruct He as [<-|He]; [cbn; intuition|]). destruct He.
  - exact pt_supported.
  - exact Em.
  - lia.
  - exact B.
  - assert (F : forall v, In v [0; 2; 4] -> to_float (1 * v) - to_float (0 * v) = v).
    { intros v Hv. rewrite Rmult_0_l, Rmult_1_l, to_float_zero, Rminus_0_r. destruct Hv as [<-|[<-|[<-|[]]]]; [apply to_float_zero| |];
        apply to_float_exact; unfold float_representable; [change 2 with (bpow radix2 1)|change 4 with (bpow radix2 2)]; (apply generic_format_bpow; unfold FLT_exp; lia). }
    intros e He. change (In e pt_equations) in He. unfold pt_equations in He.
    assert (G : forall a i v, In v [0; 2; 4] -> (i < 2)%nat -> v = affine_at 2 pt_grad (fun _ => 0) pt_place a i -> exists a' i', edep (pt_eq a (Z.of_nat i) v) = (a', Z.of_nat i') /\ (i' < 2)%nat /\ eind (pt_eq a (Z.of_nat i) v) = [] /\
      to_float (erhs (pt_eq a (Z.of_nat i) v) 1) - to_float (erhs (pt_eq a (Z.of_nat i) v) 0) = affine_at 2 pt_grad (fun _ => 0) pt_place a' i').
    { intros a i v Hv Hi E. exists a, i. split; [reflexivity|]. split; [exact Hi|]. split; [reflexivity|]. cbn [pt_eq erhs]. rewrite (F v Hv). exact E. }
    destruct He as [<-|[<-|[<-|[<-|[<-|[<-|[<-|[<-|[]]]]]]]]];
      [apply (G 0%Z 0%nat 0)|apply (G 0%Z 1%nat 0)|apply (G 1%Z 0%nat 2)|apply (G 1%Z 1%nat 2)|apply (G 2%Z 0%nat 4)|apply (G 2%Z 1%nat 2)|apply (G 3%Z 0%nat 2)|apply (G 3%Z 1%nat 0)];
      first [lia|cbn [In]; auto; fail|unfold affine_at, pt_grad, pt_place; cbn [rsum nth]; ring].
  - intros a i Ha Hi. change (In a [0; 1; 2; 3; 4]%Z) in Ha. change (equations (cons_run cons_empty [AddMany 7 pt_equations]) 7) with pt_equations.
    destruct Ha as [<-|[<-|[<-|[<-|[<-|[]]]]]]; [right|right|right|right|left; exact pt_inner]; (destruct i as [|[|i]]; [| |lia]).
    + exists (pt_eq 0 0 0). split; [cbn; auto 10|reflexivity].
    + exists (pt_eq 0 1 0). split; [cbn; auto 10|reflexivity].
    + exists (pt_eq 1 0 2). split; [cbn; auto 10|reflexivity].
    + exists (pt_eq 1 1 2). split; [cbn; auto 10|reflexivity].
    + exists (pt_eq 2 0 4). split; [cbn; auto 10|reflexivity].
    + exists (pt_eq 2 1 2). split; [cbn; auto 10|reflexivity].
    + exists (pt_eq 3 0 2). split; [cbn; auto 10|reflexivity].
    + exists (pt_eq 3 1 0). split; [cbn; auto 10|reflexivity].
  - assert (K' = K) by congruence. subst K'. exists g, h', mcs, K, u. split; [reflexivity|]. split; [exact NB|]. split; [exact Em|]. split; [exact B|]. split; [exact Eu|].
    split; (rewrite Q; [|cbn; auto 10|lia]); unfold affine_at, pt_grad, pt_place; cbn [rsum nth]; lra.
Qed.
