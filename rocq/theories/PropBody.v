(** * C105: equilibrium, stiffness, loads and mass of an assembled body *)
From Coq Require Import List Arith ZArith Bool Reals Lra Lia.
From Verif Require Import Outcome RSum Algebra GroupModel GroupProofs DofModel DofSpec ConstraintModel AssemblerModel
  CellModel CellSpec CellProofs ElasticModel IntegrandModel InterpolationModel InterpolationSpec PropInterpolation PropIntegrand EquilibriumModel EquilibriumSpec EquilibriumProofs EquilibriumProofs2
  EquilibriumProofs3 PropEquilibrium BodyModel BodySpec BodyProofs BodyProofs2.
Import ListNotations.
Local Open Scope R_scope.

Lemma group_nodup g : group_ok g -> NoDup (mData g).
Proof. intros H. apply H. Qed.

(** the assembled internal forces of a mesh: whatever the mesh, the interpolations (also of higher order for the displacements than
    for the geometry), the law, the values, the constraints of the numbering and the schedule of the threads, they have no resultant *)
Theorem C105_force_balance : forall d t h g cons h' numInd numDep coordinate value stress cells vcs threads r,
  group_ok g -> (forall a, In a (mData g) -> length (h a) = d) -> build_numbering h g t cons = Ok (h', numInd, numDep) ->
  (forall c, In c cells -> solid d c /\ nodes_of_mesh (mData g) c) ->
  local_vectors d t h' (cell_Forces d coordinate value stress) cells = Ok vcs -> (0 < threads)%nat ->
  build_vector (mkInfo [(t, numInd)] [(t, numDep)]) threads vcs [t] r ->
  exists F, r = Ok F /\ forall i, (i < d)%nat -> total_force (mData g) (at_node h' t F) i = 0.
Proof.
  intros d t h g cons h' ni nd coordinate value stress cells vcs threads r Og Sz Nb Hc Ev Ht B.
  destruct (assembled_vector d t h g cons h' ni nd Og Sz Nb _ cells vcs threads r Ht (fun c H => proj2 (Hc c H)) Ev B) as (F & fs & -> & Hf & _ & W).
  exists F. split; [reflexivity|]. intros i Hi. rewrite <- (work_direction d _ _ i Hi), W.
  rewrite (combine_sum _ _ (fun _ => 0) _ _ Hf); [apply rlsum_zero; auto|].
  intros c f Ic (Ef & _). cbn [fst snd]. rewrite nodal_direction by exact Hi.
  destruct (Hc c Ic) as ((Ux & Uu & Dx & Du) & _).
  exact (C99_force_balance d stress _ _ (fun k => coordinate (nth k (bc_coordinateNodes c) 0%Z)) _ _ _ _ _ f Ux Uu Dx Du Ef i Hi).
Qed.
Print Assumptions C105_force_balance.

(** isoparametric meshes: no moment *)
Theorem C105_moment_balance : forall d t h g cons h' numInd numDep coordinate place value stress cells vcs threads r,
  group_ok g -> (forall a, In a (mData g) -> length (h a) = d) -> build_numbering h g t cons = Ok (h', numInd, numDep) ->
  (forall c, In c cells -> solid d c /\ nodes_of_mesh (mData g) c /\ isoparametric coordinate place c /\ regular d coordinate c) ->
  local_vectors d t h' (cell_Forces d coordinate value stress) cells = Ok vcs -> (0 < threads)%nat ->
  build_vector (mkInfo [(t, numInd)] [(t, numDep)]) threads vcs [t] r ->
  exists F, r = Ok F /\ forall i j, (i < d)%nat -> (j < d)%nat -> total_moment (mData g) place (at_node h' t F) i j = 0.
Proof.
  intros d t h g cons h' ni nd coordinate place value stress cells vcs threads r Og Sz Nb Hc Ev Ht B.
  destruct (assembled_vector d t h g cons h' ni nd Og Sz Nb _ cells vcs threads r Ht (fun c H => proj1 (proj2 (Hc c H))) Ev B) as (F & fs & -> & Hf & _ & W).
  exists F. split; [reflexivity|]. intros i j Hi Hj. rewrite <- (work_turn d _ _ _ i j Hi Hj), W.
  rewrite (combine_sum _ _ (fun _ => 0) _ _ Hf); [apply rlsum_zero; auto|].
  intros c f Ic (Ef & _). cbn [fst snd].
  destruct (Hc c Ic) as ((Ux & Uu & Dx & Du) & _ & (Ie & Ip) & Rg).
  set (X := fun k => coordinate (nth k (bc_coordinateNodes c) 0%Z)).
  rewrite (nodal_ext d _ f _ (fun k c => X k i * kron c j - X k j * kron c i)).
  - rewrite nodal_turn by assumption. unfold cell_Forces in Ef. rewrite Ie in *.
    exact (C99_moment_balance d stress _ X _ _ _ _ _ f Ux Dx Rg Ef i j Hi Hj).
  - intros k m Hk Hm. rewrite Ie in Hk. rewrite (Ip k Hk). reflexivity.
Qed.
Print Assumptions C105_moment_balance.

(** statics: if the internal forces equal the loads [P] at every dof that is not supported, then the reactions (internal forces minus
    loads at the supported dofs) balance the loads *)
Theorem C105_reactions : forall d t h g cons h' numInd numDep coordinate value stress cells vcs threads r (P : Z -> nat -> R) (supported : Z -> nat -> bool),
  group_ok g -> (forall a, In a (mData g) -> length (h a) = d) -> build_numbering h g t cons = Ok (h', numInd, numDep) ->
  (forall c, In c cells -> solid d c /\ nodes_of_mesh (mData g) c) ->
  local_vectors d t h' (cell_Forces d coordinate value stress) cells = Ok vcs -> (0 < threads)%nat ->
  build_vector (mkInfo [(t, numInd)] [(t, numDep)]) threads vcs [t] r ->
  exists F, r = Ok F /\ forall i, (i < d)%nat ->
    (forall a, In a (mData g) -> supported a i = false -> at_node h' t F a i = P a i) ->
    over_nodes (filter (fun a => supported a i) (mData g)) (fun a => at_node h' t F a i - P a i) = - total_force (mData g) P i.
Proof.
  intros d t h g cons h' ni nd coordinate value stress cells vcs threads r P supported Og Sz Nb Hc Ev Ht B.
  destruct (C105_force_balance _ _ _ _ _ _ _ _ _ _ _ _ _ _ _ Og Sz Nb Hc Ev Ht B) as (F & -> & Z). exists F. split; [reflexivity|].
  intros i Hi Eq. specialize (Z i Hi). unfold total_force, over_nodes in *.
  assert (S : forall l, (forall a, In a l -> supported a i = false -> at_node h' t F a i = P a i) ->
     rlsum (map (fun a => at_node h' t F a i - P a i) (filter (fun a => supported a i) l)) = rlsum (map (fun a => at_node h' t F a i) l) - rlsum (map (fun a => P a i) l)).
  { induction l as [|a l IH]; intros H; [cbn; ring|]. cbn [filter map rlsum].
    assert (IH' := IH (fun b Hb => H b (or_intror Hb))). destruct (supported a i) eqn:E.
    - cbn [map rlsum]. rewrite IH'. ring.
    - rewrite IH', (H a (or_introl eq_refl) E). ring. }
  rewrite (S _ Eq), Z. ring.
Qed.
Print Assumptions C105_reactions.

(** a rigid motion of the whole mesh causes no force at any node, for laws without stress at zero strain *)
Theorem C105_rigid_motion : forall d t h g cons h' numInd numDep coordinate place stress A b cells threads,
  group_ok g -> (forall a, In a (mData g) -> length (h a) = d) -> build_numbering h g t cons = Ok (h', numInd, numDep) ->
  (forall c, In c cells -> solid d c /\ nodes_of_mesh (mData g) c /\ isoparametric coordinate place c /\ regular d coordinate c) ->
  skew d A -> (forall ip s, (forall i, (i < Voigt_Dim d)%nat -> s i = 0) -> exists sigma, stress ip s = Ok sigma /\ forall i, (i < Voigt_Dim d)%nat -> sigma i = 0) ->
  (0 < threads)%nat -> forall vcs r, local_vectors d t h' (cell_Forces d coordinate (affine_at d A b place) stress) cells = Ok vcs ->
  build_vector (mkInfo [(t, numInd)] [(t, numDep)]) threads vcs [t] r ->
  exists F, r = Ok F /\ forall a i, In a (mData g) -> (i < d)%nat -> at_node h' t F a i = 0.
Proof.
  intros d t h g cons h' ni nd coordinate place stress A b cells threads Og Sz Nb Hc SA Hz Ht vcs r Ev B.
  destruct (assembled_vector d t h g cons h' ni nd Og Sz Nb _ cells vcs threads r Ht (fun c H => proj1 (proj2 (Hc c H))) Ev B) as (F & fs & -> & Hf & _ & W).
  exists F. split; [reflexivity|]. intros a i Ha Hi. rewrite <- (work_unit d _ _ a i (group_nodup g Og) Ha Hi), W.
  rewrite (combine_sum _ _ (fun _ => 0) _ _ Hf); [apply rlsum_zero; auto|].
  intros c f Ic (Ef & _). cbn [fst snd].
  destruct (Hc c Ic) as ((Ux & Uu & Dx & Du) & _ & (Ie & Ip) & Rg).
  set (X := fun k => coordinate (nth k (bc_coordinateNodes c) 0%Z)).
  destruct (C99_rigid_motion d stress _ X A b (bc_id c) (bc_numIps c) (bc_ipCoord c) (bc_ipWeight c) Ux Dx Rg SA Hz) as (f0 & E0 & Z0).
  assert (E1 : cell_Forces d coordinate (affine_at d A b place) stress c = Ok f0).
  { rewrite <- E0. unfold cell_Forces. rewrite Ie. unfold cell_Gradient, integrate. f_equal.
    assert (NV : forall m, EquilibriumModel.node_values (bc_geometry c) d (cell_values (affine_at d A b place) c) m = EquilibriumModel.node_values (bc_geometry c) d (affine d A b X) m).
    { intros m. unfold EquilibriumModel.node_values. f_equal. unfold extract_node_values. rewrite !flat_map_concat_map. f_equal. apply map_ext_in. intros k Hk. apply in_seq in Hk.
      apply map_ext. intros p. unfold cell_values, affine_at, affine, X. unfold numDofNodes in Hk. rewrite (Ip k) by lia. reflexivity. }
    f_equal. apply FunctionalExtensionality.functional_extensionality. intros u. apply FunctionalExtensionality.functional_extensionality. intros ip.
    unfold ip_Gradient. replace (EquilibriumModel.node_values (bc_geometry c) d (cell_values (affine_at d A b place) c)) with (EquilibriumModel.node_values (bc_geometry c) d (affine d A b X)); [reflexivity|].
    apply FunctionalExtensionality.functional_extensionality. intros m. symmetry. apply NV. }
  rewrite E1 in Ef. injection Ef as <-. unfold nodal_work. apply rsum_zero. intros k Hk. apply rsum_zero. intros m Hm. rewrite Z0. ring.
Qed.
Print Assumptions C105_rigid_motion.

Lemma cell_stiffness d E nu ps coordinate place value c : solid d c -> isoparametric coordinate place c -> regular d coordinate c -> 0 < E -> -1 < nu < 1/2 ->
  let l := le_make d E nu ps in let n := length (e_nodes (bc_element c)) in let v := fun (z : Z -> nat -> R) k => z (nth k (bc_nodes c) 0%Z) in
  forall f K, cell_Forces d coordinate value (fun _ s => Ok (le_Stress d l s)) c = Ok f ->
    cell_Stiffness d coordinate value (fun _ s => Ok (le_Tangent l s)) c = Ok K ->
    (forall a, f a = apply_stiffness d n K (v value) a) /\ (forall a b, K a b = K b a) /\
    (forall A b, skew d A -> forall a, apply_stiffness d n K (v (affine_at d A b place)) a = 0) /\
    ((forall q, (q < bc_numIps c)%nat -> 0 < det_at d coordinate c q * bc_ipWeight c q) -> forall w, 0 <= nodal_work d n (apply_stiffness d n K (v w)) (v w)).
Proof.
  intros (Ux & Uu & Dx & Du) (Ie & Ip) Rg HE Hnu l n v f K Ef EK. set (X := fun k => coordinate (nth k (bc_coordinateNodes c) 0%Z)).
  unfold cell_Forces, cell_Stiffness in *. unfold n. rewrite Ie in *. clear n.
  destruct (C99_stiffness d E nu ps (bc_geometry c) X (cell_values value c) (bc_id c) (bc_numIps c) (bc_ipCoord c) (bc_ipWeight c) Ux Dx HE Hnu Rg) as (f' & K' & E1 & E2 & H1 & H2 & H3 & H4).
  assert (f' = f) by (apply (f_equal (fun o => match o with Ok v => v | _ => fun _ => 0 end) (eq_trans (eq_sym E1) Ef))).
  assert (K' = K) by (apply (f_equal (fun o => match o with Ok v => v | _ => fun _ _ => 0 end) (eq_trans (eq_sym E2) EK))). subst f' K'.
  split; [exact H1|]. split; [exact H2|]. split.
  - intros A b HA a. rewrite <- (H3 A b HA a). apply apply_ext. intros k i Hk Hi. unfold v, affine_at, affine, X. rewrite (Ip k Hk). reflexivity.
  - intros P w. apply (H4 P (v w)).
Qed.

Lemma nodal_symmetric d n K u w : (forall a b, K a b = K b a) -> nodal_work d n (apply_stiffness d n K u) w = nodal_work d n (apply_stiffness d n K w) u.
Proof.
  intros S. rewrite !work_as_sum.
  rewrite (rsum_ext (n * d) _ (fun a => rsum (n * d) (fun b => K a b * nth b (extract_node_values d n u) 0 * nth a (extract_node_values d n w) 0)))
    by (intros; rewrite apply_as_sum, rsum_scal_r; reflexivity).
  rewrite rsum_swap. apply rsum_ext. intros b Hb. rewrite apply_as_sum, <- rsum_scal_r. apply rsum_ext. intros a Ha. rewrite (S a b). ring.
Qed.

Lemma forall2_both {A B C} (P : A -> B -> Prop) (Q : A -> C -> Prop) l m k : Forall2 P l m -> Forall2 Q l k ->
  forall c b, In c l -> P c b -> exists x, Q c x.
Proof.
  intros _ H. induction H as [|a x l k Hax Hr IH]; intros c b Hc Hb; [destruct Hc|].
  destruct Hc as [->|Hc]; [exists x; exact Hax|exact (IH c b Hc Hb)].
Qed.

(** the assembled stiffness of a linear elastic mesh gives the assembled internal forces, is symmetric, has the rigid motions of the
    mesh in its kernel and is positive semidefinite *)
Theorem C105_stiffness : forall d t h g cons h' numInd numDep coordinate place value E nu ps cells vcs mcs threads r r',
  group_ok g -> (forall a, In a (mData g) -> length (h a) = d) -> build_numbering h g t cons = Ok (h', numInd, numDep) ->
  (forall c, In c cells -> solid d c /\ nodes_of_mesh (mData g) c /\ isoparametric coordinate place c /\ regular d coordinate c) ->
  0 < E -> -1 < nu < 1/2 -> let l := le_make d E nu ps in let info := mkInfo [(t, numInd)] [(t, numDep)] in
  local_vectors d t h' (cell_Forces d coordinate value (fun _ s => Ok (le_Stress d l s))) cells = Ok vcs ->
  local_matrices d t h' (cell_Stiffness d coordinate value (fun _ s => Ok (le_Tangent l s))) cells = Ok mcs -> (0 < threads)%nat ->
  build_vector info threads vcs [t] r -> build_matrix info threads mcs [t] r' ->
  exists F K, r = Ok F /\ r' = Ok K /\ let k := at_nodes h' t K in
    (forall a i, In a (mData g) -> (i < d)%nat -> at_node h' t F a i = stiffness_force d (mData g) k value a i) /\
    (forall a i b j, In a (mData g) -> In b (mData g) -> (i < d)%nat -> (j < d)%nat -> k a i b j = k b j a i) /\
    (forall A b, skew d A -> forall a i, In a (mData g) -> (i < d)%nat -> stiffness_force d (mData g) k (affine_at d A b place) a i = 0) /\
    ((forall c q, In c cells -> (q < bc_numIps c)%nat -> 0 < det_at d coordinate c q * bc_ipWeight c q) ->
     forall w, 0 <= total_work d (mData g) (stiffness_force d (mData g) k w) w).
Proof.
  intros d t h g cons h' ni nd coordinate place value E nu ps cells vcs mcs threads r r' Og Sz Nb Hc HE Hnu l info Ev Em Ht B B'.
  destruct (assembled_vector d t h g cons h' ni nd Og Sz Nb _ cells vcs threads r Ht (fun c H => proj1 (proj2 (Hc c H))) Ev B) as (F & fs & -> & Hf & _ & W).
  destruct (assembled_matrix d t h g cons h' ni nd Og Sz Nb _ cells mcs threads r' Ht (fun c H => proj1 (proj2 (Hc c H))) Em B') as (K & ks & -> & Hk & _ & W').
  exists F, K. split; [reflexivity|]. split; [reflexivity|]. intros k. pose proof (group_nodup g Og) as ND.
  assert (fk : forall c x, In c cells -> cell_Stiffness d coordinate value (fun _ s => Ok (le_Tangent l s)) c = Ok x /\ length (bc_nodes c) = length (e_nodes (bc_element c)) ->
     exists f, cell_Forces d coordinate value (fun _ s => Ok (le_Stress d l s)) c = Ok f).
  { intros c x Ic Hx. destruct (forall2_both _ _ _ _ _ Hk Hf c x Ic Hx) as (f & Ef & _). exists f. exact Ef. }
  split; [|split; [|split]].
  - intros a i Ha Hi. rewrite <- (work_unit d _ _ a i ND Ha Hi), W. rewrite <- (work_unit d _ (stiffness_force d (mData g) k value) a i ND Ha Hi). unfold k. rewrite W'.
    apply (combine_sum2 _ _ _ _ _ _ _ Hf Hk). intros c f x Ic (Ef & _) (Ex & _). cbn [fst snd]. cbv zeta.
    destruct (Hc c Ic) as (Sc & _ & Ic' & Rc). destruct (cell_stiffness d E nu ps coordinate place value c Sc Ic' Rc HE Hnu f x Ef Ex) as (H1 & _).
    apply nodal_ext_f. exact H1.
  - intros a i b j Ha Hb Hi Hj. rewrite <- (stiffness_unit d (mData g) k a i b j ND Hb Hj), <- (stiffness_unit d (mData g) k b j a i ND Ha Hi).
    rewrite <- (work_unit d _ (stiffness_force d (mData g) k (unit_at b j)) a i ND Ha Hi), <- (work_unit d _ (stiffness_force d (mData g) k (unit_at a i)) b j ND Hb Hj).
    unfold k. rewrite !W'. f_equal.
    apply map_ext_in. intros (c & x) Icx. cbn [fst snd]. cbv zeta. apply nodal_symmetric.
    destruct (proj1 (Forall_forall (fun p => In (fst p) cells /\ cell_Stiffness d coordinate value (fun _ s => Ok (le_Tangent l s)) (fst p) = Ok (snd p)) (combine cells ks))) with (x := (c, x)) as (Ic & Ex); [|exact Icx|].
    { apply Forall_forall. intros (c1 & x1) I1. split; [exact (in_combine_l _ _ _ _ I1)|].
      clear - Hk I1. induction Hk as [|a' x' l' k' (E' & _) Hr IH]; [destruct I1|]. destruct I1 as [I1|I1]; [injection I1 as -> ->; exact E'|exact (IH I1)]. }
    cbn [fst snd] in Ic, Ex.
    assert (Lx : exists f, cell_Forces d coordinate value (fun _ s => Ok (le_Stress d l s)) c = Ok f).
    { clear - Hf Ic. induction Hf as [|a' f' l' k' (E' & _) Hr IH]; [destruct Ic|]. destruct Ic as [->|Ic]; [exists f'; exact E'|exact (IH Ic)]. }
    destruct Lx as (f & Ef). destruct (Hc c Ic) as (Sc & _ & Ic' & Rc). apply (cell_stiffness d E nu ps coordinate place value c Sc Ic' Rc HE Hnu f x Ef Ex).
  - intros A b HA a i Ha Hi. rewrite <- (work_unit d _ (stiffness_force d (mData g) k (affine_at d A b place)) a i ND Ha Hi). unfold k. rewrite W'.
    rewrite (combine_sum _ _ (fun _ => 0) _ _ Hk); [apply rlsum_zero; auto|]. intros c x Ic Hx. cbn [fst snd]. cbv zeta. destruct (fk c x Ic Hx) as (f & Ef). destruct Hx as (Ex & _).
    destruct (Hc c Ic) as (Sc & _ & Ic' & Rc). destruct (cell_stiffness d E nu ps coordinate place value c Sc Ic' Rc HE Hnu f x Ef Ex) as (_ & _ & H3 & _).
    unfold nodal_work. apply rsum_zero. intros p Hp. apply rsum_zero. intros m Hm. rewrite (H3 A b HA). ring.
  - intros P w. unfold k. rewrite W'. apply (combine_nonneg _ _ _ _ Hk). intros c x Ic Hx. cbn [fst snd]. cbv zeta. destruct (fk c x Ic Hx) as (f & Ef). destruct Hx as (Ex & _).
    destruct (Hc c Ic) as (Sc & _ & Ic' & Rc). destruct (cell_stiffness d E nu ps coordinate place value c Sc Ic' Rc HE Hnu f x Ef Ex) as (_ & _ & _ & H4).
    apply H4. intros q Hq. apply P; assumption.
Qed.
Print Assumptions C105_stiffness.

(** a constant load on cells of any dimension (surfaces, volumes): the assembled nodal loads have the resultant load times measure *)
Theorem C105_load : forall d t h g cons h' numInd numDep coordinate garbage factor cells measures vcs threads r,
  group_ok g -> (forall a, In a (mData g) -> length (h a) = d) -> build_numbering h g t cons = Ok (h', numInd, numDep) ->
  (forall c, In c cells -> In (bc_element c) (pyramid_linear :: exact_elements) /\ nodes_of_mesh (mData g) c) ->
  Forall2 (measure_is d coordinate) cells measures ->
  local_vectors d t h' (cell_Load d coordinate garbage factor) cells = Ok vcs -> (0 < threads)%nat ->
  build_vector (mkInfo [(t, numInd)] [(t, numDep)]) threads vcs [t] r ->
  exists F, r = Ok F /\ forall i, (i < d)%nat -> total_force (mData g) (at_node h' t F) i = factor i * rlsum measures.
Proof.
  intros d t h g cons h' ni nd coordinate garbage factor cells ms vcs threads r Og Sz Nb Hc Hm Ev Ht B.
  destruct (assembled_vector d t h g cons h' ni nd Og Sz Nb _ cells vcs threads r Ht (fun c H => proj2 (Hc c H)) Ev B) as (F & fs & -> & Hf & _ & W).
  exists F. split; [reflexivity|]. intros i Hi. rewrite <- (work_direction d _ _ i Hi), W.
  rewrite (combine_sum2 _ _ _ (fun cm => factor i * snd cm) _ _ _ Hf Hm).
  - clear - Hm. induction Hm as [|c m cs ms Hcm Hr IH]; cbn [combine map rlsum snd]; [ring|]. rewrite IH. ring.
  - intros c f m Ic (Ef & _) (jac & J & ->). cbn [fst snd]. rewrite nodal_direction by exact Hi.
    apply (load_total d coordinate garbage c (proj1 (Hc c Ic)) jac J factor f Ef i Hi).
Qed.
Print Assumptions C105_load.

(** the assembled mass matrix: in each direction the total mass density times volume, no coupling of the directions *)
Theorem C105_mass : forall d t h g cons h' numInd numDep coordinate garbage rho cells measures mcs threads r,
  group_ok g -> (forall a, In a (mData g) -> length (h a) = d) -> build_numbering h g t cons = Ok (h', numInd, numDep) ->
  (forall c, In c cells -> In (bc_element c) (pyramid_linear :: exact_elements) /\ nodes_of_mesh (mData g) c) ->
  Forall2 (measure_is d coordinate) cells measures ->
  local_matrices d t h' (cell_Mass d coordinate garbage rho) cells = Ok mcs -> (0 < threads)%nat ->
  build_matrix (mkInfo [(t, numInd)] [(t, numDep)]) threads mcs [t] r ->
  exists M, r = Ok M /\ forall i j, (i < d)%nat -> (j < d)%nat ->
    over_nodes (mData g) (fun a => over_nodes (mData g) (fun b => at_nodes h' t M a i b j)) = (if Nat.eqb i j then 1 else 0) * rho * rlsum measures.
Proof.
  intros d t h g cons h' ni nd coordinate garbage rho cells ms mcs threads r Og Sz Nb Hc Hm Ev Ht B.
  destruct (assembled_matrix d t h g cons h' ni nd Og Sz Nb _ cells mcs threads r Ht (fun c H => proj2 (Hc c H)) Ev B) as (M & ks & -> & Hk & _ & W).
  exists M. split; [reflexivity|]. intros i j Hi Hj.
  transitivity (total_work d (mData g) (stiffness_force d (mData g) (at_nodes h' t M) (fun _ c => kron c j)) (fun _ c => kron c i)).
  - rewrite (work_direction d _ _ i Hi). unfold total_force, over_nodes. apply rlsum_ext. intros a _. symmetry.
    exact (work_direction d (mData g) (fun b c => at_nodes h' t M a i b c) j Hj).
  - rewrite W, (combine_sum2 _ _ _ (fun cm => kron i j * rho * snd cm) _ _ _ Hk Hm).
    + unfold kron. clear - Hm. induction Hm as [|c m cs ms Hcm Hr IH]; cbn [combine map rlsum snd]; [ring|]. rewrite IH. ring.
    + intros c K m Ic (EK & _) (jac & J & ->). cbn [fst snd]. cbv zeta.
      apply (mass_total d coordinate garbage c (proj1 (Hc c Ic)) jac J rho K EK i j Hi Hj).
Qed.
Print Assumptions C105_mass.

(** a square of two triangles, stretched *)
Definition sq_nodes : nodes := fun _ => [-1; -1]%Z.
Definition sq_place (a : Z) (i : nat) : R := nth i (match a with 0%Z => [0; 0] | 1%Z => [2; 0] | 2%Z => [0; 2] | _ => [2; 2] end) 0.
Definition sq_cell (id : Z) (l : list Z) : body_cell := mkBody triangle_linear l triangle_linear l id 1 (fun _ => [1/3; 1/3]) (fun _ => 1/2).
Definition sq_cells : list body_cell := [sq_cell 0 [0; 1; 2]%Z; sq_cell 1 [1; 3; 2]%Z].
Definition sq_value (a : Z) (i : nat) : R := match i with 0%nat => sq_place a 0 * 3 | _ => 0 end.
Lemma sq_det : forall c q, In c sq_cells -> 0 < det_at 2 sq_place c q.
Proof.
  intros c q Hc. cbn in Hc. destruct Hc as [<-|[<-|[]]]; unfold det_at, geometry_det, leibniz, sq_cell; cbn [bc_geometry bc_coordinateNodes bc_ipCoord];
    unfold triangle_linear; cbn [e_nodes e_deriv]; unfold triangle_linear_nodes, triangle_linear_deriv, sq_place; cbn [length rsum nth]; lra.
Qed.
Example C105_hypotheses : exists g h' vcs mcs,
  group_ok g /\ mData g = [0; 1; 2; 3]%Z /\ (forall a, In a (mData g) -> length (sq_nodes a) = 2%nat) /\
  build_numbering sq_nodes g 7 cons_empty = Ok (h', 8%Z, 0%Z) /\
  (forall c, In c sq_cells -> solid 2 c /\ nodes_of_mesh (mData g) c /\ isoparametric sq_place sq_place c /\ regular 2 sq_place c) /\
  (forall c q, In c sq_cells -> (q < bc_numIps c)%nat -> 0 < det_at 2 sq_place c q * bc_ipWeight c q) /\
  let l := le_make 2 30000 (1/5) PLANE_STRESS in
  local_vectors 2 7 h' (cell_Forces 2 sq_place sq_value (fun _ s => Ok (le_Stress 2 l s))) sq_cells = Ok vcs /\
  local_matrices 2 7 h' (cell_Stiffness 2 sq_place sq_value (fun _ s => Ok (le_Tangent l s))) sq_cells = Ok mcs /\
  (exists F, build_vector (mkInfo [(7, 8)] [(7, 0)])%Z 3 vcs [7%Z] (Ok F)) /\ Forall2 (measure_is 2 sq_place) sq_cells [2; 2].
Proof.
  destruct (group_history [0; 1; 2; 3]%Z) as (g & Hg & Hok & _). vm_compute in Hg. injection Hg as <-.
  match type of Hok with group_ok ?x => set (g := x) in * end.
  assert (Sz : forall a, In a (mData g) -> length (sq_nodes a) = 2%nat) by (intros; reflexivity).
  assert (NB : exists h', build_numbering sq_nodes g 7 cons_empty = Ok (h', 8%Z, 0%Z) /\ map h' [0; 1; 2; 3]%Z = [[0; 1]; [2; 3]; [4; 5]; [6; 7]]%Z).
  { eexists. split; [vm_compute; reflexivity|vm_compute; reflexivity]. }
  destruct NB as (h' & NB & Hh).
  assert (Sol : forall c, In c sq_cells -> solid 2 c /\ nodes_of_mesh (mData g) c /\ isoparametric sq_place sq_place c /\ regular 2 sq_place c).
  { intros c Hc. split; [|split; [|split]].
    - cbn in Hc. destruct Hc as [<-|[<-|[]]]; (repeat split; left; cbn; tauto).
    - cbn in Hc. destruct Hc as [<-|[<-|[]]]; intros a Ha; cbn in *; intuition.
    - cbn in Hc. destruct Hc as [<-|[<-|[]]]; split; [reflexivity|intros; reflexivity|reflexivity|intros; reflexivity].
    - intros q _. pose proof (sq_det c q Hc). lra. }
  assert (Hh4 : h' 0%Z = [0; 1]%Z /\ h' 1%Z = [2; 3]%Z /\ h' 2%Z = [4; 5]%Z /\ h' 3%Z = [6; 7]%Z) by (injection Hh; auto).
  destruct Hh4 as (H0 & H1 & H2 & H3).
  assert (Nums : forall c, In c sq_cells -> exists nums, cell_numbers 2 h' c = Ok nums).
  { intros c Hc. cbn in Hc. destruct Hc as [<-|[<-|[]]]; eexists; unfold cell_numbers; cbn; unfold dof_number; cbn [fst snd Z.ltb Z.compare]; rewrite ?H0, ?H1, ?H2, ?H3; cbn; reflexivity. }
  set (l := le_make 2 30000 (1/5) PLANE_STRESS).
  assert (V : exists vcs, local_vectors 2 7 h' (cell_Forces 2 sq_place sq_value (fun _ s => Ok (le_Stress 2 l s))) sq_cells = Ok vcs).
  { assert (One : forall c, In c sq_cells -> exists v, local_vector 2 7 h' (cell_Forces 2 sq_place sq_value (fun _ s => Ok (le_Stress 2 l s))) c = Ok v).
    { intros c Hc. destruct (Nums c Hc) as (nums & En). destruct (Sol c Hc) as ((Ux & Uu & Dx & Du) & _).
      destruct (elastic_gradient 2 30000 (1/5) PLANE_STRESS (bc_geometry c) (bc_element c) (fun k => sq_place (nth k (bc_coordinateNodes c) 0%Z)) (bc_id c) (bc_numIps c) (bc_ipCoord c) (bc_ipWeight c) Ux Dx (cell_values sq_value c)) as (f & Ef & _).
      eexists. unfold local_vector. replace (nodes_fit c) with true by (cbn in Hc; destruct Hc as [<-|[<-|[]]]; reflexivity).
      unfold cell_Forces. unfold cell_coordinates. change (extract_node_values 2 (length (e_nodes (bc_geometry c))) (fun k => sq_place (nth k (bc_coordinateNodes c) 0%Z)))
        with (flat 2 (length (e_nodes (bc_geometry c))) (fun k => sq_place (nth k (bc_coordinateNodes c) 0%Z))).
      unfold l. rewrite Ef, En. reflexivity. }
    destruct (One (sq_cell 0 [0; 1; 2]%Z) (or_introl eq_refl)) as (v1 & E1). destruct (One (sq_cell 1 [1; 3; 2]%Z) (or_intror (or_introl eq_refl))) as (v2 & E2).
    exists [v1; v2]. unfold local_vectors, sq_cells. cbn [map all_of]. rewrite E1, E2. reflexivity. }
  assert (M : exists mcs, local_matrices 2 7 h' (cell_Stiffness 2 sq_place sq_value (fun _ s => Ok (le_Tangent l s))) sq_cells = Ok mcs).
  { assert (One : forall c, In c sq_cells -> exists v, local_matrix 2 7 h' (cell_Stiffness 2 sq_place sq_value (fun _ s => Ok (le_Tangent l s))) c = Ok v).
    { intros c Hc. destruct (Nums c Hc) as (nums & En). destruct (Sol c Hc) as ((Ux & Uu & Dx & Du) & _).
      destruct (elastic_hessian 2 30000 (1/5) PLANE_STRESS (bc_geometry c) (bc_element c) (fun k => sq_place (nth k (bc_coordinateNodes c) 0%Z)) (bc_id c) (bc_numIps c) (bc_ipCoord c) (bc_ipWeight c) Ux Dx (cell_values sq_value c)) as (f & Ef & _).
      eexists. unfold local_matrix. replace (nodes_fit c) with true by (cbn in Hc; destruct Hc as [<-|[<-|[]]]; reflexivity).
      unfold cell_Stiffness. unfold cell_coordinates. change (extract_node_values 2 (length (e_nodes (bc_geometry c))) (fun k => sq_place (nth k (bc_coordinateNodes c) 0%Z)))
        with (flat 2 (length (e_nodes (bc_geometry c))) (fun k => sq_place (nth k (bc_coordinateNodes c) 0%Z))).
      unfold l. rewrite Ef, En. reflexivity. }
    destruct (One (sq_cell 0 [0; 1; 2]%Z) (or_introl eq_refl)) as (v1 & E1). destruct (One (sq_cell 1 [1; 3; 2]%Z) (or_intror (or_introl eq_refl))) as (v2 & E2).
    exists [v1; v2]. unfold local_matrices, sq_cells. cbn [map all_of]. rewrite E1, E2. reflexivity. }
  destruct V as (vcs & V). destruct M as (mcs & M).
  exists g, h', vcs, mcs. split; [exact Hok|]. split; [reflexivity|]. split; [exact Sz|]. split; [exact NB|]. split; [exact Sol|]. split.
  { intros c q Hc Hq. pose proof (sq_det c q Hc). cbn in Hc. destruct Hc as [<-|[<-|[]]]; cbn [bc_ipWeight sq_cell]; lra. }
  split; [exact V|]. split; [exact M|]. split.
  - destruct (vector_exists 2 7 sq_nodes g cons_empty h' 8 0 Hok Sz NB _ sq_cells vcs 3 ltac:(lia) (fun c Hc => proj1 (proj2 (Sol c Hc))) V) as (F & HF). exists F. exact HF.
  - assert (One : forall c, In c sq_cells -> measure_is 2 sq_place c 2).
    { intros c Hc. destruct (Sol c Hc) as ((Ux & Uu & Dx & Du) & _).
      set (X := fun k => sq_place (nth k (bc_coordinateNodes c) 0%Z)).
      exists (fun q => ipJac (the_ip 2 (bc_geometry c) X (bc_id c) (bc_ipCoord c) q)). split.
      - intros q Hq. destruct (ip_facts 2 (bc_geometry c) X (bc_id c) (bc_numIps c) (bc_ipCoord c) Ux Dx q) as (Ei & _).
        apply make_ip_fields in Ei. destruct Ei as (_ & _ & _ & Ej). rewrite <- Ej. reflexivity.
      - rewrite (rsum_ext _ _ (fun q => det_at 2 sq_place c q * bc_ipWeight c q)).
        + cbn in Hc. destruct Hc as [<-|[<-|[]]]; unfold det_at, geometry_det, leibniz, sq_cell; cbn [bc_geometry bc_coordinateNodes bc_ipCoord bc_numIps bc_ipWeight];
            unfold triangle_linear; cbn [e_nodes e_deriv]; unfold triangle_linear_nodes, triangle_linear_deriv, sq_place; cbn [length rsum nth]; lra.
        + intros q Hq. f_equal. apply (ip_facts 2 (bc_geometry c) X (bc_id c) (bc_numIps c) (bc_ipCoord c) Ux Dx q). }
    constructor; [apply One; left; reflexivity|]. constructor; [apply One; right; left; reflexivity|constructor].
Qed.
