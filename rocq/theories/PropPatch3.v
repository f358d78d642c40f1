(** * C108: the patch test through every history of quasi-static steps *)
From Coq Require Import List Arith ZArith Bool Reals Lra Lia.
From Flocq Require Import Core.
From Verif Require Import Outcome RSum Algebra GroupModel GroupProofs DofModel DofSpec ConstraintModel ConstraintSpec ConstraintProofs2 ConstraintProofs3 AssemblerModel AssemblerSpec CellModel CellSpec
  ElasticModel IntegrandModel InterpolationModel EquilibriumModel EquilibriumSpec EquilibriumProofs3 BodyModel BodySpec BodyProofs SolveModel SolveSpec SolveProofs PropSolve PropEquilibrium PropBody
  PropPatch SupportSpec SupportProofs SupportProofs2 SupportProofs3 PropSupport NewtonModel QuasiModel QuasiSpec QuasiProofs QuasiProofs2 QuasiProofs3 PropQuasi PropPatch2.
Import ListNotations.
Local Open Scope R_scope.

(** the one equilibrium of the body without loads is the homogeneous deformation *)
Lemma patch_solution : forall d t h g ops h' numInd numDep coordinate place value E nu ps weight A b cells mcs threads r (values : equation -> R),
  let c := cons_run cons_empty ops in let l := mData g in let size := fun _ : Z => Z.to_nat (numInd + numDep) in
  group_ok g -> (forall a, In a l -> length (h a) = d) -> build_numbering h g t c = Ok (h', numInd, numDep) ->
  (forall c, In c cells -> elastic_cell d l coordinate place c /\ simplex d c /\ rsum (bc_numIps c) (bc_ipWeight c) = weight) ->
  one_piece d cells -> cells <> [] -> (forall a, In a l -> node_of_cells cells a) ->
  0 < E -> -1 < nu < 1/2 -> supported d c t l place ->
  local_matrices d t h' (cell_Stiffness d coordinate value (fun _ s => Ok (le_Tangent (le_make d E nu ps) s))) cells = Ok mcs -> (0 < threads)%nat ->
  build_matrix (mkInfo [(t, numInd)] [(t, numDep)]) threads mcs [t] r ->
  (forall e, In e (equations c t) -> exists a i, edep e = (a, Z.of_nat i) /\ (i < d)%nat /\ eind e = [] /\ values e = affine_at d A b place a i) ->
  (forall a i, In a l -> (i < d)%nat -> inner_node d cells a \/ exists e, In e (equations c t) /\ edep e = (a, Z.of_nat i)) ->
  exists K, r = Ok K /\ definite K c [t] size (fun _ => num_in h') /\ @shapes_fit RR K [t] size size /\
    forall y, (forall e, In e (equations c t) -> lhs (num_in h') (dval y t) e = values e) -> equilibrium c [t] size (fun _ => num_in h') K (fun _ _ => 0) (dval y) ->
    forall a i, In a l -> (i < d)%nat -> at_node h' t y a i = affine_at d A b place a i /\ dval y t (num_in h' (a, Z.of_nat i)) = affine_at d A b place a i.
Proof.
  intros d t h g ops h' numInd numDep coordinate place value E nu ps weight A b cells mcs threads r values c l size
    Og Sz Nb Hc One Ne Cov HE Hnu Sup Em Ht B Pr In.
  assert (Hc' : forall c, List.In c cells -> elastic_cell d (mData g) coordinate place c) by (intros c1 H1; apply (Hc c1 H1)).
  destruct (body_energy d t h g c h' numInd numDep coordinate place value E nu ps cells mcs threads r Og Sz Nb Hc' One Ne HE Hnu Em Ht B) as (K & -> & Km & _ & En).
  assert (Mt : forall e k, List.In e (equations c t) -> List.In k (edep e :: ind_keys e) -> (0 <= snd k < Z.of_nat d)%Z).
  { intros e k He Hk. destruct (Pr e He) as (a & i & E1 & E2 & E3 & _). unfold ind_keys in Hk. rewrite E1, E3 in Hk. destruct Hk as [<-|[]]. cbn [snd]. lia. }
  assert (Inc : forall a, node_of_cells cells a -> List.In a (mData g)).
  { intros a (c1 & Ic & Ia). exact (proj1 (proj2 (Hc' c1 Ic)) a Ia). }
  set (N := length (cell_keys d (mData g))). assert (EN : Z.to_nat (numInd + numDep) = N).
  { rewrite (proj2 (BodyProofs.numbered d t h g c h' numInd numDep Og Sz Nb)), Nat2Z.id. reflexivity. }
  unfold size in *. clear size. rewrite EN in *.
  assert (Df : definite K c [t] (fun _ => N) (fun _ => num_in h')) by (apply (definite_iff_supported d t h g ops h' numInd numDep K Og Sz Nb Mt Km place cells En Cov Inc); exact Sup).
  exists K. split; [reflexivity|]. split; [exact Df|]. split; [exact (proj2 (proj2 (proj2 (sys_fit d t g K Km (repeat 0 N) (repeat_length _ _)))))|]. intros y Ly Qy.
  set (k0 := (0, 0)%Z : dofkey). set (aff := affine_at d A b place).
  set (W := fun n => as_key aff (nth n (cell_keys d (mData g)) k0)).
  assert (Key : forall k, List.In k (cell_keys d (mData g)) -> W (num_in h' k) = as_key aff k).
  { intros k Hk. destruct (key_num d t h g ops h' numInd numDep Og Sz Nb k Hk) as (_ & E2). unfold W. fold k0 in E2. rewrite E2. reflexivity. }
  assert (S : forall n, (n < N)%nat -> W n = dval y t n).
  { apply (linear_unique ops (fun _ => N) (fun _ => num_in h') t K (fun _ _ _ => 0) Df (fun _ => W) (dval y) 0); [|clear Qy|exact Qy].
    - intros e He. rewrite (Ly e He). destruct (Pr e He) as (a & i & E1 & Hi & E3 & E4). rewrite E4. unfold lhs. rewrite E3. cbn [fold_right].
      rewrite (Key (edep e)) by (apply (mentioned_in d t h g ops h' numInd numDep Og Nb Mt e); [exact He|left; reflexivity]).
      rewrite E1. unfold as_key. cbn [fst snd]. rewrite Nat2Z.id. fold aff. lra.
    - intros w Aw. set (w' := by_node h' (w t)).
      assert (HW : forall n, (n < N)%nat -> w t n = as_key w' (nth n (cell_keys d (mData g)) k0)) by (intros m Hm; apply (by_node_key d t h g ops h' numInd numDep Og Sz Nb); exact Hm).
      assert (Fw : fulfils c t w').
      { apply (proj2 (fulfils_admissible d t h g ops h' numInd numDep Og Sz Nb Mt w' (w t) HW)). intros t' e [<-|[]] He. exact (Aw t e (or_introl eq_refl) He). }
      assert (V : virtual_work (fun _ => N) [t] (fun _ => w t) (residual K (fun _ => N) [t] (fun _ => W) (fun _ _ => 0)) = 0).
      { etransitivity; [apply (virtual_keys d t h g ops h' numInd numDep K Og Sz Nb Km aff w' (fun _ _ => 0) W (w t) (fun _ => 0))|].
        4:{ unfold total_work, over_nodes. assert (Z : forall G : Z -> nat -> R, (forall a i, List.In a (mData g) -> (i < d)%nat -> G a i = 0) -> rlsum (map (fun a => rsum d (G a)) (mData g)) = 0).
          { intros G HG. rewrite (rlsum_ext' _ _ (fun _ => 0)); [|intros a Ha; apply rsum_zero; intros i Hi; apply HG; assumption]. clear. induction (mData g) as [|x xs IH]; [reflexivity|]. cbn [map rlsum]. rewrite IH. ring. }
          rewrite (Z (fun a i => stiffness_force d (mData g) (at_nodes h' t K) aff a i * w' a i)), (Z (fun a i => 0 * w' a i)); [ring|intros; ring|].
          intros a i Ha Hi. destruct (In a i Ha Hi) as [Inn|(e & He & Ee)].
          + unfold aff. rewrite (homogeneous_forces d t h g c h' numInd numDep coordinate place value E nu ps weight A b cells mcs threads K Og Sz Nb Hc HE Hnu Em Ht B a i Ha Hi Inn). ring.
          + destruct (Pr e He) as (a' & i' & E1 & Hi' & E3 & _). pose proof (Fw e He) as Q. cbv zeta in Q. rewrite Ee, E3 in Q. cbn [fst snd fold_right] in Q.
            rewrite Nat2Z.id in Q. replace (w' a i) with 0 by lra. ring. }
        - intros m Hm. reflexivity.
        - exact HW.
        - intros m Hm. reflexivity. }
      exact V. }
  intros a i Ha Hi. assert (Hk : List.In (a, Z.of_nat i) (cell_keys d (mData g))) by (apply in_cell_keys; split; [exact Ha|exists i; auto]).
  destruct (key_num d t h g ops h' numInd numDep Og Sz Nb _ Hk) as (H1 & H2).
  pose proof (at_node_key d t h g c h' numInd numDep Og Sz Nb y _ H1) as Q. rewrite H2 in Q. unfold as_key in Q. cbn [fst snd] in Q. rewrite Nat2Z.id in Q.
  fold N in H1. pose proof (S _ H1) as Q'. rewrite (Key _ Hk) in Q'. unfold as_key in Q'. cbn [fst snd] in Q'. rewrite Nat2Z.id in Q'.
  split; [|symmetry; exact Q']. rewrite Q. unfold dval in Q'. rewrite <- Q'. reflexivity.
Qed.

(** The body of C106_patch_test, moved by DoStep: what is prescribed at each time is A(time) x + b(time), there are no other forces.
    After every history of DoStep calls, failed ones included, with a step that succeeded, the solution is A(time) x + b(time) at every
    node of the mesh, at the time that was reached. *)
Theorem C108_patch_test : forall H (q : quasi_data H) d t h g ops h' numInd numDep coordinate place value E nu ps weight A b cells mcs threads r,
  let c := cons_run cons_empty ops in let l := mData g in let size := fun _ : Z => Z.to_nat (numInd + numDep) in
  group_ok g -> (forall a, In a l -> length (h a) = d) -> build_numbering h g t c = Ok (h', numInd, numDep) ->
  (forall c, In c cells -> elastic_cell d l coordinate place c /\ simplex d c /\ rsum (bc_numIps c) (bc_ipWeight c) = weight) ->
  one_piece d cells -> cells <> [] -> (forall a, In a l -> node_of_cells cells a) ->
  0 < E -> -1 < nu < 1/2 -> supported d c t l place ->
  local_matrices d t h' (cell_Stiffness d coordinate value (fun _ s => Ok (le_Tangent (le_make d E nu ps) s))) cells = Ok mcs -> (0 < threads)%nat ->
  build_matrix (mkInfo [(t, numInd)] [(t, numDep)]) threads mcs [t] r ->
  fits_together q ops size (fun _ => num_in h') -> q_dofs q = [t] -> (forall K, r = Ok K -> linear_problem q size K (fun _ _ _ => 0)) ->
  solver_complete (q_linsolve q) -> 0 < q_tolerance q ->
  (forall e, In e (equations c t) -> exists a i, edep e = (a, Z.of_nat i) /\ (i < d)%nat /\ eind e = [] /\
     forall time, to_float (erhs e time) = affine_at d (A time) (b time) place a i) ->
  (forall a i, In a l -> (i < d)%nat -> inner_node d cells a \/ exists e, In e (equations c t) /\ edep e = (a, Z.of_nat i)) ->
  forall s x times s' os, mX s = Some x -> has_sizes [t] size x -> constraints_hold c [t] (fun _ => num_in h') x (mGlobalTime s) ->
  do_steps (quasi_on_dofs q) s times = (s', os) -> (exists n, In (StepOk n) os) ->
  exists y, mX s' = Some y /\ forall a i, In a l -> (i < d)%nat -> at_node h' t y a i = affine_at d (A (mGlobalTime s')) (b (mGlobalTime s')) place a i.
Proof.
  intros H q d t h g ops h' numInd numDep coordinate place value E nu ps weight A b cells mcs threads r c l size
    Og Sz Nb Hc One Ne Cov HE Hnu Sup Em Ht B F Dofs Lin Cpl Tol Pr In s x times s' os Ex Hx Hch Run (n1 & Ok1).
  destruct (patch_solution d t h g ops h' numInd numDep coordinate place value E nu ps weight (A (mGlobalTime s')) (b (mGlobalTime s')) cells mcs threads r
    (fun e => to_float (erhs e (mGlobalTime s'))) Og Sz Nb Hc One Ne Cov HE Hnu Sup Em Ht B) as (K & EK & Df & _ & Q).
  - intros e He. destruct (Pr e He) as (a & i & E1 & E2 & E3 & E4). exists a, i. auto.
  - exact In.
  - assert (Bx : existsb (fun o => match o with StepOk _ => true | _ => false end) os = true) by (apply existsb_exists; exists (StepOk n1); auto).
    destruct (linear_history q ops size (fun _ => num_in h') t K (fun _ _ _ => 0) F Dofs (Lin K EK) Df Cpl Tol times s x s' os Ex Hx Hch Run (or_intror Bx)) as (y & Ey & Sy & Ly & Qy).
    exists y. split; [exact Ey|]. intros a i Ha Hi. apply Q; [|exact Qy|exact Ha|exact Hi]. intros e He. exact (Ly t e (or_introl eq_refl) He).
Qed.
Print Assumptions C108_patch_test.

(** the square of four triangles: its corners move when the time gets positive, the node inside follows *)
Definition ps_eq (a i : Z) (v : R) : equation := mkEq (a, i) [] (fun time => if Rle_dec time 0 then 0 else v).
Definition ps_equations : list equation :=
  [ps_eq 0 0 0; ps_eq 0 1 0; ps_eq 1 0 2; ps_eq 1 1 2; ps_eq 2 0 4; ps_eq 2 1 2; ps_eq 3 0 2; ps_eq 3 1 0].
Definition ps_ops : list cons_op := [AddMany 7 ps_equations].
Definition ps_grad (time : R) : nat -> nat -> R := fun i j => if Rle_dec time 0 then 0 else pt_grad i j.
Lemma ps_numbering : exists g h', mData g = [0; 1; 2; 3; 4]%Z /\ group_ok g /\ build_numbering sq_nodes g 7 (cons_run cons_empty ps_ops) = Ok (h', 2%Z, 8%Z) /\
  unit_constraint_matrix h' (cons_run cons_empty ps_ops) 7 10 = Ok (mkMat (F := R_cring) 10 2 [(8%nat, 0%nat, 1); (9%nat, 1%nat, 1)]) /\
  num_in h' (4, 0)%Z = 8%nat /\ num_in h' (4, 1)%Z = 9%nat.
Proof.
  destruct (group_history [0; 1; 2; 3; 4]%Z) as (g & Hg & Hok & _). vm_compute in Hg. injection Hg as <-.
  match type of Hok with group_ok ?x => exists x end. eexists. split; [reflexivity|]. split; [exact Hok|]. split; [unfold build_numbering, build_call; cbv - [Rdiv IZR Rinv Rmult R1 Rplus Rle_dec]; reflexivity|].
  split; [unfold unit_constraint_matrix; cbv - [Rdiv IZR Rinv Rmult R1 R0 Rplus Rle_dec Ropp Rabs Rlt_dec pow]; reflexivity|]. split; reflexivity.
Qed.
Lemma ps_supported : supported 2 (cons_run cons_empty ps_ops) 7 [0; 1; 2; 3; 4]%Z pt_place.
Proof.
  intros A b SA F. apply (pt_supported A b SA). change (forall e, In e pt_equations -> let at_key k := affine_at 2 A b pt_place (fst k) (Z.to_nat (snd k)) in
    at_key (edep e) + fold_right (fun tm s => coef tm * at_key (tkey tm) + s) 0 (eind e) = 0).
  change (forall e, In e ps_equations -> let at_key k := affine_at 2 A b pt_place (fst k) (Z.to_nat (snd k)) in
    at_key (edep e) + fold_right (fun tm s => coef tm * at_key (tkey tm) + s) 0 (eind e) = 0) in F.
  intros e He. unfold pt_equations in He.
  destruct He as [<-|[<-|[<-|[<-|[<-|[<-|[<-|[<-|[]]]]]]]]];
    [apply (F (ps_eq 0 0 0))|apply (F (ps_eq 0 1 0))|apply (F (ps_eq 1 0 2))|apply (F (ps_eq 1 1 2))|apply (F (ps_eq 2 0 4))|apply (F (ps_eq 2 1 2))|apply (F (ps_eq 3 0 2))|apply (F (ps_eq 3 1 0))];
    cbn [In ps_equations]; tauto.
Qed.
Definition ps_problem (h : nodes) (K Cu : dofmat RR) : quasi_data unit :=
  mkData gauss h (cons_run cons_empty ps_ops) [7%Z] Cu (/ 10 ^ 10)
    (fun _ _ x t _ => Ok [(7%Z, map (residual K (fun _ => 10%nat) [7%Z] (dval x) (fun _ _ => 0) 7) (seq 0 10))])
    (fun _ _ _ _ _ => Ok K) (fun _ hist _ _ _ => (hist, false)).
Lemma ps_prescribed e : In e ps_equations -> exists a i, edep e = (a, Z.of_nat i) /\ (i < 2)%nat /\ eind e = [] /\
  forall time, to_float (erhs e time) = affine_at 2 (ps_grad time) (fun _ => 0) pt_place a i.
Proof.
  assert (F : forall v, In v [0; 2; 4] -> to_float v = v).
  { intros v Hv. destruct Hv as [<-|[<-|[<-|[]]]]; [apply to_float_zero| |];
      apply to_float_exact; unfold float_representable; [change 2 with (bpow radix2 1)|change 4 with (bpow radix2 2)]; (apply generic_format_bpow; unfold FLT_exp; lia). }
  assert (G : forall a i v, In v [0; 2; 4] -> (i < 2)%nat -> v = affine_at 2 pt_grad (fun _ => 0) pt_place a i -> exists a' i', edep (ps_eq a (Z.of_nat i) v) = (a', Z.of_nat i') /\ (i' < 2)%nat /\ eind (ps_eq a (Z.of_nat i) v) = [] /\
    forall time, to_float (erhs (ps_eq a (Z.of_nat i) v) time) = affine_at 2 (ps_grad time) (fun _ => 0) pt_place a' i').
  { intros a i v Hv Hi E. exists a, i. split; [reflexivity|]. split; [exact Hi|]. split; [reflexivity|]. intros time. cbn [ps_eq erhs]. unfold ps_grad, affine_at. destruct (Rle_dec time 0).
    - rewrite to_float_zero. cbn [rsum]. ring.
    - rewrite (F v Hv). exact E. }
  intros He. unfold ps_equations in He.
  destruct He as [<-|[<-|[<-|[<-|[<-|[<-|[<-|[<-|[]]]]]]]]];
    [apply (G 0%Z 0%nat 0)|apply (G 0%Z 1%nat 0)|apply (G 1%Z 0%nat 2)|apply (G 1%Z 1%nat 2)|apply (G 2%Z 0%nat 4)|apply (G 2%Z 1%nat 2)|apply (G 3%Z 0%nat 2)|apply (G 3%Z 1%nat 0)];
    first [lia|cbn [In]; auto; fail|unfold affine_at, pt_grad, pt_place; cbn [rsum nth]; ring].
Qed.
Example C108_patch_case : exists g h' mcs K Cu s,
  mData g = [0; 1; 2; 3; 4]%Z /\ build_numbering sq_nodes g 7 (cons_run cons_empty ps_ops) = Ok (h', 2%Z, 8%Z) /\
  local_matrices 2 7 h' (cell_Stiffness 2 pt_place sq_value (fun _ s => Ok (le_Tangent (le_make 2 30000 (1/5) PLANE_STRESS) s))) pt_cells = Ok mcs /\
  build_matrix (mkInfo [(7, 2)] [(7, 8)])%Z 3 mcs [7%Z] (Ok K) /\
  do_steps (quasi_on_dofs (ps_problem h' K Cu)) (mkQState (Some [(7%Z, repeat 0 10)]) 0 0 tt) [1] = (s, [StepOk 0]) /\ mGlobalTime s = 1 /\
  exists y, mX s = Some y /\ at_node h' 7 y 4 0 = 3/2 /\ at_node h' 7 y 4 1 = 1/2.
Proof.
  destruct ps_numbering as (g & h' & Eg & Hok & NB & EC & N40 & N41).
  assert (Sz : forall a, In a (mData g) -> length (sq_nodes a) = 2%nat) by (intros; reflexivity).
  assert (Hel : forall c, In c pt_cells -> elastic_cell 2 (mData g) pt_place pt_place c /\ nodes_fit c = true) by (rewrite Eg; exact pt_elastic).
  destruct (C106_assembles 2 7 sq_nodes g _ h' 2 8 pt_place pt_place sq_value 30000 (1/5) PLANE_STRESS pt_cells 3 Hok Sz NB Hel ltac:(lra) ltac:(lra) ltac:(lia)) as (mcs & K & Em & B).
  assert (Hc : forall c, In c pt_cells -> elastic_cell 2 (mData g) pt_place pt_place c /\ simplex 2 c /\ rsum (bc_numIps c) (bc_ipWeight c) = 1/2).
  { intros c Hc. split; [apply Hel; exact Hc|]. cbn in Hc. destruct Hc as [<-|[<-|[<-|[<-|[]]]]]; (split; [split; [|left; split; reflexivity]; repeat constructor; cbn; intuition discriminate|cbn [bc_numIps bc_ipWeight sq_cell rsum]; lra]). }
  assert (Cov : forall a, In a (mData g) -> node_of_cells pt_cells a).
  { intros a Ha. rewrite Eg in Ha. cbn in Ha. unfold node_of_cells.
    destruct Ha as [<-|[<-|[<-|[<-|[<-|[]]]]]]; [exists (sq_cell 0 [0; 1; 4]%Z)|exists (sq_cell 0 [0; 1; 4]%Z)|exists (sq_cell 1 [4; 1; 2]%Z)|exists (sq_cell 3 [0; 4; 3]%Z)|exists (sq_cell 0 [0; 1; 4]%Z)]; cbn; intuition. }
  assert (Sup : supported 2 (cons_run cons_empty ps_ops) 7 (mData g) pt_place) by (rewrite Eg; exact ps_supported).
  assert (Free : forall a i, In a (mData g) -> (i < 2)%nat -> inner_node 2 pt_cells a \/ exists e, In e (equations (cons_run cons_empty ps_ops) 7) /\ edep e = (a, Z.of_nat i)).
  { intros a i Ha Hi. rewrite Eg in Ha. change (equations (cons_run cons_empty ps_ops) 7) with ps_equations.
    destruct Ha as [<-|[<-|[<-|[<-|[<-|[]]]]]]; [right|right|right|right|left; exact pt_inner]; (destruct i as [|[|i]]; [| |lia]).
    + exists (ps_eq 0 0 0). split; [cbn; auto 10|reflexivity].
    + exists (ps_eq 0 1 0). split; [cbn; auto 10|reflexivity].
    + exists (ps_eq 1 0 2). split; [cbn; auto 10|reflexivity].
    + exists (ps_eq 1 1 2). split; [cbn; auto 10|reflexivity].
    + exists (ps_eq 2 0 4). split; [cbn; auto 10|reflexivity].
    + exists (ps_eq 2 1 2). split; [cbn; auto 10|reflexivity].
    + exists (ps_eq 3 0 2). split; [cbn; auto 10|reflexivity].
    + exists (ps_eq 3 1 0). split; [cbn; auto 10|reflexivity]. }
  destruct (patch_solution 2 7 sq_nodes g ps_ops h' 2 8 pt_place pt_place sq_value 30000 (1/5) PLANE_STRESS (1/2) (ps_grad 1) (fun _ => 0) pt_cells mcs 3 (Ok K) (fun e => to_float (erhs e 1))
    Hok Sz NB Hc pt_one_piece ltac:(discriminate) Cov ltac:(lra) ltac:(lra) Sup Em ltac:(lia) B) as (K' & EK & Df & Shp & Sol).
  { intros e He. destruct (ps_prescribed e He) as (a & i & E1 & E2 & E3 & E4). exists a, i. auto. }
  { exact Free. }
  injection EK as <-. change (Z.to_nat (2 + 8)) with 10%nat in *.
  set (Cu := [((7, 7)%Z, mkMat (F := R_cring) 10 2 [(8%nat, 0%nat, 1); (9%nat, 1%nat, 1)])] : dofmat RR).
  assert (Ns : no_self_reference ps_ops).
  { intros o e Ho He. cbn in Ho. destruct Ho as [<-|[]]. cbn in He. repeat (destruct He as [<-|He]; [cbn; intuition|]). destruct He. }
  assert (Ind : forall e, In e ps_equations -> eind e = [] /\ (0 <= snd (edep e) < 2)%Z).
  { intros e He. destruct (ps_prescribed e He) as (a & i & E1 & E2 & E3 & _). rewrite E1, E3. cbn [snd]. split; [reflexivity|lia]. }
  assert (Zs : has_sizes [7%Z] (fun _ => 10%nat) [(7%Z, repeat 0 10)]) by (split; [repeat constructor|intros d [<-|[]]; reflexivity]).
  assert (F : fits_together (ps_problem h' K Cu) ps_ops (fun _ => 10%nat) (fun _ => num_in h')).
  { split.
    - exact (proj1 gauss_solver).
    - reflexivity.
    - assert (E10 : length (cell_keys 2 (mData g)) = 10%nat) by (rewrite Eg; reflexivity).
      pose proof (cons_fit 2 7 sq_nodes g ps_ops h' 2 8 Hok Sz NB Ns) as Cf. rewrite E10 in Cf. apply Cf.
      + intros e tm He Htm. rewrite (proj1 (Ind e He)) in Htm. destruct Htm.
      + intros e k He Hk. unfold ind_keys in Hk. rewrite (proj1 (Ind e He)) in Hk. destruct Hk as [<-|[]]. apply (proj2 (Ind e He)).
    - repeat constructor; cbn; tauto.
    - exists [(7%Z, repeat 0 10)]. split; [exact Zs|]. cbn [q_nodes q_constraints q_dofs ps_problem]. unfold unit_blocks. cbn [diag_blocks mfind]. unfold lt_dof. rewrite Z.ltb_irrefl. cbn [olift obind].
      change (length (repeat 0 10)) with 10%nat. rewrite EC. reflexivity.
    - intros hist x t dt f Hx Ef. injection Ef as <-. split; [split; [repeat constructor|]|reflexivity]. intros d [<-|[]]. reflexivity.
    - intros hist x t dt K1 Hx Ek. injection Ek as <-. exact Shp. }
  assert (Lin : linear_problem (ps_problem h' K Cu) (fun _ => 10%nat) K (fun _ _ _ => 0)).
  { split; [|reflexivity]. intros hist x t dt _. eexists. split; [reflexivity|]. intros d i [<-|[]] Hi. unfold dval at 1. unfold val. cbn [mfind]. unfold lt_dof. rewrite Z.ltb_irrefl.
    rewrite (nth_indep _ _ (residual K (fun _ => 10%nat) [7%Z] (dval x) (fun _ _ => 0) 7 0)) by (rewrite map_length, seq_length; exact Hi). rewrite map_nth, seq_nth by exact Hi. reflexivity. }
  assert (Init : constraints_hold (cons_run cons_empty ps_ops) [7%Z] (fun _ => num_in h') [(7%Z, repeat 0 10)] 0).
  { intros d e [<-|[]] He. change (In e ps_equations) in He. unfold lhs. rewrite (proj1 (Ind e He)). cbn [fold_right].
    destruct (ps_prescribed e He) as (a & i & _ & _ & _ & E4). rewrite E4. unfold affine_at, ps_grad. destruct (Rle_dec 0 0); [|lra]. cbn [rsum].
    replace (dval [(7%Z, repeat 0 10)] 7 (num_in h' (edep e))) with 0; [ring|]. unfold dval, val. cbn [mfind]. unfold lt_dof. rewrite Z.ltb_irrefl. symmetry. apply nth_repeat. }
  set (s0 := mkQState (Some [(7%Z, repeat 0 10)]) 0 0 tt : quasi_state (option (dofvec RR)) unit).
  destruct (C108_linear unit (ps_problem h' K Cu) ps_ops (fun _ => 10%nat) (fun _ => num_in h') 7 K (fun _ _ _ => 0) F eq_refl Lin Df (proj2 gauss_solver) ltac:(cbn [q_tolerance ps_problem]; lra)
    s0 _ 1 eq_refl Zs Init) as (y & Hy & Ly & Qy & _ & Step & _).
  assert (V : forall i, (i < 2)%nat -> at_node h' 7 y 4 i = affine_at 2 (ps_grad 1) (fun _ => 0) pt_place 4 i /\ dval y 7 (num_in h' (4%Z, Z.of_nat i)) = affine_at 2 (ps_grad 1) (fun _ => 0) pt_place 4 i).
  { intros i Hi. apply Sol; [intros e He; exact (Ly 7%Z e (or_introl eq_refl) He)|exact Qy|rewrite Eg; cbn; auto 10|exact Hi]. }
  destruct (V 0%nat ltac:(lia)) as (V0 & W0). destruct (V 1%nat ltac:(lia)) as (V1 & W1). change (Z.of_nat 0) with 0%Z in *. change (Z.of_nat 1) with 1%Z in *. rewrite N40 in W0. rewrite N41 in W1.
  assert (A0 : affine_at 2 (ps_grad 1) (fun _ => 0) pt_place 4 0 = 3/2) by (unfold affine_at, ps_grad; destruct (Rle_dec 1 0); [lra|]; unfold pt_grad, pt_place; cbn [rsum nth]; lra).
  assert (A1 : affine_at 2 (ps_grad 1) (fun _ => 0) pt_place 4 1 = 1/2) by (unfold affine_at, ps_grad; destruct (Rle_dec 1 0); [lra|]; unfold pt_grad, pt_place; cbn [rsum nth]; lra).
  rewrite A0 in V0, W0. rewrite A1 in V1, W1.
  destruct (one_norm (ps_problem h' K Cu) ps_ops (fun _ => 10%nat) (fun _ => num_in h') 7 F eq_refl y Hy) as (C & EC' & En).
  assert (C = mkMat (F := R_cring) 10 2 [(8%nat, 0%nat, 1); (9%nat, 1%nat, 1)]) by (injection EC' as <-; reflexivity). subst C.
  specialize (Step _ tt En).
  assert (Done : do_step (quasi_on_dofs (ps_problem h' K Cu)) s0 1 = (mkQState (Some y) 1 (1 - 0) tt, StepOk 0)).
  { apply Step; [|reflexivity]. cbn [scols rsum]. unfold mentry. cbn - [dval sqrt Rmult Rplus Rle pow IZR].
    match goal with |- sqrt ?z <= _ => replace z with (3/2 * (3/2) + 1/2 * (1/2)) by (rewrite W0, W1; ring) end.
    apply Rle_trans with (sqrt (4 * 4)); [apply sqrt_le_1_alt; lra|]. rewrite sqrt_square by lra. lra. }
  exists g, h', mcs, K, Cu, (mkQState (Some y) 1 (1 - 0) tt). split; [exact Eg|]. split; [exact NB|]. split; [exact Em|]. split; [exact B|]. split; [|split; [reflexivity|]].
  - cbn [do_steps]. fold s0. rewrite Done. reflexivity.
  - exists y. split; [reflexivity|]. split; assumption.
Qed.
