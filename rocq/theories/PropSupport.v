(** * C106: an elastic body on supports has exactly one equilibrium *)
From Coq Require Import List Arith ZArith Bool Reals Lra Lia.
From Verif Require Import Outcome RSum Algebra GroupModel GroupProofs DofModel DofSpec ConstraintModel ConstraintSpec ConstraintProofs2 AssemblerModel AssemblerSpec CellModel CellSpec
  ElasticModel IntegrandModel InterpolationModel EquilibriumModel EquilibriumSpec BodyModel BodySpec BodyProofs SolveModel SolveSpec SolveProofs PropSolve PropEquilibrium PropBody
  SupportSpec SupportProofs SupportProofs2 SupportProofs3.
Import ListNotations.
Local Open Scope R_scope.

(** assembling the stiffness matrix of such a body succeeds *)
Theorem C106_assembles : forall d t h g cons h' numInd numDep coordinate place value E nu ps cells threads,
  group_ok g -> (forall a, In a (mData g) -> length (h a) = d) -> build_numbering h g t cons = Ok (h', numInd, numDep) ->
  (forall c, In c cells -> elastic_cell d (mData g) coordinate place c /\ nodes_fit c = true) -> 0 < E -> -1 < nu < 1/2 -> (0 < threads)%nat ->
  exists mcs K, local_matrices d t h' (cell_Stiffness d coordinate value (fun _ s => Ok (le_Tangent (le_make d E nu ps) s))) cells = Ok mcs /\
    build_matrix (mkInfo [(t, numInd)] [(t, numDep)]) threads mcs [t] (Ok K).
Proof.
  intros d t h g cons h' numInd numDep coordinate place value E nu ps cells threads Og Sz Nb Hc HE Hnu Ht.
  apply (matrices_exist d t h g cons h' numInd numDep Og Sz Nb); [exact Ht|]. intros c Ic. destruct (Hc c Ic) as ((Sc & M & (Ie & _) & _ & _ & Hw) & Fit).
  split; [exact M|]. split; [exact Fit|]. destruct Sc as (Ux & _ & Dx & _).
  destruct (C99_stiffness d E nu ps (bc_geometry c) (fun k => coordinate (nth k (bc_coordinateNodes c) 0%Z)) (cell_values value c) (bc_id c) (bc_numIps c) (bc_ipCoord c) (bc_ipWeight c) Ux Dx HE Hnu)
    as (_ & K & _ & E2 & _).
  - intros q Hq Z. specialize (Hw q Hq). unfold det_at in Hw. rewrite Z in Hw. lra.
  - exists K. unfold cell_Stiffness. rewrite Ie. exact E2.
Qed.
Print Assumptions C106_assembles.

(** a body in one piece has no energy exactly when it moves as a rigid body *)
Theorem C106_energy : forall d t h g cons h' numInd numDep coordinate place value E nu ps cells mcs threads r,
  group_ok g -> (forall a, In a (mData g) -> length (h a) = d) -> build_numbering h g t cons = Ok (h', numInd, numDep) ->
  (forall c, In c cells -> elastic_cell d (mData g) coordinate place c) -> one_piece d cells -> cells <> [] -> 0 < E -> -1 < nu < 1/2 ->
  local_matrices d t h' (cell_Stiffness d coordinate value (fun _ s => Ok (le_Tangent (le_make d E nu ps) s))) cells = Ok mcs -> (0 < threads)%nat ->
  build_matrix (mkInfo [(t, numInd)] [(t, numDep)]) threads mcs [t] r ->
  exists K, r = Ok K /\ forall w, let work := total_work d (mData g) (stiffness_force d (mData g) (at_nodes h' t K) w) w in
    0 <= work /\ (work = 0 <-> exists A b, skew d A /\ forall a i, node_of_cells cells a -> (i < d)%nat -> w a i = affine_at d A b place a i).
Proof.
  intros d t h g cons h' numInd numDep coordinate place value E nu ps cells mcs threads r Og Sz Nb Hc One Ne HE Hnu Em Ht B.
  destruct (body_energy d t h g cons h' numInd numDep coordinate place value E nu ps cells mcs threads r Og Sz Nb Hc One Ne HE Hnu Em Ht B) as (K & Er & _ & _ & H).
  exists K. split; [exact Er|exact H].
Qed.
Print Assumptions C106_energy.

(** the system is definite on the displacements the constraints allow exactly when the constraints allow no rigid motion *)
Theorem C106_supports : forall d t h g ops h' numInd numDep coordinate place value E nu ps cells mcs threads r,
  let c := cons_run cons_empty ops in
  group_ok g -> (forall a, In a (mData g) -> length (h a) = d) -> build_numbering h g t c = Ok (h', numInd, numDep) ->
  (forall e k, In e (equations c t) -> In k (edep e :: ind_keys e) -> (0 <= snd k < Z.of_nat d)%Z) ->
  (forall c, In c cells -> elastic_cell d (mData g) coordinate place c) -> one_piece d cells -> cells <> [] -> (forall a, In a (mData g) -> node_of_cells cells a) ->
  0 < E -> -1 < nu < 1/2 ->
  local_matrices d t h' (cell_Stiffness d coordinate value (fun _ s => Ok (le_Tangent (le_make d E nu ps) s))) cells = Ok mcs -> (0 < threads)%nat ->
  build_matrix (mkInfo [(t, numInd)] [(t, numDep)]) threads mcs [t] r ->
  exists K, r = Ok K /\
    (definite K c [t] (fun _ => Z.to_nat (numInd + numDep)) (fun _ => num_in h') <-> supported d c t (mData g) place).
Proof.
  intros d t h g ops h' numInd numDep coordinate place value E nu ps cells mcs threads r c Og Sz Nb Mt Hc One Ne Cov HE Hnu Em Ht B.
  destruct (body_energy d t h g c h' numInd numDep coordinate place value E nu ps cells mcs threads r Og Sz Nb Hc One Ne HE Hnu Em Ht B) as (K & Er & Km & _ & En).
  exists K. split; [exact Er|]. rewrite (proj2 (BodyProofs.numbered d t h g c h' numInd numDep Og Sz Nb)), Nat2Z.id.
  apply (definite_iff_supported d t h g ops h' numInd numDep K Og Sz Nb Mt Km place cells En Cov).
  intros a (c1 & Ic & Ia). exact (proj1 (proj2 (Hc c1 Ic)) a Ia).
Qed.
Print Assumptions C106_supports.

Lemma lhs_sub num u v e : lhs num (fun i => u i - v i) e = lhs num u e - lhs num v e.
Proof. unfold lhs. induction (eind e) as [|t ts IH]; cbn [fold_right]; lra. Qed.

(** Solve of any block system that is definite on the admissible vectors: it returns, and its result is the only equilibrium *)
Theorem C106_solve : forall linsolve, solver_correct linsolve -> solver_complete linsolve ->
  forall h ops K f dofs size num, system_fits K f dofs size -> constraints_fit h ops dofs size num -> dofs = bv_keys f ->
  let c := cons_run cons_empty ops in definite K c dofs size num ->
  exists r, solve linsolve h c K f dofs = Ok r /\ admissible c dofs num (dval r) /\
    (forall w, admissible c dofs num w -> virtual_work size dofs w (residual K size dofs (dval r) (dval f)) = 0) /\
    forall u, admissible c dofs num u -> (forall w, admissible c dofs num w -> virtual_work size dofs w (residual K size dofs u (dval f)) = 0) ->
      forall d i, In d dofs -> (i < size d)%nat -> u d i = dval r d i.
Proof.
  intros linsolve Hls Hcp h ops K f dofs size num Hsys Hcon Hk c Df.
  destruct (solve_returns h ops K f dofs size num Hsys Hcon Df linsolve Hcp Hk) as (r & Er). exists r. split; [exact Er|].
  destruct (C24_solve_partial linsolve Hls h ops K f dofs size num Hsys Hcon Hk) as (_ & _ & Q). destruct (Q r Er) as (_ & Ar & Vr).
  split; [exact Ar|]. split; [exact Vr|]. intros u Au Vu. apply (unique ops K dofs size num Df u (dval r) (dval f)); [|exact Vu|exact Vr].
  intros d e Hd He. etransitivity; [exact (lhs_sub (num d) (u d) (dval r d) e)|]. rewrite (Au d e Hd He), (Ar d e Hd He). ring.
Qed.
Print Assumptions C106_solve.

(** the same for SolveTrialState, where the constraints move from one time to another *)
Theorem C106_trial : forall linsolve, solver_correct linsolve -> solver_complete linsolve ->
  forall h ops K f oldTime newTime dofs size num, system_fits K f dofs size -> constraints_fit h ops dofs size num -> dofs = bv_keys f ->
  let c := cons_run cons_empty ops in definite K c dofs size num ->
  let moves u := forall d e, In d dofs -> In e (equations c d) ->
    lhs (num d) (fun i => - u d i) e = to_float (erhs e newTime) - to_float (erhs e oldTime) in
  exists r, solve_trial linsolve h c K f oldTime newTime dofs = Ok r /\ moves (dval r) /\
    (forall w, admissible c dofs num w -> virtual_work size dofs w (residual K size dofs (dval r) (dval f)) = 0) /\
    forall u, moves u -> (forall w, admissible c dofs num w -> virtual_work size dofs w (residual K size dofs u (dval f)) = 0) ->
      forall d i, In d dofs -> (i < size d)%nat -> u d i = dval r d i.
Proof.
  intros linsolve Hls Hcp h ops K f oldT newT dofs size num Hsys Hcon Hk c Df mv.
  destruct (solve_trial_returns h ops K f dofs size num Hsys Hcon Df linsolve Hcp Hk oldT newT) as (r & Er). exists r. split; [exact Er|].
  destruct (solve_trial_lemma linsolve Hls h ops K f oldT newT dofs size num Hsys Hcon Hk) as (_ & _ & Q). destruct (Q r Er) as (_ & Ar & Vr).
  split; [exact Ar|]. split; [exact Vr|]. intros u Au Vu. apply (unique ops K dofs size num Df u (dval r) (dval f)); [|exact Vu|exact Vr].
  intros d e Hd He. etransitivity; [exact (lhs_sub (num d) (u d) (dval r d) e)|].
  pose proof (eq_trans (eq_sym (lhs_opp (num d) (u d) e)) (Au d e Hd He)). pose proof (eq_trans (eq_sym (lhs_opp (num d) (dval r d) e)) (Ar d e Hd He)). lra.
Qed.
Print Assumptions C106_trial.

(** a supported body under any loads: Solve returns the displacements that fulfil the constraints and balance the loads; they are the only ones and minimise the potential energy *)
Theorem C106_supported_body : forall linsolve, solver_correct linsolve -> solver_complete linsolve ->
  forall d t h g ops h' numInd numDep coordinate place value E nu ps cells mcs threads r p,
  let c := cons_run cons_empty ops in let l := mData g in
  group_ok g -> (forall a, In a l -> length (h a) = d) -> build_numbering h g t c = Ok (h', numInd, numDep) ->
  no_self_reference ops -> (forall e tm, In e (equations c t) -> In tm (eind e) -> coef tm = 0 \/ / 10 ^ 18 < Rabs (coef tm)) ->
  (forall e k, In e (equations c t) -> In k (edep e :: ind_keys e) -> (0 <= snd k < Z.of_nat d)%Z) ->
  (forall c, In c cells -> elastic_cell d l coordinate place c) -> one_piece d cells -> cells <> [] -> (forall a, In a l -> node_of_cells cells a) ->
  0 < E -> -1 < nu < 1/2 -> supported d c t l place ->
  local_matrices d t h' (cell_Stiffness d coordinate value (fun _ s => Ok (le_Tangent (le_make d E nu ps) s))) cells = Ok mcs -> (0 < threads)%nat ->
  build_matrix (mkInfo [(t, numInd)] [(t, numDep)]) threads mcs [t] r -> length p = Z.to_nat (numInd + numDep) ->
  exists K u, r = Ok K /\ solve linsolve h' c K [(t, p)] [t] = Ok u /\
    let U := at_node h' t u in let P := at_node h' t [(t, p)] in let k := at_nodes h' t K in
    fulfils c t U /\
    (forall w, fulfils c t w -> total_work d l (stiffness_force d l k U) w = total_work d l P w) /\
    (forall a i, In a l -> (i < d)%nat -> (forall e, In e (equations c t) -> ~ In (a, Z.of_nat i) (edep e :: ind_keys e)) -> stiffness_force d l k U a i = P a i) /\
    (forall v, fulfils c t v -> (forall w, fulfils c t w -> total_work d l (stiffness_force d l k v) w = total_work d l P w) ->
       forall a i, In a l -> (i < d)%nat -> v a i = U a i) /\
    (forall v, fulfils c t v -> potential d l k P U <= potential d l k P v /\
       (potential d l k P v = potential d l k P U -> forall a i, In a l -> (i < d)%nat -> v a i = U a i)).
Proof.
  intros linsolve Hls Hcp d t h g ops h' numInd numDep coordinate place value E nu ps cells mcs threads r p c l Og Sz Nb Ns Cf Mt Hc One Ne Cov HE Hnu Sup Em Ht B Lp.
  destruct (body_energy d t h g c h' numInd numDep coordinate place value E nu ps cells mcs threads r Og Sz Nb Hc One Ne HE Hnu Em Ht B) as (K & Er & Km & Sym & En).
  rewrite (proj2 (BodyProofs.numbered d t h g c h' numInd numDep Og Sz Nb)), Nat2Z.id in Lp.
  destruct (supported_solution d t h g ops h' numInd numDep K Og Sz Nb Ns Cf Mt Km place cells En Cov linsolve p Sup Lp Sym
    (fun a Ha => match Ha with ex_intro _ (conj Ic Ia) => proj1 (proj2 (Hc _ Ic)) a Ia end) Hls Hcp) as (u & Eu & H).
  exists K, u. split; [exact Er|]. split; [exact Eu|exact H].
Qed.
Print Assumptions C106_supported_body.

(** ** A linear solver that meets the hypotheses: elimination *)
Definition row : Type := (nat -> R) * R.
Definition solves (n : nat) (x : nat -> R) (r : row) : Prop := rsum n (fun j => fst r j * x j) = snd r.
Fixpoint pivot (n : nat) (rows : list row) : option (row * list row) :=
  match rows with
  | [] => None
  | r :: rs => if Req_EM_T (fst r n) 0 then option_map (fun p => (fst p, r :: snd p)) (pivot n rs) else Some (r, rs)
  end.
Definition reduce (n : nat) (p r : row) : row := (fun j => fst r j - fst r n / fst p n * fst p j, snd r - fst r n / fst p n * snd p).
Fixpoint eliminate (n : nat) (rows : list row) : option (nat -> R) :=
  match n with
  | O => if forallb (fun r => if Req_EM_T (snd r) 0 then true else false) rows then Some (fun _ => 0) else None
  | S m => match pivot m rows with
           | None => None
           | Some (p, rs) => option_map (fun x j => if Nat.eqb j m then (snd p - rsum m (fun j => fst p j * x j)) / fst p m else x j) (eliminate m (map (reduce m p) rs))
           end
  end.
Definition gauss (n : nat) (A : nat -> nat -> R) (b : list R) : outcome (list R) :=
  match eliminate n (map (fun i => (A i, nth i b 0)) (seq 0 n)) with Some x => Ok (map x (seq 0 n)) | None => Throw end.

Lemma pivot_some n rows : forall p rs, pivot n rows = Some (p, rs) -> fst p n <> 0 /\ (forall r, In r rows <-> r = p \/ In r rs) /\ length rows = S (length rs).
Proof.
  induction rows as [|r rows IH]; intros p rs H; [discriminate|]. cbn [pivot] in H. destruct (Req_EM_T (fst r n) 0) as [Z|Z].
  - destruct (pivot n rows) as [(p', rs')|] eqn:E; [|discriminate]. cbn in H. injection H as <- <-. destruct (IH p' rs' eq_refl) as (H1 & H2 & H3).
    split; [exact H1|]. split; [|cbn [length]; rewrite H3; reflexivity]. intros q. cbn [In]. rewrite H2. intuition.
  - injection H as <- <-. split; [exact Z|]. split; [|reflexivity]. intros q. cbn [In]. intuition.
Qed.
Lemma pivot_none n rows : pivot n rows = None -> forall r, In r rows -> fst r n = 0.
Proof.
  induction rows as [|r rows IH]; intros H q Hq; [destruct Hq|]. cbn [pivot] in H. destruct (Req_EM_T (fst r n) 0) as [Z|Z]; [|discriminate].
  destruct (pivot n rows) eqn:E; [discriminate|]. destruct Hq as [<-|Hq]; [exact Z|exact (IH eq_refl q Hq)].
Qed.
Lemma reduce_solves m p r x : fst p m <> 0 -> solves (S m) x p -> (solves m x (reduce m p r) <-> solves (S m) x r).
Proof.
  intros Hp Sp. unfold solves, reduce in *. cbn [fst snd rsum] in *.
  rewrite (rsum_ext m (fun j => (fst r j - fst r m / fst p m * fst p j) * x j) (fun j => fst r j * x j - fst r m / fst p m * (fst p j * x j))) by (intros; ring).
  rewrite rsum_minus, rsum_scal. set (a := rsum m (fun j => fst r j * x j)). set (b := rsum m (fun j => fst p j * x j)) in *.
  assert (Eq : fst r m / fst p m * (fst p m * x m) = fst r m * x m) by (field; exact Hp).
  assert (Eq2 : fst r m / fst p m * snd p = fst r m / fst p m * b + fst r m * x m) by (rewrite <- Sp, <- Eq; ring).
  rewrite Eq2. split; intros; lra.
Qed.
Lemma eliminate_correct n : forall rows x, eliminate n rows = Some x -> forall r, In r rows -> solves n x r.
Proof.
  induction n as [|m IH]; intros rows x H r Hr; cbn [eliminate] in H.
  - match type of H with (if ?b then _ else _) = _ => destruct b eqn:F; [|discriminate] end. pose proof (proj1 (forallb_forall _ _) F r Hr) as Q. cbv beta in Q. unfold solves. cbn [rsum]. destruct (Req_EM_T (snd r) 0) as [Z|]; [symmetry; exact Z|discriminate Q].
  - destruct (pivot m rows) as [(p, rs)|] eqn:E; [|discriminate]. destruct (pivot_some m rows p rs E) as (Hp & Hin & _).
    destruct (eliminate m (map (reduce m p) rs)) as [y|] eqn:Ey; [|discriminate]. cbn [option_map] in H. injection H as <-.
    set (x := fun j => if Nat.eqb j m then (snd p - rsum m (fun j => fst p j * y j)) / fst p m else y j).
    assert (Xy : forall a : nat -> R, rsum m (fun j => a j * x j) = rsum m (fun j => a j * y j)).
    { intros a. apply rsum_ext. intros j Hj. unfold x. destruct (Nat.eqb_spec j m); [lia|reflexivity]. }
    assert (Sp : solves (S m) x p).
    { unfold solves. cbn [rsum]. rewrite Xy. unfold x. rewrite Nat.eqb_refl. field. exact Hp. }
    apply Hin in Hr. destruct Hr as [->|Hr]; [exact Sp|]. apply (reduce_solves m p r x Hp Sp). unfold solves. rewrite Xy. apply (IH _ y Ey). apply in_map. exact Hr.
Qed.
Lemma eliminate_complete n : forall rows, length rows = n -> (forall x, (forall r, In r rows -> rsum n (fun j => fst r j * x j) = 0) -> forall j, (j < n)%nat -> x j = 0) ->
  exists x, eliminate n rows = Some x.
Proof.
  induction n as [|m IH]; intros rows L H; cbn [eliminate].
  - destruct rows; [|discriminate]. cbn. eauto.
  - destruct (pivot m rows) as [(p, rs)|] eqn:E.
    + destruct (pivot_some m rows p rs E) as (Hp & Hin & Ln). destruct (IH (map (reduce m p) rs)) as (x & Ex).
      * rewrite map_length. apply eq_add_S. exact (eq_trans (eq_sym Ln) L).
      * intros x Hx j Hj.
        set (y := fun j => if Nat.eqb j m then (0 - rsum m (fun j => fst p j * x j)) / fst p m else x j).
        assert (Xy : forall a : nat -> R, rsum m (fun j => a j * y j) = rsum m (fun j => a j * x j)).
        { intros a. apply rsum_ext. intros k Hk. unfold y. destruct (Nat.eqb_spec k m); [lia|reflexivity]. }
        assert (Sp : solves (S m) y (fst p, 0)). { unfold solves. cbn [rsum fst snd]. rewrite Xy. unfold y. rewrite Nat.eqb_refl. field. exact Hp. }
        assert (Y : y j = 0).
        { apply H; [|lia]. intros r Hr. apply Hin in Hr. destruct Hr as [->|Hr]; [exact Sp|].
          apply (reduce_solves m (fst p, 0) (fst r, 0) y Hp Sp). unfold solves, reduce. cbn [fst snd]. rewrite Xy, Rmult_0_r, Rminus_0_r.
          pose proof (Hx (reduce m p r) (in_map _ _ _ Hr)) as Q. cbn [reduce fst] in Q. exact Q. }
        unfold y in Y. destruct (Nat.eqb_spec j m); [lia|exact Y].
      * rewrite Ex. cbn. eauto.
    + exfalso. pose proof (H (fun j => if Nat.eqb j m then 1 else 0)) as Q. assert (Z : (if Nat.eqb m m then 1 else 0) = 0).
      * apply Q; [|lia]. intros r Hr. apply rsum_zero. intros j Hj. destruct (Nat.eqb_spec j m) as [->|]; [rewrite (pivot_none m rows E r Hr); ring|ring].
      * rewrite Nat.eqb_refl in Z. lra.
Qed.
Lemma gauss_solver : solver_correct gauss /\ solver_complete gauss.
Proof.
  split.
  - intros n A b x H. unfold gauss in H. destruct (eliminate n (map (fun i => (A i, nth i b 0)) (seq 0 n))) as [y|] eqn:E; [|discriminate]. injection H as <-.
    split; [rewrite map_length, seq_length; reflexivity|]. intros i Hi.
    pose proof (eliminate_correct n _ y E (A i, nth i b 0) ltac:(apply in_map_iff; exists i; split; [reflexivity|apply in_seq; lia])) as S. unfold solves in S. cbn [fst snd] in S.
    rewrite <- S. apply rsum_ext. intros j Hj. rewrite nth_map_seq by exact Hj. reflexivity.
  - intros n A b L H. unfold gauss. destruct (eliminate_complete n (map (fun i => (A i, nth i b 0)) (seq 0 n))) as (x & E).
    + rewrite map_length, seq_length. reflexivity.
    + intros x Hx j Hj. apply H; [|exact Hj]. intros i Hi. apply (Hx (A i, nth i b 0)). apply in_map_iff. exists i. split; [reflexivity|apply in_seq; lia].
    + rewrite E. eauto.
Qed.

(** ** The square of two triangles of PropBody: node 0 fixed, the vertical displacement of node 1 is minus half the horizontal one of node 3 *)
Definition sq_ops : list cons_op :=
  [AddOne 7 (mkEq (0, 0)%Z [] (fun _ => 0)); AddMany 7 [mkEq (0, 1)%Z [] (fun _ => 0); mkEq (1, 1)%Z [mkTerm (3, 0)%Z (1/2)] (fun _ => 0)]].
Definition sq_equations : list equation := [mkEq (0, 0)%Z [] (fun _ => 0); mkEq (0, 1)%Z [] (fun _ => 0); mkEq (1, 1)%Z [mkTerm (3, 0)%Z (1/2)] (fun _ => 0)].
Lemma sq_run : equations (cons_run cons_empty sq_ops) 7 = sq_equations.
Proof. reflexivity. Qed.
Lemma sq_supported : supported 2 (cons_run cons_empty sq_ops) 7 [0; 1; 2; 3]%Z sq_place.
Proof.
  intros A b SA F. unfold fulfils in F. rewrite sq_run in F.
  pose proof (F _ (or_introl eq_refl)) as F1. pose proof (F _ (or_intror (or_introl eq_refl))) as F2. pose proof (F _ (or_intror (or_intror (or_introl eq_refl)))) as F3. clear F.
  assert (S0 := SA 0%nat 0%nat ltac:(lia) ltac:(lia)). assert (S1 := SA 1%nat 1%nat ltac:(lia) ltac:(lia)). assert (S2 := SA 1%nat 0%nat ltac:(lia) ltac:(lia)).
  cbv beta zeta in F1, F2, F3. cbn [edep eind fst snd fold_right coef tkey] in F1, F2, F3.
  change (Z.to_nat 0) with 0%nat in *. change (Z.to_nat 1) with 1%nat in *. unfold affine_at in *. cbn [rsum] in *. unfold sq_place in F1, F2, F3. cbn [nth] in F1, F2, F3.
  assert (A00 : A 0%nat 0%nat = 0) by lra. assert (A11 : A 1%nat 1%nat = 0) by lra. assert (B0 : b 0%nat = 0) by lra. assert (B1 : b 1%nat = 0) by lra.
  assert (A01 : A 0%nat 1%nat = 0) by lra.
  intros a i Ha Hi. destruct i as [|[|i]]; [| |lia]; rewrite ?S2, ?A00, ?A11, ?B0, ?B1, ?A01; ring.
Qed.
Lemma sq_one_piece : one_piece 2 sq_cells.
Proof.
  assert (S : forall c c', In c sq_cells -> In c' sq_cells -> c <> c' -> common_side 2 c c').
  { intros c c' Hc Hc' Ne. exists [1; 2]%Z. split; [constructor; [intros [H|[]]; discriminate|constructor; [intros []|constructor]]|]. split; [reflexivity|].
    cbn in Hc, Hc'. intros a Ha. cbn in Ha. destruct Hc as [<-|[<-|[]]]; destruct Hc' as [<-|[<-|[]]]; try congruence; cbn; intuition. }
  intros c c' Hc Hc'. assert (D : c = c' \/ c <> c').
  { cbn in Hc, Hc'. destruct Hc as [<-|[<-|[]]]; destruct Hc' as [<-|[<-|[]]]; (left; reflexivity) || (right; intros H; apply (f_equal bc_id) in H; discriminate). }
  destruct D as [<-|Ne]; [apply path_here; exact Hc|]. apply (path_step 2 sq_cells c c c'); [apply path_here; exact Hc|exact Hc'|]. apply S; assumption.
Qed.
Lemma sq_elastic c : In c sq_cells -> elastic_cell 2 [0; 1; 2; 3]%Z sq_place sq_place c /\ nodes_fit c = true.
Proof.
  intros Hc. split; [|cbn in Hc; destruct Hc as [<-|[<-|[]]]; reflexivity]. split; [|split; [|split; [|split; [|split]]]].
  - cbn in Hc. destruct Hc as [<-|[<-|[]]]; (repeat split; left; cbn; tauto).
  - cbn in Hc. destruct Hc as [<-|[<-|[]]]; intros a Ha; cbn in *; intuition.
  - cbn in Hc. destruct Hc as [<-|[<-|[]]]; split; [reflexivity|intros; reflexivity|reflexivity|intros; reflexivity].
  - cbn in Hc. destruct Hc as [<-|[<-|[]]]; (split; [|cbn; tauto]); repeat constructor; cbn; intuition; discriminate.
  - cbn in Hc. destruct Hc as [<-|[<-|[]]]; cbn; lia.
  - intros q Hq. pose proof (sq_det c q Hc). cbn in Hc. destruct Hc as [<-|[<-|[]]]; cbn [bc_ipWeight sq_cell]; lra.
Qed.
(** all hypotheses of [C106_supported_body] hold for the square under any loads *)
Example C106_square : forall p, length p = 8%nat -> exists g h' mcs K u,
  mData g = [0; 1; 2; 3]%Z /\ build_numbering sq_nodes g 7 (cons_run cons_empty sq_ops) = Ok (h', 5%Z, 3%Z) /\
  local_matrices 2 7 h' (cell_Stiffness 2 sq_place sq_value (fun _ s => Ok (le_Tangent (le_make 2 30000 (1/5) PLANE_STRESS) s))) sq_cells = Ok mcs /\
  build_matrix (mkInfo [(7, 5)] [(7, 3)])%Z 3 mcs [7%Z] (Ok K) /\
  solve gauss h' (cons_run cons_empty sq_ops) K [(7%Z, p)] [7%Z] = Ok u /\ fulfils (cons_run cons_empty sq_ops) 7 (at_node h' 7 u) /\
  stiffness_force 2 (mData g) (at_nodes h' 7 K) (at_node h' 7 u) 3 1 = at_node h' 7 [(7%Z, p)] 3 1.
Proof.
  intros p Lp. destruct (group_history [0; 1; 2; 3]%Z) as (g & Hg & Hok & _). vm_compute in Hg. injection Hg as <-.
  match type of Hok with group_ok ?x => set (g := x) in * end.
  assert (Sz : forall a, In a (mData g) -> length (sq_nodes a) = 2%nat) by (intros; reflexivity).
  assert (NB : exists h', build_numbering sq_nodes g 7 (cons_run cons_empty sq_ops) = Ok (h', 5%Z, 3%Z)).
  { eexists. unfold build_numbering, build_call. cbv - [Rdiv IZR Rinv Rmult R1 Rplus]. reflexivity. }
  destruct NB as (h' & NB).
  destruct (C106_assembles 2 7 sq_nodes g _ h' 5 3 sq_place sq_place sq_value 30000 (1/5) PLANE_STRESS sq_cells 3 Hok Sz NB sq_elastic ltac:(lra) ltac:(lra) ltac:(lia)) as (mcs & K & Em & B).
  destruct (C106_supported_body gauss (proj1 gauss_solver) (proj2 gauss_solver) 2 7 sq_nodes g sq_ops h' 5 3 sq_place sq_place sq_value 30000 (1/5) PLANE_STRESS sq_cells mcs 3 (Ok K) p Hok Sz NB)
    as (K' & u & EK & Eu & Fu & _ & Fr & _).
  - intros o e Ho He. cbn in Ho. destruct Ho as [<-|[<-|[]]]; cbn in He; [destruct He as [<-|[]]|destruct He as [<-|[<-|[]]]]; cbn; intuition; discriminate.
  - rewrite sq_run. intros e tm He Ht. cbn in He. destruct He as [<-|[<-|[<-|[]]]]; cbn in Ht; try contradiction. destruct Ht as [<-|[]]. right. cbn [coef].
    rewrite Rabs_right by lra. assert (2 < 10 ^ 18) by (cbn [pow]; lra). replace (1 / 2) with (/ 2) by lra. apply Rinv_lt_contravar; [|lra]. apply Rmult_lt_0_compat; lra.
  - rewrite sq_run. intros e k He Hk. cbn in He. destruct He as [<-|[<-|[<-|[]]]]; cbn in Hk; intuition; subst k; cbn; lia.
  - exact (fun c Hc => proj1 (sq_elastic c Hc)).
  - exact sq_one_piece.
  - discriminate.
  - intros a Ha. change (In a [0; 1; 2; 3]%Z) in Ha. cbn in Ha. unfold node_of_cells.
    destruct Ha as [<-|[<-|[<-|[<-|[]]]]]; [exists (sq_cell 0 [0; 1; 2]%Z)|exists (sq_cell 0 [0; 1; 2]%Z)|exists (sq_cell 0 [0; 1; 2]%Z)|exists (sq_cell 1 [1; 3; 2]%Z)]; cbn; intuition.
  - lra.
  - lra.
  - exact sq_supported.
  - exact Em.
  - lia.
  - exact B.
  - exact Lp.
  - assert (K' = K) by congruence. subst K'. exists g, h', mcs, K, u. split; [reflexivity|]. split; [exact NB|]. split; [exact Em|]. split; [exact B|]. split; [exact Eu|]. split; [exact Fu|].
    apply Fr; [cbn; intuition|lia|]. rewrite sq_run. intros e He Hin. cbn in He. destruct He as [<-|[<-|[<-|[]]]]; cbn in Hin; intuition; discriminate.
Qed.
(** with node 0 alone the square can turn: no definite system *)
Example C106_loose : ~ supported 2 (cons_run cons_empty [AddMany 7 [mkEq (0, 0)%Z [] (fun _ => 0); mkEq (0, 1)%Z [] (fun _ => 0)]]) 7 [0; 1; 2; 3]%Z sq_place.
Proof.
  intros S. set (A := fun i j : nat => match i, j with 0%nat, 1%nat => -1 | 1%nat, 0%nat => 1 | _, _ => 0 end).
  assert (Z : affine_at 2 A (fun _ => 0) sq_place 1 1 = 0).
  { apply S; [| |cbn; intuition|lia].
    - intros i j Hi Hj. destruct i as [|[|i]]; [| |lia]; (destruct j as [|[|j]]; [| |lia]); unfold A; lra.
    - intros e He. change (In e [mkEq (0, 0)%Z [] (fun _ => 0); mkEq (0, 1)%Z [] (fun _ => 0)]) in He.
      cbn in He. destruct He as [<-|[<-|[]]]; cbn [edep eind fold_right fst snd]; unfold affine_at, sq_place; [change (Z.to_nat 0) with 0%nat|change (Z.to_nat 1) with 1%nat]; cbn [rsum nth]; ring. }
  unfold affine_at, sq_place in Z. cbn [rsum nth] in Z. unfold A in Z. lra.
Qed.
