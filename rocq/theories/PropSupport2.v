(** * C106: superposition, reciprocity and compliance of supported elastic bodies *)
From Coq Require Import List Arith ZArith Bool Reals Lra Lia.
From Verif Require Import Outcome RSum Algebra GroupModel GroupProofs DofModel DofSpec ConstraintModel ConstraintSpec ConstraintProofs2 AssemblerModel AssemblerSpec CellModel CellSpec
  ElasticModel IntegrandModel InterpolationModel EquilibriumModel EquilibriumSpec BodyModel BodySpec BodyProofs SolveModel SolveSpec SolveProofs PropBody
  SupportSpec SupportProofs SupportProofs2 SupportProofs3 PropSupport.
Import ListNotations.
Local Open Scope R_scope.

Lemma over_nodes_lin l f g x y : over_nodes l (fun a => x * f a + y * g a) = x * over_nodes l f + y * over_nodes l g.
Proof. unfold over_nodes. induction l as [|a l IH]; cbn [map rlsum]; [ring|]. rewrite IH. ring. Qed.
Lemma over_nodes_ext l f g : (forall a, f a = g a) -> over_nodes l f = over_nodes l g.
Proof. intros H. unfold over_nodes. f_equal. apply map_ext. exact H. Qed.
Lemma rsum_lin n f g x y : rsum n (fun i => x * f i + y * g i) = x * rsum n f + y * rsum n g.
Proof. induction n as [|n IH]; cbn [rsum]; [ring|]. rewrite IH. ring. Qed.
Lemma work_lin d l F G w x y : total_work d l (fun a i => x * F a i + y * G a i) w = x * total_work d l F w + y * total_work d l G w.
Proof.
  unfold total_work. rewrite <- over_nodes_lin. apply over_nodes_ext. intros a. rewrite <- rsum_lin. apply rsum_ext. intros i _. ring.
Qed.
Lemma stiffness_lin d l K u v x y a i : stiffness_force d l K (fun b j => x * u b j + y * v b j) a i = x * stiffness_force d l K u a i + y * stiffness_force d l K v a i.
Proof.
  unfold stiffness_force. rewrite <- over_nodes_lin. apply over_nodes_ext. intros b. rewrite <- rsum_lin. apply rsum_ext. intros j _. ring.
Qed.
Lemma work_ext d l F G w : (forall a i, F a i = G a i) -> total_work d l F w = total_work d l G w.
Proof. intros H. unfold total_work. apply over_nodes_ext. intros a. apply rsum_ext. intros i _. rewrite H. reflexivity. Qed.
Lemma fulfils_lin c t u v x y : fulfils c t u -> fulfils c t v -> fulfils c t (fun a i => x * u a i + y * v a i).
Proof.
  intros Hu Hv e He. specialize (Hu e He). specialize (Hv e He). cbv zeta in *.
  assert (L : forall ts, fold_right (fun tm s => coef tm * (x * u (fst (tkey tm)) (Z.to_nat (snd (tkey tm))) + y * v (fst (tkey tm)) (Z.to_nat (snd (tkey tm)))) + s) 0 ts =
    x * fold_right (fun tm s => coef tm * u (fst (tkey tm)) (Z.to_nat (snd (tkey tm))) + s) 0 ts + y * fold_right (fun tm s => coef tm * v (fst (tkey tm)) (Z.to_nat (snd (tkey tm))) + s) 0 ts).
  { induction ts as [|tm ts IH]; cbn [fold_right]; [ring|]. rewrite IH. ring. }
  rewrite L. match goal with |- x * ?a + y * ?b + (x * ?f + y * ?g) = 0 => replace (x * a + y * b + (x * f + y * g)) with (x * (a + f) + y * (b + g)) by ring end. rewrite Hu, Hv. ring.
Qed.

(** Two load cases p, q of one supported elastic body, with the displacements u, v that Solve finds for them:
    - superposition: for the loads x p + y q Solve finds the displacements x u + y v at every node;
    - reciprocity (Betti): p does the same work on v as q on u;
    - compliance: the work of p on u is not negative, and zero only if no node moves *)
Theorem C106_load_cases : forall linsolve, solver_correct linsolve -> solver_complete linsolve ->
  forall d t h g ops h' numInd numDep coordinate place value E nu ps cells mcs threads r p q x y s,
  let c := cons_run cons_empty ops in let l := mData g in
  group_ok g -> (forall a, In a l -> length (h a) = d) -> build_numbering h g t c = Ok (h', numInd, numDep) ->
  no_self_reference ops -> (forall e tm, In e (equations c t) -> In tm (eind e) -> coef tm = 0 \/ / 10 ^ 18 < Rabs (coef tm)) ->
  (forall e k, In e (equations c t) -> In k (edep e :: ind_keys e) -> (0 <= snd k < Z.of_nat d)%Z) ->
  (forall c, In c cells -> elastic_cell d l coordinate place c) -> one_piece d cells -> cells <> [] -> (forall a, In a l -> node_of_cells cells a) ->
  0 < E -> -1 < nu < 1/2 -> supported d c t l place ->
  local_matrices d t h' (cell_Stiffness d coordinate value (fun _ s => Ok (le_Tangent (le_make d E nu ps) s))) cells = Ok mcs -> (0 < threads)%nat ->
  build_matrix (mkInfo [(t, numInd)] [(t, numDep)]) threads mcs [t] r ->
  length p = Z.to_nat (numInd + numDep) -> length q = Z.to_nat (numInd + numDep) -> length s = Z.to_nat (numInd + numDep) ->
  (forall i, nth i s 0 = x * nth i p 0 + y * nth i q 0) ->
  exists K u v z, r = Ok K /\ solve linsolve h' c K [(t, p)] [t] = Ok u /\ solve linsolve h' c K [(t, q)] [t] = Ok v /\ solve linsolve h' c K [(t, s)] [t] = Ok z /\
    (forall a i, In a l -> (i < d)%nat -> at_node h' t z a i = x * at_node h' t u a i + y * at_node h' t v a i) /\
    total_work d l (at_node h' t [(t, p)]) (at_node h' t v) = total_work d l (at_node h' t [(t, q)]) (at_node h' t u) /\
    0 <= total_work d l (at_node h' t [(t, p)]) (at_node h' t u) /\
    (total_work d l (at_node h' t [(t, p)]) (at_node h' t u) = 0 -> forall a i, In a l -> (i < d)%nat -> at_node h' t u a i = 0).
Proof.
  intros linsolve Hls Hcp d t h g ops h' numInd numDep coordinate place value E nu ps cells mcs threads r p q x y s c l Og Sz Nb Ns Cf Mt Hc One Ne Cov HE Hnu Sup Em Ht B Lp Lq Ls Es. subst l.
  destruct (body_energy d t h g c h' numInd numDep coordinate place value E nu ps cells mcs threads r Og Sz Nb Hc One Ne HE Hnu Em Ht B) as (K & Er & _ & Sym & En).
  pose proof (C106_supported_body linsolve Hls Hcp d t h g ops h' numInd numDep coordinate place value E nu ps cells mcs threads r) as T. cbv zeta in T.
  destruct (T p Og Sz Nb Ns Cf Mt Hc One Ne Cov HE Hnu Sup Em Ht B Lp) as (K1 & u & E1 & Su & Fu & Wu & _ & _ & Mu).
  destruct (T q Og Sz Nb Ns Cf Mt Hc One Ne Cov HE Hnu Sup Em Ht B Lq) as (K2 & v & E2 & Sv & Fv & Wv & _).
  destruct (T s Og Sz Nb Ns Cf Mt Hc One Ne Cov HE Hnu Sup Em Ht B Ls) as (K3 & z & E3 & Sz' & Fz & Wz & _ & Uz & _). clear T.
  assert (K1 = K) by congruence. assert (K2 = K) by congruence. assert (K3 = K) by congruence. subst K1 K2 K3.
  exists K, u, v, z. split; [exact Er|]. split; [exact Su|]. split; [exact Sv|]. split; [exact Sz'|]. split; [|split; [|split]].
  - intros a i Ha Hi. symmetry. apply (Uz (fun a i => x * at_node h' t u a i + y * at_node h' t v a i)); [apply fulfils_lin; assumption| |exact Ha|exact Hi].
    intros w Fw. rewrite (work_ext d (mData g) _ _ w (fun a i => stiffness_lin d (mData g) (at_nodes h' t K) (at_node h' t u) (at_node h' t v) x y a i)), work_lin, (Wu w Fw), (Wv w Fw), <- work_lin.
    apply work_ext. intros b j. unfold at_node. destruct (dof_number h' (b, Z.of_nat j)) as [n| |]; try ring. unfold val. cbn [mfind]. unfold lt_dof. rewrite Z.ltb_irrefl. symmetry. apply Es.
  - etransitivity; [symmetry; exact (Wu _ Fv)|]. etransitivity; [apply Sym|exact (Wv _ Fu)].
  - eapply Rle_trans; [exact (proj1 (En (at_node h' t u)))|right; exact (Wu _ Fu)].
  - intros Z0 a i Ha Hi. destruct (Mu (fun _ _ => 0)) as (_ & M).
    + intros e He. cbv zeta. clear. induction (eind e) as [|tm ts IH]; cbn [fold_right]; lra.
    + symmetry. apply M; [|exact Ha|exact Hi]. unfold potential. pose proof (eq_trans (Wu _ Fu) Z0) as Z1.
      assert (Zw : forall F, total_work d (mData g) F (fun _ _ => 0) = 0).
      { intros F. unfold total_work, over_nodes. clear. induction (mData g) as [|b m IH]; [reflexivity|]. cbn [map rlsum]. rewrite IH, rsum_zero; [ring|]. intros; ring. }
      rewrite !Zw. pose proof Z0 as Z2. etransitivity; [|symmetry; exact (f_equal2 (fun a b => a / 2 - b) Z1 Z2)]. lra.
Qed.
Print Assumptions C106_load_cases.

(** the square of C106_square with a force on node 3 and, as second case, one on node 1 *)
Example C106_load_cases_square : exists g h' K u v z,
  mData g = [0; 1; 2; 3]%Z /\ build_numbering sq_nodes g 7 (cons_run cons_empty sq_ops) = Ok (h', 5%Z, 3%Z) /\
  let p := [1; 0; 0; 0; 0; 0; 0; 0] in let q := [0; 0; 3; 0; 0; 0; 0; 0] in
  solve gauss h' (cons_run cons_empty sq_ops) K [(7%Z, p)] [7%Z] = Ok u /\ solve gauss h' (cons_run cons_empty sq_ops) K [(7%Z, q)] [7%Z] = Ok v /\
  solve gauss h' (cons_run cons_empty sq_ops) K [(7%Z, [2; 0; 3; 0; 0; 0; 0; 0])] [7%Z] = Ok z /\
  at_node h' 7 z 3 1 = 2 * at_node h' 7 u 3 1 + 1 * at_node h' 7 v 3 1 /\
  total_work 2 (mData g) (at_node h' 7 [(7%Z, p)]) (at_node h' 7 v) = total_work 2 (mData g) (at_node h' 7 [(7%Z, q)]) (at_node h' 7 u).
Proof.
  destruct (group_history [0; 1; 2; 3]%Z) as (g & Hg & Hok & _). vm_compute in Hg. injection Hg as <-.
  match type of Hok with group_ok ?x => set (g := x) in * end.
  assert (Sz : forall a, In a (mData g) -> length (sq_nodes a) = 2%nat) by (intros; reflexivity).
  assert (NB : exists h', build_numbering sq_nodes g 7 (cons_run cons_empty sq_ops) = Ok (h', 5%Z, 3%Z)).
  { eexists. unfold build_numbering, build_call. cbv - [Rdiv IZR Rinv Rmult R1 Rplus]. reflexivity. }
  destruct NB as (h' & NB).
  destruct (C106_assembles 2 7 sq_nodes g _ h' 5 3 sq_place sq_place sq_value 30000 (1/5) PLANE_STRESS sq_cells 3 Hok Sz NB sq_elastic ltac:(lra) ltac:(lra) ltac:(lia)) as (mcs & K & Em & B).
  destruct (C106_load_cases gauss (proj1 gauss_solver) (proj2 gauss_solver) 2 7 sq_nodes g sq_ops h' 5 3 sq_place sq_place sq_value 30000 (1/5) PLANE_STRESS sq_cells mcs 3 (Ok K)
    [1; 0; 0; 0; 0; 0; 0; 0] [0; 0; 3; 0; 0; 0; 0; 0] 2 1 [2; 0; 3; 0; 0; 0; 0; 0] Hok Sz NB) as (K' & u & v & z & _ & Eu & Ev & Ez & Sp & Be & _).
  - intros o e Ho He. cbn in Ho. destruct Ho as [<-|[<-|[]]]; cbn in He; [destruct He as [<-|[]]|destruct He as [<-|[<-|[]]]]; cbn; intuition; discriminate.
  - rewrite sq_run. intros e tm He Ht. cbn in He. destruct He as [<-|[<-|[<-|[]]]]; cbn in Ht; try contradiction. destruct Ht as [<-|[]]. right. cbn [coef].
    rewrite Rabs_right by lra. assert (2 < 10 ^ 18) by (cbn [pow]; lra). replace (1 / 2) with (/ 2) by lra. apply Rinv_lt_contravar; [|lra]. apply Rmult_lt_0_compat; lra.
  - rewrite sq_run. intros e k He Hk. cbn in He. destruct He as [<-|[<-|[<-|[]]]]; cbn in Hk; intuition; subst k; cbn; lia.
  - exact (fun c Hc => proj1 (sq_elastic c Hc)).
  - exact sq_one_piece.
  - discriminate.
  - intros a Ha. change (In a [0; 1; 2; 3]%Z) in Ha. cbn in Ha. unfold node_of_cells.
    destruct Ha as [<-|[<-|[<-|[<-|[]]]]]; [exists (sq_cell 0 [0; 1; 2]%Z)|exists (sq_cell 0 [0; 1; 2]%Z)|exists (sq_cell 0 [0; 1; 2]%Z)|exists (sq_cell 1 [1; 3; 2]%Z)]; cbn; intuition.
  - lra.
  - lra.
  - exact sq_supported.
  - exact Em.
  - lia.
  - exact B.
  - reflexivity.
  - reflexivity.
  - reflexivity.
  - intros i. do 9 (destruct i as [|i]; [cbn [nth]; ring|]). cbn [nth]. destruct i; ring.
  - exists g, h', K', u, v, z. split; [reflexivity|]. split; [exact NB|]. cbv zeta. split; [exact Eu|]. split; [exact Ev|]. split; [exact Ez|]. split; [|exact Be].
    apply Sp; [cbn; auto|lia].
Qed.
