(** * Proofs for C105: sums over the nodes of an assembled system *)
From Coq Require Import List Arith ZArith Bool Reals Lra Lia.
From Verif Require Import Outcome RSum Algebra GroupModel GroupProofs DofModel DofSpec ConstraintModel ConstraintSpec ConstraintProofs AssemblerModel AssemblerSpec
  CellModel CellSpec CellProofs ElasticModel IntegrandModel InterpolationModel EquilibriumModel EquilibriumSpec EquilibriumProofs EquilibriumProofs2
  PropAssembler PropConstraints BodyModel BodySpec.
Import ListNotations.
Local Open Scope R_scope.

(** ** Lists and sums *)
Lemma all_of_ok {A} (l : list (outcome A)) r : all_of l = Ok r -> l = map Ok r.
Proof.
  revert r. induction l as [|o l IH]; intros r; cbn [all_of].
  - injection 1 as <-. reflexivity.
  - destruct o as [a| |]; cbn [obind]; try discriminate. destruct (all_of l) as [r'| |]; cbn; try discriminate.
    injection 1 as <-. cbn. f_equal. apply IH. reflexivity.
Qed.
Lemma all_of_map_ok {A B} (f : A -> outcome B) l r : all_of (map f l) = Ok r -> Forall2 (fun a b => f a = Ok b) l r.
Proof.
  intros H. apply all_of_ok in H. revert r H. induction l as [|a l IH]; intros [|b r] H; try discriminate; constructor.
  - cbn in H. injection H. auto.
  - apply IH. cbn in H. injection H. auto.
Qed.
Lemma sum_over_R {A} (l : list A) (f : A -> R) : @sum_over R_cring A l f = rlsum (map f l).
Proof. induction l as [|a l IH]; [reflexivity|]. cbn [map rlsum]. rewrite <- IH. reflexivity. Qed.
Lemma sum_n_R n (f : nat -> R) : @sum_n R_cring n f = rsum n f.
Proof. unfold sum_n. rewrite sum_over_R. apply rlsum_map_seq. Qed.
Lemma rlsum_ext {A} (l : list A) f g : (forall a, In a l -> f a = g a) -> rlsum (map f l) = rlsum (map g l).
Proof. intros H. f_equal. apply map_ext_in. exact H. Qed.
Lemma rlsum_scal_r {A} (l : list A) f c : rlsum (map (fun a => f a * c) l) = rlsum (map f l) * c.
Proof. induction l as [|a l IH]; cbn [map rlsum]; [ring|]. rewrite IH. ring. Qed.
Lemma rlsum_plus {A} (l : list A) f g : rlsum (map (fun a => f a + g a) l) = rlsum (map f l) + rlsum (map g l).
Proof. induction l as [|a l IH]; cbn [map rlsum]; [ring|]. rewrite IH. ring. Qed.
Lemma rlsum_zero {A} (l : list A) f : (forall a, In a l -> f a = 0) -> rlsum (map f l) = 0.
Proof. induction l as [|a l IH]; intros H; cbn [map rlsum]; [ring|]. rewrite (H a), IH; [ring|intros; apply H; right; assumption|left; reflexivity]. Qed.
Lemma rsum_rlsum_swap {A} n (l : list A) (f : nat -> A -> R) :
  rsum n (fun i => rlsum (map (f i) l)) = rlsum (map (fun a => rsum n (fun i => f i a)) l).
Proof.
  induction l as [|a l IH]; cbn [map rlsum]; [apply rsum_0|]. rewrite rsum_plus, IH. reflexivity.
Qed.
Lemma rlsum_flat_map {A B} (g : A -> list B) (f : B -> R) l : rlsum (map f (flat_map g l)) = rlsum (map (fun a => rlsum (map f (g a))) l).
Proof. induction l as [|a l IH]; [reflexivity|]. cbn [flat_map map rlsum]. rewrite map_app, rlsum_app, IH. reflexivity. Qed.
Lemma rlsum_as_rsum {A} (l : list A) (f : A -> R) x0 : rlsum (map f l) = rsum (length l) (fun n => f (nth n l x0)).
Proof.
  induction l as [|a l IH]; [reflexivity|]. cbn [length map rlsum]. rewrite rsum_front, IH. reflexivity.
Qed.

(** ** Contributions of local vectors and matrices *)
Lemma pick n (z : Z) (x : R) (W : nat -> R) : (0 <= z < Z.of_nat n)%Z -> rsum n (fun i => (if Z.eqb z (Z.of_nat i) then x else 0) * W i) = x * W (Z.to_nat z).
Proof.
  intros H. rewrite (rsum_single n (Z.to_nat z)); [|lia|].
  - rewrite Z2Nat.id by lia. rewrite Z.eqb_refl. reflexivity.
  - intros i Hi Hn. destruct (Z.eqb_spec z (Z.of_nat i)); [subst z; rewrite Nat2Z.id in Hn; congruence|ring].
Qed.
Lemma contrib_sum N nums (x : list R) (W : nat -> R) : numbers_below nums N ->
  rsum N (fun n => @contrib R_cring nums x n * W n) = rsum (length nums) (fun m => nth m x 0 * W (Z.to_nat (nth m nums 0%Z))).
Proof.
  intros B. unfold contrib.
  rewrite (rsum_ext N _ (fun n => rsum (length nums) (fun i => (if Z.eqb (nth i nums 0%Z) (Z.of_nat n) then nth i x 0 else 0) * W n))).
  2:{ intros n Hn. rewrite sum_n_R, rsum_scal_r. reflexivity. }
  rewrite rsum_swap. apply rsum_ext. intros i Hi. apply pick. apply (proj1 (Forall_forall _ _) B). apply nth_In. exact Hi.
Qed.
Lemma contrib2_sum N numI numJ (m : dmat R_cring) (U W : nat -> R) : numbers_below numI N -> numbers_below numJ N ->
  rsum N (fun n => rsum N (fun n' => @contrib2 R_cring numI numJ m n n' * W n') * U n) =
  rsum (length numI) (fun p => rsum (length numJ) (fun q => dat m p q * W (Z.to_nat (nth q numJ 0%Z))) * U (Z.to_nat (nth p numI 0%Z))).
Proof.
  intros BI BJ.
  assert (row : forall n, rsum N (fun n' => @contrib2 R_cring numI numJ m n n' * W n') =
            rsum (length numI) (fun p => if Z.eqb (nth p numI 0%Z) (Z.of_nat n) then rsum (length numJ) (fun q => dat m p q * W (Z.to_nat (nth q numJ 0%Z))) else 0)).
  { intros n. unfold contrib2.
    rewrite (rsum_ext N _ (fun n' => rsum (length numI) (fun p => rsum (length numJ) (fun q =>
       (if andb (Z.eqb (nth p numI 0%Z) (Z.of_nat n)) (Z.eqb (nth q numJ 0%Z) (Z.of_nat n')) then dat m p q else 0) * W n')))).
    2:{ intros n' Hn'. rewrite sum_n_R, <- rsum_scal_r. apply rsum_ext. intros p Hp. rewrite sum_n_R, <- rsum_scal_r. reflexivity. }
    rewrite rsum_swap. apply rsum_ext. intros p Hp. rewrite rsum_swap. destruct (Z.eqb (nth p numI 0%Z) (Z.of_nat n)); cbn [andb].
    - apply rsum_ext. intros q Hq. apply pick. apply (proj1 (Forall_forall _ _) BJ). apply nth_In. exact Hq.
    - apply rsum_zero. intros q Hq. apply rsum_zero. intros; ring. }
  rewrite (rsum_ext N _ (fun n => rsum (length numI) (fun p => (if Z.eqb (nth p numI 0%Z) (Z.of_nat n) then
       rsum (length numJ) (fun q => dat m p q * W (Z.to_nat (nth q numJ 0%Z))) else 0) * U n))).
  2:{ intros n Hn. rewrite row, rsum_scal_r. reflexivity. }
  rewrite rsum_swap. apply rsum_ext. intros p Hp. apply pick. apply (proj1 (Forall_forall _ _) BI). apply nth_In. exact Hp.
Qed.

(** ** The numbering of a group of nodes *)
Definition cell_keys (d : nat) (l : list Z) : list dofkey := @flat_map Z dofkey (fun a => @map nat dofkey (fun i => (a, Z.of_nat i)) (seq 0 d)) l.
Lemma cell_keys_length d l : length (cell_keys d l) = (length l * d)%nat.
Proof. unfold cell_keys. induction l as [|a l IH]; [reflexivity|]. cbn [flat_map length]. rewrite app_length, map_length, seq_length, IH. cbn. lia. Qed.
Lemma cell_keys_nth d l k i dft : (k < length l)%nat -> (i < d)%nat -> nth (k * d + i) (cell_keys d l) dft = (nth k l 0%Z, Z.of_nat i).
Proof.
  revert k. induction l as [|a l IH]; intros k Hk Hi; [cbn in Hk; lia|].
  change (cell_keys d (a :: l)) with (@map nat dofkey (fun i => (a, Z.of_nat i)) (seq 0 d) ++ cell_keys d l).
  destruct k as [|k].
  - rewrite app_nth1 by (rewrite map_length, seq_length; lia). cbn [Nat.mul Nat.add nth].
    rewrite (nth_indep _ dft (a, Z.of_nat 0)) by (rewrite map_length, seq_length; lia).
    rewrite (@map_nth nat dofkey (fun i => (a, Z.of_nat i)) (seq 0 d) 0%nat i). rewrite seq_nth by lia. reflexivity.
  - rewrite app_nth2 by (rewrite map_length, seq_length; lia). rewrite map_length, seq_length.
    replace (S k * d + i - d)%nat with (k * d + i)%nat by lia. cbn [nth]. apply IH; [cbn in Hk; lia|exact Hi].
Qed.
Lemma in_cell_keys d l a z : In (a, z) (cell_keys d l) <-> In a l /\ exists i, (i < d)%nat /\ z = Z.of_nat i.
Proof.
  unfold cell_keys. rewrite in_flat_map. split.
  - intros (x & Hx & H). apply in_map_iff in H. destruct H as (i & E & Hi). injection E as -> <-. apply in_seq in Hi. split; [exact Hx|exists i; split; [lia|reflexivity]].
  - intros (H & i & Hi & ->). exists a. split; [exact H|]. apply in_map_iff. exists i. split; [reflexivity|apply in_seq; lia].
Qed.

Section Numbered.
  Variables (d : nat) (t : Z) (h : nodes) (g : group) (c0 : constraints) (h' : nodes) (numInd numDep : Z).
  Hypotheses (Og : group_ok g) (Sz : forall a, In a (mData g) -> length (h a) = d)
    (Nb : build_numbering h g t c0 = Ok (h', numInd, numDep)).
  Let l := mData g.
  Let A := cell_keys d l.
  Let N := length A.
  Let k0 : dofkey := (0, 0)%Z.

  Lemma A_all : all_dofs (fun a => length (h a)) (mData g) = A.
  Proof.
    unfold all_dofs, A, cell_keys, l. clear - Sz. induction (mData g) as [|a m IH]; [reflexivity|]. cbn [flat_map].
    rewrite (Sz a) by (left; reflexivity). f_equal. apply IH. intros b Hb. apply Sz. right. exact Hb.
  Qed.
  Lemma numbered : (forall n, (n < N)%nat -> dof_number h' (nth n A k0) = Ok (Z.of_nat n)) /\ (numInd + numDep = Z.of_nat N)%Z.
  Proof.
    destruct (C10_numbering_is_bijection h g t c0 Og) as [(_ & E)|(_ & h2 & i2 & d2 & E & M & _ & S & _)]; rewrite E in Nb; [discriminate|].
    injection Nb as -> -> ->. rewrite A_all in M, S. split; [|exact S]. intros n Hn.
    assert (L : nth n (map (dof_number h') A) UB = nth n (map (fun i => Ok (Z.of_nat i)) (seq 0 N)) UB) by (f_equal; exact M).
    rewrite (nth_indep _ UB (dof_number h' k0)), map_nth in L by (rewrite map_length; exact Hn).
    rewrite L, (nth_indep _ UB (Ok (Z.of_nat 0))) by (rewrite map_length, seq_length; exact Hn).
    rewrite (map_nth (fun i => Ok (Z.of_nat i))). rewrite seq_nth by exact Hn. reflexivity.
  Qed.
  (** a number belongs to one key *)
  Lemma number_unique k z : In k A -> dof_number h' k = Ok z -> (0 <= z < Z.of_nat N)%Z /\ nth (Z.to_nat z) A k0 = k.
  Proof.
    intros Hk E. destruct (In_nth A k k0 Hk) as (n & Hn & <-). rewrite (proj1 numbered n Hn) in E. injection E as <-.
    rewrite Nat2Z.id. split; [fold N in Hn; lia|reflexivity].
  Qed.
  Lemma sizes : sizes_known (mkInfo [(t, numInd)] [(t, numDep)]) [t] (fun _ => N).
  Proof.
    intros d1 [<-|[]]. exists numInd, numDep. cbn [numIndependent numDependent mfind]. unfold lt_dof. rewrite Z.ltb_irrefl.
    pose proof (proj2 numbered). repeat split; try lia.
  Qed.

  Definition as_key (w : Z -> nat -> R) (k : dofkey) : R := w (fst k) (Z.to_nat (snd k)).

  Lemma over_keys (f : Z -> nat -> R) : over_nodes l (fun a => rsum d (f a)) = rsum N (fun n => as_key f (nth n A k0)).
  Proof.
    unfold N. rewrite <- (rlsum_as_rsum A (as_key f) k0). unfold A, cell_keys. rewrite rlsum_flat_map. unfold over_nodes. apply rlsum_ext.
    intros a _. rewrite map_map, <- rlsum_map_seq. apply rlsum_ext. intros i _. unfold as_key. cbn [fst snd]. rewrite Nat2Z.id. reflexivity.
  Qed.
  Lemma key_cases n : (n < N)%nat -> exists a i, nth n A k0 = (a, Z.of_nat i) /\ In a l /\ (i < d)%nat.
  Proof.
    intros Hn. pose proof (nth_In A k0 Hn) as H. destruct (nth n A k0) as (a, z). apply in_cell_keys in H. destruct H as (Ha & i & Hi & ->).
    exists a, i. repeat split; assumption.
  Qed.
  Lemma at_node_key F n : (n < N)%nat -> as_key (at_node h' t F) (nth n A k0) = val F t n.
  Proof.
    intros Hn. pose proof (proj1 numbered n Hn) as E. destruct (key_cases n Hn) as (a & i & K & _ & Hi). rewrite K in *.
    unfold as_key, at_node. cbn [fst snd]. rewrite Nat2Z.id, E, Nat2Z.id. reflexivity.
  Qed.
  Lemma work_keys F w : total_work d l (at_node h' t F) w = rsum N (fun n => val F t n * as_key w (nth n A k0)).
  Proof.
    unfold total_work. rewrite (over_keys (fun a i => at_node h' t F a i * w a i)). apply rsum_ext. intros n Hn.
    rewrite <- (at_node_key F n Hn). reflexivity.
  Qed.

  (** *** the numbers of a cell *)
  Lemma cell_numbers_facts c nums : cell_numbers d h' c = Ok nums -> nodes_of_mesh l c ->
    length nums = (length (bc_nodes c) * d)%nat /\ numbers_below nums N /\
    forall k i, (k < length (bc_nodes c))%nat -> (i < d)%nat -> forall w,
      as_key w (nth (Z.to_nat (nth (k * d + i) nums 0%Z)) A k0) = w (nth k (bc_nodes c) 0%Z) i.
  Proof.
    intros E M. unfold cell_numbers in E. apply all_of_ok in E.
    change (map (dof_number h') (cell_keys d (bc_nodes c)) = map Ok nums) in E.
    assert (L : length nums = (length (bc_nodes c) * d)%nat).
    { rewrite <- (cell_keys_length d (bc_nodes c)). apply (f_equal (@length _)) in E. rewrite !map_length in E. auto. }
    assert (P : forall m, (m < length nums)%nat -> dof_number h' (nth m (cell_keys d (bc_nodes c)) k0) = Ok (nth m nums 0%Z) /\ In (nth m (cell_keys d (bc_nodes c)) k0) A).
    { intros m Hm. split.
      - assert (Q : nth m (map (dof_number h') (cell_keys d (bc_nodes c))) UB = nth m (map Ok nums) UB) by (f_equal; exact E).
        rewrite (nth_indep _ UB (dof_number h' k0)), map_nth in Q by (rewrite map_length, cell_keys_length; lia).
        rewrite (nth_indep _ UB (Ok 0%Z)), map_nth in Q by (rewrite map_length; lia). exact Q.
      - pose proof (nth_In (cell_keys d (bc_nodes c)) k0 (n := m)) as I. rewrite cell_keys_length in I. specialize (I ltac:(lia)).
        destruct (nth m _ k0) as (a, z). apply in_cell_keys in I. apply in_cell_keys. destruct I as (Ha & Hz). split; [apply M; exact Ha|exact Hz]. }
    split; [exact L|]. split.
    - apply Forall_forall. intros z Hz. destruct (In_nth nums z 0%Z Hz) as (m & Hm & <-). destruct (P m Hm) as (P1 & P2). apply (number_unique _ _ P2 P1).
    - intros k i Hk Hi w. assert (Hm : (k * d + i < length nums)%nat) by (rewrite L; nia). destruct (P _ Hm) as (P1 & P2).
      rewrite (proj2 (number_unique _ _ P2 P1)), cell_keys_nth by assumption. unfold as_key. cbn [fst snd]. rewrite Nat2Z.id. reflexivity.
  Qed.

  (** *** vectors *)
  Lemma assembled_vector integral cells vcs threads r : (0 < threads)%nat -> (forall c, In c cells -> nodes_of_mesh l c) ->
    local_vectors d t h' integral cells = Ok vcs -> build_vector (mkInfo [(t, numInd)] [(t, numDep)]) threads vcs [t] r ->
    exists F fs, r = Ok F /\ Forall2 (fun c f => integral c = Ok f /\ length (bc_nodes c) = length (e_nodes (bc_element c))) cells fs /\
      size_of F t = Some N /\
      forall w, total_work d l (at_node h' t F) w =
        rlsum (map (fun cf => nodal_work d (length (e_nodes (bc_element (fst cf)))) (snd cf) (fun k => w (nth k (bc_nodes (fst cf)) 0%Z))) (combine cells fs)).
  Proof.
    intros Ht M E B. unfold local_vectors in E. apply all_of_map_ok in E.
    assert (Q : exists fs, Forall2 (fun c f => integral c = Ok f /\ length (bc_nodes c) = length (e_nodes (bc_element c))) cells fs /\
       Forall (vcell_fits [t] (fun _ => N)) vcs /\
       forall w, rlsum (map (fun v => rsum N (fun n => @vcell_contrib R_cring v t n * as_key w (nth n A k0))) vcs) =
         rlsum (map (fun cf => nodal_work d (length (e_nodes (bc_element (fst cf)))) (snd cf) (fun k => w (nth k (bc_nodes (fst cf)) 0%Z))) (combine cells fs))).
    { clear B r. revert M. induction E as [|c v cs vs Hcv Hr IH]; intros M.
      - exists []. split; [constructor|]. split; [constructor|]. reflexivity.
      - destruct IH as (fs & F1 & F2 & F3); [intros c' Hc'; apply M; right; exact Hc'|].
        unfold local_vector in Hcv. destruct (nodes_fit c) eqn:Fit; [|discriminate]. unfold nodes_fit in Fit. apply andb_prop in Fit. destruct Fit as (_ & Fit). apply Nat.eqb_eq in Fit.
        destruct (integral c) as [f| |] eqn:Ef; try discriminate. cbn [obind] in Hcv.
        destruct (cell_numbers d h' c) as [nums| |] eqn:En; try discriminate. cbn [omap obind] in Hcv. injection Hcv as <-.
        destruct (cell_numbers_facts c nums En (M c (or_introl eq_refl))) as (L & Bl & W).
        exists (f :: fs). split; [constructor; [split; [exact Ef|exact Fit]|exact F1]|]. split.
        + constructor; [|exact F2]. split; [constructor; [constructor|constructor]|]. intros d1 x [<-|[]] Ex. cbn [vc_val mfind] in Ex.
          unfold lt_dof in Ex. rewrite Z.ltb_irrefl in Ex. injection Ex as <-. cbn [vc_num].
          split; [|exact Bl]. rewrite map_length, seq_length, L, Fit. reflexivity.
        + intros w. cbn [map rlsum combine fst snd]. rewrite F3. f_equal.
          unfold vcell_contrib. cbn [vc_val vc_num mfind]. unfold lt_dof. rewrite Z.ltb_irrefl.
          etransitivity; [apply (contrib_sum N nums (map f (seq 0 (length (e_nodes (bc_element c)) * d))) (fun n => as_key w (nth n A k0)) Bl)|].
          rewrite L, Fit, rsum_blocks. unfold nodal_work. apply rsum_ext. intros k Hk. apply rsum_ext. intros i Hi.
          rewrite W by (try rewrite Fit; assumption). f_equal.
          rewrite (nth_indep _ 0 (f 0%nat)) by (rewrite map_length, seq_length; nia). rewrite map_nth, seq_nth by nia. reflexivity. }
    destruct Q as (fs & F1 & F2 & F3).
    assert (ND : NoDup [t]) by (constructor; [intros []|constructor]).
    destruct (C17_vector_schedule_independent R_cring _ threads vcs [t] (fun _ => N) ND Ht sizes F2) as (_ & U).
    destruct (U r B) as (F & -> & _ & Hs & Hv). exists F, fs. split; [reflexivity|]. split; [exact F1|]. split.
    - rewrite Hs. cbn [existsb]. rewrite Z.eqb_refl. reflexivity.
    - intros w. rewrite work_keys, <- F3, <- rsum_rlsum_swap. apply rsum_ext. intros n Hn. rewrite (Hv t n (or_introl eq_refl)), sum_over_R, <- rlsum_scal_r. reflexivity.
  Qed.

  Lemma vector_exists integral cells vcs threads : (0 < threads)%nat -> (forall c, In c cells -> nodes_of_mesh l c) ->
    local_vectors d t h' integral cells = Ok vcs -> exists F, build_vector (mkInfo [(t, numInd)] [(t, numDep)]) threads vcs [t] (Ok F).
  Proof.
    intros Ht M E. unfold local_vectors in E. apply all_of_map_ok in E.
    assert (Fit : Forall (vcell_fits [t] (fun _ => N)) vcs).
    { revert M. induction E as [|c v cs vs Hcv Hr IH]; intros M; [constructor|]. constructor; [|apply IH; intros c' Hc'; apply M; right; exact Hc'].
      unfold local_vector in Hcv. destruct (nodes_fit c) eqn:Fit; [|discriminate]. unfold nodes_fit in Fit. apply andb_prop in Fit. destruct Fit as (_ & Fit). apply Nat.eqb_eq in Fit.
      destruct (integral c) as [f| |] eqn:Ef; try discriminate. cbn [obind] in Hcv.
      destruct (cell_numbers d h' c) as [nums| |] eqn:En; try discriminate. cbn [omap obind] in Hcv. injection Hcv as <-.
      destruct (cell_numbers_facts c nums En (M c (or_introl eq_refl))) as (L & Bl & _).
      split; [constructor; [constructor|constructor]|]. intros d1 x [<-|[]] Ex. cbn [vc_val mfind] in Ex.
      unfold lt_dof in Ex. rewrite Z.ltb_irrefl in Ex. injection Ex as <-. cbn [vc_num].
      split; [|exact Bl]. rewrite map_length, seq_length, L, Fit. reflexivity. }
    assert (ND : NoDup [t]) by (constructor; [intros []|constructor]).
    apply (C17_vector_schedule_independent R_cring _ threads vcs [t] (fun _ => N) ND Ht sizes Fit).
  Qed.

  (** *** matrices *)
  Lemma at_nodes_key K k n m : (n < N)%nat -> (m < N)%nat -> mat_at K t t = Some k ->
    at_nodes h' t K (fst (nth n A k0)) (Z.to_nat (snd (nth n A k0))) (fst (nth m A k0)) (Z.to_nat (snd (nth m A k0))) = entry k n m.
  Proof.
    intros Hn Hm Hk. pose proof (proj1 numbered n Hn) as E. pose proof (proj1 numbered m Hm) as E'.
    destruct (key_cases n Hn) as (a & i & Ka & _ & Hi). destruct (key_cases m Hm) as (b & j & Kb & _ & Hj). rewrite Ka, Kb in *.
    unfold at_nodes. cbn [fst snd]. rewrite !Nat2Z.id, E, E', Hk, !Nat2Z.id. reflexivity.
  Qed.
  Lemma assembled_matrix integral cells mcs threads r : (0 < threads)%nat -> (forall c, In c cells -> nodes_of_mesh l c) ->
    local_matrices d t h' integral cells = Ok mcs -> build_matrix (mkInfo [(t, numInd)] [(t, numDep)]) threads mcs [t] r ->
    exists K ks, r = Ok K /\ Forall2 (fun c k => integral c = Ok k /\ length (bc_nodes c) = length (e_nodes (bc_element c))) cells ks /\
      (exists m, mat_at K t t = Some m /\ srows m = N /\ scols m = N /\ in_range m) /\
      forall u w, total_work d l (stiffness_force d l (at_nodes h' t K) u) w =
        rlsum (map (fun ck => let v := fun (z : Z -> nat -> R) k => z (nth k (bc_nodes (fst ck)) 0%Z) in
          nodal_work d (length (e_nodes (bc_element (fst ck)))) (apply_stiffness d (length (e_nodes (bc_element (fst ck)))) (snd ck) (v u)) (v w)) (combine cells ks)).
  Proof.
    intros Ht M E B. unfold local_matrices in E. apply all_of_map_ok in E.
    assert (Q : exists ks, Forall2 (fun c k => integral c = Ok k /\ length (bc_nodes c) = length (e_nodes (bc_element c))) cells ks /\
       Forall (mcell_fits [t] (fun _ => N)) mcs /\
       forall u w, rlsum (map (fun v => rsum N (fun n => rsum N (fun m => @mcell_contrib R_cring v t t n m * as_key u (nth m A k0)) * as_key w (nth n A k0))) mcs) =
         rlsum (map (fun ck => let v := fun (z : Z -> nat -> R) k => z (nth k (bc_nodes (fst ck)) 0%Z) in
          nodal_work d (length (e_nodes (bc_element (fst ck)))) (apply_stiffness d (length (e_nodes (bc_element (fst ck)))) (snd ck) (v u)) (v w)) (combine cells ks))).
    { clear B r. revert M. induction E as [|c v cs vs Hcv Hr IH]; intros M.
      - exists []. split; [constructor|]. split; [constructor|]. reflexivity.
      - destruct IH as (ks & F1 & F2 & F3); [intros c' Hc'; apply M; right; exact Hc'|].
        unfold local_matrix in Hcv. destruct (nodes_fit c) eqn:Fit; [|discriminate]. unfold nodes_fit in Fit. apply andb_prop in Fit. destruct Fit as (_ & Fit). apply Nat.eqb_eq in Fit.
        destruct (integral c) as [k| |] eqn:Ek; try discriminate. cbn [obind] in Hcv.
        destruct (cell_numbers d h' c) as [nums| |] eqn:En; try discriminate. cbn [omap obind] in Hcv. injection Hcv as <-.
        destruct (cell_numbers_facts c nums En (M c (or_introl eq_refl))) as (L & Bl & W).
        exists (k :: ks). split; [constructor; [split; [exact Ek|exact Fit]|exact F1]|]. split.
        + constructor; [|exact F2]. split; [constructor; [constructor|constructor]|]. intros a b [<-|[]] [<-|[]] _ _. cbn [mc_val mc_num mfind].
          unfold lt_dofpair at 1 2. cbn [fst snd]. rewrite !Z.ltb_irrefl, ?Z.eqb_refl. cbn [andb orb].
          eexists. split; [reflexivity|]. cbn [drows dcols]. rewrite L, Fit. repeat split; exact Bl.
        + intros u w. cbn [map rlsum combine fst snd]. rewrite F3. f_equal.
          unfold mcell_contrib. cbn [mc_val mc_num mfind]. unfold lt_dofpair. cbn [fst snd]. rewrite !Z.ltb_irrefl, ?Z.eqb_refl. cbn [andb orb].
          etransitivity; [apply (contrib2_sum N nums nums (mkD (F := R_cring) _ _ k) (fun n => as_key w (nth n A k0)) (fun n => as_key u (nth n A k0)) Bl Bl)|].
          cbn [dat]. rewrite L, Fit, rsum_blocks. unfold nodal_work, apply_stiffness. cbv zeta. apply rsum_ext. intros p Hp. apply rsum_ext. intros i Hi.
          rewrite (W p i) by (try rewrite Fit; assumption). f_equal.
          rewrite rsum_blocks. apply rsum_ext. intros q Hq. apply rsum_ext. intros j Hj. rewrite (W q j) by (try rewrite Fit; assumption). reflexivity. }
    destruct Q as (ks & F1 & F2 & F3).
    assert (ND : NoDup [t]) by (constructor; [intros []|constructor]).
    destruct (C17_matrix_schedule_independent R_cring _ threads mcs [t] (fun _ => N) ND Ht sizes F2) as (_ & U).
    destruct (U r B) as (K & -> & Hm & _). destruct (Hm t t (or_introl eq_refl) (or_introl eq_refl)) as (m & Em & Hr & Hc & Hin & Hv).
    exists K, ks. split; [reflexivity|]. split; [exact F1|]. split; [exists m; repeat split; assumption|].
    intros u w. unfold total_work. rewrite (over_keys (fun a i => stiffness_force d l (at_nodes h' t K) u a i * w a i)).
    etransitivity; [|exact (F3 u w)]. rewrite <- rsum_rlsum_swap. apply rsum_ext. intros n Hn. unfold as_key at 1. rewrite rlsum_scal_r. match goal with |- ?x * ?y = ?z * ?u => change (x * y = z * y) end. f_equal.
    unfold stiffness_force. rewrite (over_keys (fun b j => at_nodes h' t K (fst (nth n A k0)) (Z.to_nat (snd (nth n A k0))) b j * u b j)).
    rewrite <- rsum_rlsum_swap. apply rsum_ext. intros p Hp. unfold as_key at 1. rewrite (at_nodes_key K m n p Hn Hp Em), Hv, sum_over_R, rlsum_scal_r. reflexivity.
  Qed.
  (** the nodes of the mesh have numbers, so that cells with integrals can be assembled *)
  Lemma numbers_exist c : nodes_of_mesh l c -> exists nums, cell_numbers d h' c = Ok nums.
  Proof.
    intros M. unfold cell_numbers. change (exists nums, all_of (map (dof_number h') (cell_keys d (bc_nodes c))) = Ok nums).
    assert (Q : forall k, In k (cell_keys d (bc_nodes c)) -> exists z, dof_number h' k = Ok z).
    { intros (a, z) Hk. apply in_cell_keys in Hk. destruct Hk as (Ha & i & Hi & ->).
      assert (HA : In (a, Z.of_nat i) A) by (apply in_cell_keys; split; [exact (M a Ha)|exists i; auto]).
      destruct (In_nth A _ k0 HA) as (n & Hn & E). exists (Z.of_nat n). rewrite <- E. exact (proj1 numbered n Hn). }
    revert Q. generalize (cell_keys d (bc_nodes c)). intros ks. induction ks as [|k ks IH]; intros Q; [exists []; reflexivity|].
    destruct (Q k (or_introl eq_refl)) as (z & Ez). destruct (IH (fun k' Hk' => Q k' (or_intror Hk'))) as (zs & Es). exists (z :: zs).
    cbn [map all_of]. rewrite Ez. cbn [obind]. rewrite Es. reflexivity.
  Qed.
  Lemma matrices_exist integral cells threads : (0 < threads)%nat ->
    (forall c, In c cells -> nodes_of_mesh l c /\ nodes_fit c = true /\ exists k, integral c = Ok k) ->
    exists mcs K, local_matrices d t h' integral cells = Ok mcs /\ build_matrix (mkInfo [(t, numInd)] [(t, numDep)]) threads mcs [t] (Ok K).
  Proof.
    intros Ht H.
    assert (Q : exists mcs, local_matrices d t h' integral cells = Ok mcs /\ Forall (mcell_fits [t] (fun _ => N)) mcs).
    { unfold local_matrices. induction cells as [|c cs IH]; [exists []; split; [reflexivity|constructor]|].
      destruct (IH (fun c' Hc' => H c' (or_intror Hc'))) as (mcs & E & F). destruct (H c (or_introl eq_refl)) as (M & Fit & k & Ek).
      destruct (numbers_exist c M) as (nums & En). destruct (cell_numbers_facts c nums En M) as (L & Bl & _).
      pose proof Fit as Fit'. unfold nodes_fit in Fit'. apply andb_prop in Fit'. destruct Fit' as (_ & Fit'). apply Nat.eqb_eq in Fit'.
      eexists. split.
      - cbn [map all_of]. unfold local_matrix at 1. rewrite Fit, Ek. cbn [obind]. rewrite En. cbn [omap obind]. rewrite E. cbn [omap obind]. reflexivity.
      - constructor; [|exact F]. split; [constructor; [constructor|constructor]|]. intros a b [<-|[]] [<-|[]] _ _. cbn [mc_val mc_num mfind].
        unfold lt_dofpair at 1 2. cbn [fst snd]. rewrite !Z.ltb_irrefl, ?Z.eqb_refl. cbn [andb orb].
        eexists. split; [reflexivity|]. cbn [drows dcols]. rewrite L, Fit'. repeat split; exact Bl. }
    destruct Q as (mcs & E & F). assert (ND : NoDup [t]) by (constructor; [intros []|constructor]).
    destruct (C17_matrix_schedule_independent R_cring _ threads mcs [t] (fun _ => N) ND Ht sizes F) as ((K & B) & _).
    exists mcs, K. split; [exact E|exact B].
  Qed.
End Numbered.
