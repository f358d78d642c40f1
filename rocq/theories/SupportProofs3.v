(** * Proofs for C106: supported bodies *)
From Coq Require Import List Arith ZArith Bool Reals Lra Lia Sorted.
From Verif Require Import Outcome RSum Algebra GroupModel GroupProofs DofModel DofSpec DofProofs ConstraintModel ConstraintSpec ConstraintProofs ConstraintProofs2 AssemblerModel AssemblerSpec
  CellModel CellSpec ElasticModel IntegrandModel InterpolationModel EquilibriumModel EquilibriumSpec BodyModel BodySpec BodyProofs BodyProofs2 SolveModel SolveSpec SolveProofs
  PropSolve PropBody SupportSpec SupportProofs SupportProofs2.
Import ListNotations.
Local Open Scope R_scope.

Lemma fulfils_ext c t w w' : (forall a i e, In e (equations c t) -> In (a, i) (edep e :: ind_keys e) -> w a (Z.to_nat i) = w' a (Z.to_nat i)) ->
  fulfils c t w -> fulfils c t w'.
Proof.
  intros H F e He. specialize (F e He). cbv beta zeta in *.
  assert (Hk : forall k, In k (edep e :: ind_keys e) -> w (fst k) (Z.to_nat (snd k)) = w' (fst k) (Z.to_nat (snd k))).
  { intros (a, i) Hk. exact (H a i e He Hk). }
  rewrite <- (Hk (edep e)) by (left; reflexivity). etransitivity; [|exact F]. f_equal. clear - Hk.
  assert (Hi : forall tm, In tm (eind e) -> w' (fst (tkey tm)) (Z.to_nat (snd (tkey tm))) = w (fst (tkey tm)) (Z.to_nat (snd (tkey tm)))).
  { intros tm Ht. symmetry. apply Hk. right. unfold ind_keys. apply in_map. exact Ht. }
  clear Hk. induction (eind e) as [|tm ts IH]; [reflexivity|]. cbn [fold_right]. rewrite IH by (intros; apply Hi; right; assumption).
  rewrite Hi by (left; reflexivity). reflexivity.
Qed.
Lemma fulfils_sub c t v w : fulfils c t v -> fulfils c t w -> fulfils c t (fun a i => v a i - w a i).
Proof.
  intros Fv Fw e He. specialize (Fv e He). specialize (Fw e He). cbv beta zeta in *. revert Fv Fw.
  generalize (v (fst (edep e)) (Z.to_nat (snd (edep e)))). generalize (w (fst (edep e)) (Z.to_nat (snd (edep e)))). intros x y Fv Fw.
  match goal with |- ?a - ?b + ?r = 0 => assert (E : r = fold_right (fun tm s => coef tm * v (fst (tkey tm)) (Z.to_nat (snd (tkey tm))) + s) 0 (eind e) -
    fold_right (fun tm s => coef tm * w (fst (tkey tm)) (Z.to_nat (snd (tkey tm))) + s) 0 (eind e)) end.
  - clear. induction (eind e) as [|tm ts IH]; cbn [fold_right]; [ring|]. rewrite IH. ring.
  - rewrite E. lra.
Qed.

Section Body.
  Variables (d : nat) (t : Z) (h : nodes) (g : group) (ops : list cons_op) (h' : nodes) (numInd numDep : Z) (K : dofmat R_cring).
  Let c := cons_run cons_empty ops.
  Let l := mData g.
  Let A := cell_keys d l.
  Let N := length A.
  Let k0 : dofkey := (0, 0)%Z.
  Hypotheses (Og : group_ok g) (Sz : forall a, In a (mData g) -> length (h a) = d)
    (Nb : build_numbering h g t c = Ok (h', numInd, numDep))
    (Ns : no_self_reference ops)
    (Cf : forall e tm, In e (equations c t) -> In tm (eind e) -> coef tm = 0 \/ / 10 ^ 18 < Rabs (coef tm))
    (Mt : forall e k, In e (equations c t) -> In k (edep e :: ind_keys e) -> (0 <= snd k < Z.of_nat d)%Z)
    (Km : exists m, mat_at K t t = Some m /\ srows m = N /\ scols m = N /\ in_range m).

  Lemma mentioned_in e k : In e (equations c t) -> In k (edep e :: ind_keys e) -> In k A.
  Proof.
    intros He Hk. destruct (build_numbering_lemma h g t c Og) as [(_ & E)|(Hin & _)]; [rewrite E in Nb; discriminate|].
    assert (M : mentions c t k) by (exists e; split; [exact He|]; destruct Hk as [<-|Hk]; auto).
    destruct k as (a, z). apply in_cell_keys. split; [exact (Hin _ M)|]. pose proof (Mt e (a, z) He Hk) as B. cbn [snd] in B.
    exists (Z.to_nat z). split; lia.
  Qed.
  Lemma num_key n : (n < N)%nat -> num_in h' (nth n A k0) = n.
  Proof.
    intros Hn. unfold num_in. assert (E : dof_number h' (nth n A k0) = Ok (Z.of_nat n)) by exact (proj1 (BodyProofs.numbered d t h g c h' numInd numDep Og Sz Nb) n Hn).
    rewrite E. apply Nat2Z.id.
  Qed.
  Lemma key_num k : In k A -> (num_in h' k < N)%nat /\ nth (num_in h' k) A k0 = k.
  Proof.
    intros Hk. destruct (In_nth A k k0 Hk) as (n & Hn & <-). rewrite (num_key n Hn). split; [exact Hn|reflexivity].
  Qed.
  Lemma equations_numbered : ConstraintSpec.numbered h' (equations c t) N (num_in h').
  Proof.
    unfold N, A, l. rewrite <- (A_all d h g Sz). apply (build_numbered h g t c h' numInd numDep Og Nb).
    intros k (e & He & Hk). assert (Hk' : In k (edep e :: ind_keys e)) by (destruct Hk as [->|Hk]; [left; reflexivity|right; exact Hk]).
    pose proof (mentioned_in e k He Hk') as Ha. destruct k as (a, z). apply in_cell_keys in Ha. destruct Ha as (Ha & i & Hi & ->). cbn [fst snd].
    rewrite (Sz a Ha). lia.
  Qed.
  Lemma cons_fit : constraints_fit h' ops [t] (fun _ => N) (fun _ => num_in h').
  Proof. split; [exact Ns|]. intros b [<-|[]]. split; [exact equations_numbered|exact Cf]. Qed.

  (** vectors by number and by node *)
  Lemma fulfils_admissible w W : (forall n, (n < N)%nat -> W n = as_key w (nth n A k0)) ->
    (fulfils c t w <-> admissible c [t] (fun _ => num_in h') (fun _ => W)).
  Proof.
    intros HW.
    assert (L : forall e, In e (equations c t) -> lhs (num_in h') W e = as_key w (edep e) + fold_right (fun tm s => coef tm * as_key w (tkey tm) + s) 0 (eind e)).
    { intros e He. unfold lhs. assert (Q : forall k, In k (edep e :: ind_keys e) -> W (num_in h' k) = as_key w k).
      { intros k Hk. destruct (key_num k (mentioned_in e k He Hk)) as (H1 & H2). rewrite (HW _ H1). rewrite H2. reflexivity. }
      rewrite (Q (edep e)) by (left; reflexivity). f_equal.
      assert (Qi : forall tm, In tm (eind e) -> W (num_in h' (tkey tm)) = as_key w (tkey tm)) by (intros tm Ht; apply Q; right; unfold ind_keys; apply in_map; exact Ht).
      clear Q He. induction (eind e) as [|tm ts IH]; [reflexivity|]. cbn [fold_right]. rewrite IH by (intros; apply Qi; right; assumption).
      rewrite Qi by (left; reflexivity). reflexivity. }
    split.
    - intros F b e [<-|[]] He. cbv beta. rewrite (L e He). exact (F e He).
    - intros F e He. pose proof (F t e (or_introl eq_refl) He) as Q. cbv beta in Q. rewrite (L e He) in Q. exact Q.
  Qed.
  Lemma force_keys u n : (n < N)%nat -> as_key (stiffness_force d l (at_nodes h' t K) u) (nth n A k0) = rsum N (fun m => kval K t t n m * as_key u (nth m A k0)).
  Proof.
    intros Hn. destruct Km as (m & Em & _). unfold as_key at 1. unfold stiffness_force.
    etransitivity; [exact (over_keys d g (fun b j => at_nodes h' t K (fst (nth n A k0)) (Z.to_nat (snd (nth n A k0))) b j * u b j))|].
    apply rsum_ext. intros p Hp. unfold as_key at 1.
    transitivity (entry m n p * u (fst (nth p A k0)) (Z.to_nat (snd (nth p A k0)))); [|unfold kval; rewrite Em; reflexivity].
    f_equal. exact (at_nodes_key d t h g c h' numInd numDep Og Sz Nb K m n p Hn Hp Em).
  Qed.
  Lemma work_keys' F w : total_work d l F w = rsum N (fun n => as_key F (nth n A k0) * as_key w (nth n A k0)).
  Proof. unfold total_work. exact (over_keys d g (fun a i => F a i * w a i)). Qed.
  Lemma virtual_keys u w p U W P : (forall n, (n < N)%nat -> U n = as_key u (nth n A k0)) -> (forall n, (n < N)%nat -> W n = as_key w (nth n A k0)) ->
    (forall n, (n < N)%nat -> P n = as_key p (nth n A k0)) ->
    virtual_work (fun _ => N) [t] (fun _ => W) (residual K (fun _ => N) [t] (fun _ => U) (fun _ => P)) =
    total_work d l (stiffness_force d l (at_nodes h' t K) u) w - total_work d l p w.
  Proof.
    intros HU HW HP. unfold virtual_work, residual. cbn [map rlsum]. rewrite Rplus_0_r, !work_keys', <- rsum_minus. apply rsum_ext. intros n Hn.
    rewrite (HW n Hn), (HP n Hn), (force_keys u n Hn), Rplus_0_r.
    rewrite (rsum_ext N (fun j => kval K t t n j * U j) (fun m => kval K t t n m * as_key u (nth m A k0))); [ring|]. intros m Hm. rewrite (HU m Hm). reflexivity.
  Qed.
  (** by number to by node *)
  Definition by_node (W : nat -> R) (a : Z) (i : nat) : R := W (num_in h' (a, Z.of_nat i)).
  Lemma by_node_key W n : (n < N)%nat -> W n = as_key (by_node W) (nth n A k0).
  Proof.
    intros Hn. destruct (key_cases d g n Hn) as (a & i & E & _ & Hi). pose proof (num_key n Hn) as Q.
    unfold as_key, by_node. change (cell_keys d (mData g)) with A in E. change (0, 0)%Z with k0 in E.
    assert (E' : nth n A k0 = (a, Z.of_nat i)) by exact E. rewrite E' in *. cbn [fst snd]. rewrite Nat2Z.id, Q. reflexivity.
  Qed.
  Lemma all_keys (u v : Z -> nat -> R) : (forall n, (n < N)%nat -> as_key u (nth n A k0) = as_key v (nth n A k0)) -> forall a i, In a l -> (i < d)%nat -> u a i = v a i.
  Proof.
    intros H a i Ha Hi. assert (Hk : In (a, Z.of_nat i) A) by (apply in_cell_keys; split; [exact Ha|exists i; auto]).
    destruct (key_num _ Hk) as (H1 & H2). specialize (H _ H1). rewrite H2 in H. unfold as_key in H. cbn [fst snd] in H. rewrite Nat2Z.id in H. exact H.
  Qed.

  (** the energy that [body_energy] gives *)
  Variables (place : Z -> nat -> R) (cells : list body_cell).
  Hypotheses (En : forall w, let work := total_work d l (stiffness_force d l (at_nodes h' t K) w) w in
      0 <= work /\
      (work = 0 <-> exists A b, skew d A /\ forall a i, node_of_cells cells a -> (i < d)%nat -> w a i = affine_at d A b place a i))
    (Cov : forall a, In a l -> node_of_cells cells a).

  Lemma definite_iff_supported : (forall a, node_of_cells cells a -> In a l) ->
    (definite K c [t] (fun _ => N) (fun _ => num_in h') <-> supported d c t l place).
  Proof.
    intros Inc. split.
    - intros Df B b SB F.
      assert (W0 : total_work d l (stiffness_force d l (at_nodes h' t K) (affine_at d B b place)) (affine_at d B b place) = 0).
      { apply (proj2 (En (affine_at d B b place))). exists B, b. split; [exact SB|]. reflexivity. }
      set (W := fun n => as_key (affine_at d B b place) (nth n A k0)).
      assert (Z : forall n, (n < N)%nat -> W n = 0).
      { intros n Hn. apply (Df (fun _ => W)) with (d := t); [| |left; reflexivity|exact Hn].
        - apply (proj1 (fulfils_admissible (affine_at d B b place) W (fun n _ => eq_refl))). exact F.
        - rewrite (virtual_keys (affine_at d B b place) (affine_at d B b place) (fun _ _ => 0) W W (fun _ => 0) (fun n _ => eq_refl) (fun n _ => eq_refl) (fun n _ => eq_refl)).
          rewrite W0. rewrite work_keys', rsum_zero; [ring|]. intros n' _. unfold as_key at 1. ring. }
      exact (all_keys (affine_at d B b place) (fun _ _ => 0) Z).
    - intros Sp w Aw Vw b i [<-|[]] Hi. set (u := by_node (w t)).
      assert (Ad : admissible c [t] (fun _ => num_in h') (fun _ => w t)) by (intros b e [<-|[]] He; exact (Aw t e (or_introl eq_refl) He)).
      assert (Hu : forall n, (n < N)%nat -> w t n = as_key u (nth n A k0)) by (intros n Hn; apply by_node_key; exact Hn).
      pose proof (proj2 (fulfils_admissible u (w t) Hu) Ad) as Fu.
      assert (Wu : total_work d l (stiffness_force d l (at_nodes h' t K) u) u = 0).
      { pose proof (virtual_keys u u (fun _ _ => 0) (w t) (w t) (fun _ => 0) Hu Hu (fun n _ => eq_refl)) as V.
        assert (V' : virtual_work (fun _ => N) [t] (fun _ => w t) (residual K (fun _ => N) [t] (fun _ => w t) (fun _ _ => 0)) = 0) by exact Vw.
        rewrite V' in V. rewrite (work_keys' (fun _ _ => 0)), rsum_zero in V by (intros; unfold as_key at 1; ring). lra. }
      destruct (proj1 (proj2 (En u)) Wu) as (B & b & SB & HB).
      assert (Eu : forall a j, In a l -> (j < d)%nat -> u a j = affine_at d B b place a j) by (intros a j Ha Hj; apply HB; [apply Cov; exact Ha|exact Hj]).
      assert (FB : fulfils c t (affine_at d B b place)).
      { apply (fulfils_ext c t u); [|exact Fu]. intros a z e He Hk. pose proof (mentioned_in e (a, z) He Hk) as Hin. apply in_cell_keys in Hin. destruct Hin as (Ha & j & Hj & ->).
        rewrite Nat2Z.id. apply Eu; assumption. }
      rewrite (Hu i Hi). destruct (key_cases d g i Hi) as (a & j & E & Ha & Hj).
      assert (E' : nth i A k0 = (a, Z.of_nat j)) by exact E. rewrite E'. unfold as_key. cbn [fst snd]. rewrite Nat2Z.id.
      rewrite (Eu a j Ha Hj). exact (Sp B b SB FB a j Ha Hj).
  Qed.

  Variables (linsolve : nat -> (nat -> nat -> R) -> list R -> outcome (list R)) (p : list R).
  Hypotheses (Sup : supported d c t l place) (Lp : length p = N).
  Let f : dofvec R_cring := [(t, p)].
  Hypotheses (Sym : forall u w, total_work d l (stiffness_force d l (at_nodes h' t K) u) w = total_work d l (stiffness_force d l (at_nodes h' t K) w) u)
    (Inc : forall a, node_of_cells cells a -> In a l) (Hls : solver_correct linsolve) (Hcp : solver_complete linsolve).

  Lemma sys_fit : system_fits K f [t] (fun _ => N).
  Proof.
    split; [constructor; constructor|]. split; [constructor; [intros []|constructor]|]. split.
    - intros b [<-|[]]. unfold size_of, f. cbn [mfind]. unfold lt_dof. rewrite Z.ltb_irrefl. cbn [option_map]. f_equal. exact Lp.
    - intros a b [<-|[]] [<-|[]]. exact Km.
  Qed.
  Lemma keys_f : [t] = bv_keys f.
  Proof. reflexivity. Qed.

  Lemma stiffness_sub u v a i : stiffness_force d l (at_nodes h' t K) (fun a i => u a i - v a i) a i = stiffness_force d l (at_nodes h' t K) u a i - stiffness_force d l (at_nodes h' t K) v a i.
  Proof.
    unfold stiffness_force, over_nodes. rewrite <- rlsum_minus'. apply rlsum_ext'. intros b _. rewrite <- rsum_minus. apply rsum_ext. intros j Hj. ring.
  Qed.
  Lemma work_sub_r F u v : total_work d l F (fun a i => u a i - v a i) = total_work d l F u - total_work d l F v.
  Proof. unfold total_work, over_nodes. rewrite <- rlsum_minus'. apply rlsum_ext'. intros b _. rewrite <- rsum_minus. apply rsum_ext. intros j Hj. ring. Qed.
  Lemma work_sub_l F G w : total_work d l (fun a i => F a i - G a i) w = total_work d l F w - total_work d l G w.
  Proof. unfold total_work, over_nodes. rewrite <- rlsum_minus'. apply rlsum_ext'. intros b _. rewrite <- rsum_minus. apply rsum_ext. intros j Hj. ring. Qed.
  Lemma work_ext_l F G w : (forall a i, F a i = G a i) -> total_work d l F w = total_work d l G w.
  Proof. intros H. unfold total_work, over_nodes. apply rlsum_ext'. intros b _. apply rsum_ext. intros j Hj. rewrite H. reflexivity. Qed.

  Lemma supported_solution : exists r, solve linsolve h' c K f [t] = Ok r /\
    let U := at_node h' t r in let P := at_node h' t f in let k := at_nodes h' t K in
    fulfils c t U /\
    (forall w, fulfils c t w -> total_work d l (stiffness_force d l k U) w = total_work d l P w) /\
    (forall a i, In a l -> (i < d)%nat -> (forall e, In e (equations c t) -> ~ In (a, Z.of_nat i) (edep e :: ind_keys e)) -> stiffness_force d l k U a i = P a i) /\
    (forall v, fulfils c t v -> (forall w, fulfils c t w -> total_work d l (stiffness_force d l k v) w = total_work d l P w) ->
       forall a i, In a l -> (i < d)%nat -> v a i = U a i) /\
    (forall v, fulfils c t v -> potential d l k P U <= potential d l k P v /\
       (potential d l k P v = potential d l k P U -> forall a i, In a l -> (i < d)%nat -> v a i = U a i)).
  Proof.
    pose proof (proj2 (definite_iff_supported Inc) Sup) as Df.
    destruct (solve_returns h' ops K f [t] (fun _ => N) (fun _ => num_in h') sys_fit cons_fit Df linsolve Hcp keys_f) as (r & Er).
    exists r. split; [exact Er|]. intros U P k.
    destruct (C24_solve_partial linsolve Hls h' ops K f [t] (fun _ => N) (fun _ => num_in h') sys_fit cons_fit keys_f) as (_ & _ & Q).
    destruct (Q r Er) as (_ & Ar & Vr). fold c in Ar, Vr.
    assert (KU : forall n, (n < N)%nat -> dval r t n = as_key U (nth n A k0)) by (intros n Hn; symmetry; exact (at_node_key d t h g c h' numInd numDep Og Sz Nb r n Hn)).
    assert (KP : forall n, (n < N)%nat -> dval f t n = as_key P (nth n A k0)) by (intros n Hn; symmetry; exact (at_node_key d t h g c h' numInd numDep Og Sz Nb f n Hn)).
    assert (FU : fulfils c t U).
    { apply (proj2 (fulfils_admissible U (dval r t) KU)). intros b e [<-|[]] He. exact (Ar t e (or_introl eq_refl) He). }
    assert (EU : forall w, fulfils c t w -> total_work d l (stiffness_force d l k U) w = total_work d l P w).
    { intros w Fw. set (W := fun n => as_key w (nth n A k0)). pose proof (Vr (fun _ => W) (proj1 (fulfils_admissible w W (fun n _ => eq_refl)) Fw)) as V.
      assert (V' : virtual_work (fun _ => N) [t] (fun _ => W) (residual K (fun _ => N) [t] (fun _ => dval r t) (fun _ => dval f t)) = 0) by exact V.
      rewrite (virtual_keys U w P (dval r t) W (dval f t) KU (fun n _ => eq_refl) KP) in V'. fold k in V'. lra. }
    assert (Zero : forall v, fulfils c t v -> total_work d l (stiffness_force d l k v) v = 0 -> forall a i, In a l -> (i < d)%nat -> v a i = 0).
    { intros v Fv Wv. destruct (proj1 (proj2 (En v)) Wv) as (B & b & SB & HB).
      assert (Eu : forall a j, In a l -> (j < d)%nat -> v a j = affine_at d B b place a j) by (intros a j Ha Hj; apply HB; [apply Cov; exact Ha|exact Hj]).
      assert (FB : fulfils c t (affine_at d B b place)).
      { apply (fulfils_ext c t v); [|exact Fv]. intros a z e He Hk. pose proof (mentioned_in e (a, z) He Hk) as Hin. apply in_cell_keys in Hin. destruct Hin as (Ha & j & Hj & ->).
        rewrite Nat2Z.id. apply Eu; assumption. }
      intros a i Ha Hi. rewrite (Eu a i Ha Hi). exact (Sup B b SB FB a i Ha Hi). }
    split; [exact FU|]. split; [exact EU|]. split; [|split].
    - intros a i Ha Hi Fr. pose proof (group_nodup g Og) as ND.
      rewrite <- (work_unit d l (stiffness_force d l k U) a i ND Ha Hi), <- (work_unit d l P a i ND Ha Hi). apply EU.
      apply (fulfils_ext c t (fun _ _ => 0)).
      + intros a' z e He Hk. unfold unit_at. destruct (Z.eqb_spec a' a) as [->|]; [|reflexivity]. destruct (Nat.eqb_spec (Z.to_nat z) i) as [<-|]; [|reflexivity].
        exfalso. apply (Fr e He). rewrite Z2Nat.id; [exact Hk|]. exact (proj1 (Mt e (a, z) He Hk)).
      + intros e He. cbv beta zeta. rewrite Rplus_0_l. clear. induction (eind e) as [|tm ts IH]; [reflexivity|]. cbn [fold_right]. rewrite IH. ring.
    - intros v Fv Ev a i Ha Hi. assert (Z : v a i - U a i = 0); [|lra].
      apply (Zero (fun a i => v a i - U a i) (fulfils_sub c t v U Fv FU)); [|exact Ha|exact Hi].
      rewrite (work_ext_l _ (fun a i => stiffness_force d l k v a i - stiffness_force d l k U a i)) by (intros; apply stiffness_sub).
      rewrite work_sub_l, (Ev _ (fulfils_sub c t v U Fv FU)), (EU _ (fulfils_sub c t v U Fv FU)). ring.
    - intros v Fv. set (z := fun a i => v a i - U a i). pose proof (fulfils_sub c t v U Fv FU) as Fz. fold z in Fz.
      assert (E : potential d l k P v = potential d l k P U + total_work d l (stiffness_force d l k z) z / 2).
      { unfold potential.
        assert (E1 : total_work d l (stiffness_force d l k z) z = total_work d l (stiffness_force d l k v) v - 2 * total_work d l (stiffness_force d l k U) v + total_work d l (stiffness_force d l k U) U).
        { rewrite (work_ext_l _ (fun a i => stiffness_force d l k v a i - stiffness_force d l k U a i)) by (intros; apply stiffness_sub).
          rewrite work_sub_l. unfold z. rewrite !work_sub_r. unfold k. rewrite (Sym v U). ring. }
        rewrite E1. pose proof (EU v Fv). pose proof (EU U FU). lra. }
      pose proof (proj1 (En z)) as Nz. cbv zeta in Nz. fold k in Nz. split; [lra|]. intros Eq a i Ha Hi.
      assert (Z0 : z a i = 0); [|unfold z in Z0; lra]. apply (Zero z Fz); [lra|exact Ha|exact Hi].
  Qed.
End Body.
