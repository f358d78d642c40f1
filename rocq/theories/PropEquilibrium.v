(** * C99: equilibrium of the forces of a cell, patch test, rigid motions, stiffness *)
From Coq Require Import List Arith ZArith Reals Lra Lia.
From Verif Require Import Outcome RSum CellModel CellSpec CellProofs CellProofs2 ElasticModel ElasticSpec ElasticProofs PropElastic IntegrandModel InterpolationModel
  InterpolationSpec PropInterpolation EquilibriumModel EquilibriumSpec EquilibriumProofs EquilibriumProofs2 EquilibriumProofs3.
Import ListNotations.
Local Open Scope R_scope.

Lemma strains_ok d ex eu X U cellId numIps ipCoord : usable ex numIps ipCoord -> e_dim ex = d ->
  cell_Strains ex (flat d (length (e_nodes ex)) X) eu d U cellId numIps ipCoord
  = Ok (map (fun q => Ok (the_strain d ex eu X cellId ipCoord q U)) (seq 0 numIps)).
Proof.
  intros Ux Dx. unfold cell_Strains, cell_eval.
  rewrite (eval_loop_Ok cellId ipCoord _ _ _ _ (the_ip d ex X cellId ipCoord) _ (seq 0 numIps)).
  - cbn [omap obind snd app]. f_equal. apply map_ext. intros q. unfold ip_Strain.
    destruct (B_facts d ex eu X cellId numIps ipCoord Ux Dx q) as (EB & _). rewrite EB. reflexivity.
  - intros q _. apply (ip_facts d ex X cellId numIps ipCoord Ux Dx q).
Qed.

(** patch test: the nodal values of an affine displacement field A x + b give at every integration point the strain
    of A, for every geometry of the element that is not degenerate there and every rule *)
Theorem C99_patch : forall d e X A b cellId numIps ipCoord, usable e numIps ipCoord -> e_dim e = d ->
  (forall q, (q < numIps)%nat -> geometry_det e d X (ipCoord q) <> 0) ->
  exists strains, cell_Strains e (flat d (length (e_nodes e)) X) e d (affine d A b X) cellId numIps ipCoord = Ok strains /\
    length strains = numIps /\
    forall s, In s strains -> exists v, s = Ok v /\ map v (seq 0 (Voigt_Dim d)) = voigt_components d A.
Proof.
  intros d e X A b cellId numIps ipCoord U D Hdet. eexists. split; [apply strains_ok; assumption|]. split; [rewrite map_length, seq_length; reflexivity|].
  intros s Hs. apply in_map_iff in Hs. destruct Hs as (q & <- & Hq). apply in_seq in Hq. eexists. split; [reflexivity|].
  destruct (B_facts d e e X cellId numIps ipCoord U D q) as (_ & HS). rewrite HS.
  apply voigt_ext; [apply (d_range d e numIps ipCoord U D)|]. intros i j Hi Hj.
  apply (grad_affine d e X cellId numIps ipCoord); auto; [lia|apply Hdet; lia].
Qed.
Print Assumptions C99_patch.

(** the internal forces have no resultant: any geometry element, any displacement element, any law (it may depend on the
    integration point and its history), any values, even for degenerate geometries *)
Theorem C99_force_balance : forall d stress ex eu X U cellId numIps ipCoord ipWeight f,
  usable ex numIps ipCoord -> usable eu numIps ipCoord -> e_dim ex = d -> e_dim eu = d ->
  cell_Gradient d stress ex (flat d (length (e_nodes ex)) X) eu d U cellId numIps ipCoord ipWeight = Ok f ->
  forall i, (i < d)%nat -> resultant d (length (e_nodes eu)) f i = 0.
Proof.
  intros d stress ex eu X U cellId numIps ipCoord ipWeight f Ux Uu Dx Du E i Hi.
  destruct (virtual_work _ _ _ _ _ _ _ _ _ _ _ Ux Uu Dx Du E) as (sigma & _ & W).
  set (b := fun c : nat => kron c i). specialize (W (fun _ => b)).
  replace (resultant d (length (e_nodes eu)) f i) with (nodal_work d (length (e_nodes eu)) f (fun _ => b)).
  - rewrite W. apply rsum_zero. intros q Hq. replace (rsum (Voigt_Dim d) _) with 0; [ring|]. symmetry. apply rsum_zero. intros r Hr.
    destruct (B_facts d ex eu X cellId numIps ipCoord Ux Dx q) as (_ & HS). specialize (HS (fun _ => b)).
    assert (Z : voigt_components d (the_grad d ex eu X cellId ipCoord q (fun _ => b)) = map (fun _ => 0) (seq 0 (Voigt_Dim d))).
    { rewrite <- repeat_map. apply voigt_skew; [apply (d_range d ex numIps ipCoord Ux Dx)|]. intros a c Ha Hc.
      rewrite !(grad_translation d ex eu X cellId numIps ipCoord) by assumption. lra. }
    rewrite Z in HS. rewrite (proj1 (map_eq_nth _ _ _) HS r Hr). ring.
  - unfold nodal_work, resultant. apply rsum_ext. intros k Hk. rewrite (rsum_single d i _ Hi).
    + unfold b, kron. rewrite Nat.eqb_refl. ring.
    + intros c Hc Hne. unfold b, kron. destruct (Nat.eqb_spec c i); [congruence|ring].
Qed.
Print Assumptions C99_force_balance.

(** strains of infinitesimal rigid motions vanish *)
Lemma rigid_strain d e X A b cellId numIps ipCoord q : usable e numIps ipCoord -> e_dim e = d ->
  (q < numIps)%nat -> geometry_det e d X (ipCoord q) <> 0 -> skew d A ->
  forall i, (i < Voigt_Dim d)%nat -> the_strain d e e X cellId ipCoord q (affine d A b X) i = 0.
Proof.
  intros U D Hq Hdet HA. apply (proj1 (map_eq_nth _ _ (fun _ => 0))).
  destruct (B_facts d e e X cellId numIps ipCoord U D q) as (_ & HS). rewrite HS. rewrite <- repeat_map.
  rewrite <- (voigt_skew d A (d_range d e numIps ipCoord U D) HA).
  apply voigt_ext; [apply (d_range d e numIps ipCoord U D)|]. intros i j Hi Hj.
  apply (grad_affine d e X cellId numIps ipCoord); auto.
Qed.

(** isoparametric cells: the internal forces have no moment either, for any law and any values *)
Theorem C99_moment_balance : forall d stress e X U cellId numIps ipCoord ipWeight f, usable e numIps ipCoord -> e_dim e = d ->
  (forall q, (q < numIps)%nat -> geometry_det e d X (ipCoord q) <> 0) ->
  cell_Gradient d stress e (flat d (length (e_nodes e)) X) e d U cellId numIps ipCoord ipWeight = Ok f ->
  forall i j, (i < d)%nat -> (j < d)%nat -> moment d (length (e_nodes e)) X f i j = 0.
Proof.
  intros d stress e X U cellId numIps ipCoord ipWeight f Ue D Hdet E i j Hi Hj.
  destruct (virtual_work _ _ _ _ _ _ _ _ _ _ _ Ue Ue D D E) as (sigma & _ & W).
  set (A := fun c m => kron c j * kron m i - kron c i * kron m j). specialize (W (affine d A (fun _ => 0) X)).
  assert (SA : skew d A) by (intros a c _ _; unfold A; ring).
  replace (moment d (length (e_nodes e)) X f i j) with (nodal_work d (length (e_nodes e)) f (affine d A (fun _ => 0) X)).
  - rewrite W. apply rsum_zero. intros q Hq. replace (rsum (Voigt_Dim d) _) with 0; [ring|]. symmetry. apply rsum_zero. intros r Hr.
    rewrite (rigid_strain d e X A _ cellId numIps ipCoord q) by auto. ring.
  - unfold nodal_work, moment. apply rsum_ext. intros k Hk.
    assert (P : forall (g : nat -> R) m, (m < d)%nat -> rsum d (fun c => g c * kron c m) = g m).
    { intros g m Hm. rewrite (rsum_single d m _ Hm); [unfold kron; rewrite Nat.eqb_refl; ring|].
      intros c Hc Hne. unfold kron. destruct (Nat.eqb_spec c m); [congruence|ring]. }
    assert (AX : forall c, affine d A (fun _ => 0) X k c = kron c j * X k i - kron c i * X k j).
    { intros c. unfold affine, A.
      rewrite (rsum_ext d _ (fun m => kron c j * (X k m * kron m i) - kron c i * (X k m * kron m j))) by (intros; ring).
      rewrite rsum_minus, !rsum_scal, !P by assumption. ring. }
    rewrite (rsum_ext d _ (fun c => X k i * (f (k * d + c)%nat * kron c j) - X k j * (f (k * d + c)%nat * kron c i))) by (intros; rewrite AX; ring).
    rewrite rsum_minus, !rsum_scal.
    rewrite (P (fun c => f (k * d + c)%nat) j Hj), (P (fun c => f (k * d + c)%nat) i Hi). reflexivity.
Qed.
Print Assumptions C99_moment_balance.

(** rigid motions cause no forces, for every law that reads the strains of its dimension only and has no stress without strain *)
Theorem C99_rigid_motion : forall d stress e X A b cellId numIps ipCoord ipWeight, usable e numIps ipCoord -> e_dim e = d ->
  (forall q, (q < numIps)%nat -> geometry_det e d X (ipCoord q) <> 0) -> skew d A ->
  (forall ip s, (forall i, (i < Voigt_Dim d)%nat -> s i = 0) -> exists sigma, stress ip s = Ok sigma /\ forall i, (i < Voigt_Dim d)%nat -> sigma i = 0) ->
  exists f, cell_Gradient d stress e (flat d (length (e_nodes e)) X) e d (affine d A b X) cellId numIps ipCoord ipWeight = Ok f /\ forall a, f a = 0.
Proof.
  intros d stress e X A b cellId numIps ipCoord ipWeight U D Hdet HA Hz.
  set (gs := fun q => match ip_Gradient d stress e d (affine d A b X) (the_ip d e X cellId ipCoord q) with Ok v => v | _ => fun _ => 0 end).
  assert (Hg : forall q, In q (seq 0 numIps) -> ip_Gradient d stress e d (affine d A b X) (the_ip d e X cellId ipCoord q) = Ok (gs q) /\ forall a, gs q a = 0).
  { intros q Hq. apply in_seq in Hq. destruct (Hz (the_ip d e X cellId ipCoord q) (the_strain d e e X cellId ipCoord q (affine d A b X))) as (sigma & Es & Zs).
    - apply (rigid_strain d e X A b cellId numIps ipCoord q); auto; [lia|apply Hdet; lia].
    - assert (G : ip_Gradient d stress e d (affine d A b X) (the_ip d e X cellId ipCoord q) = Ok (tmat_vec (Voigt_Dim d) (the_B d e e X cellId ipCoord q) sigma)).
      { unfold ip_Gradient. destruct (B_facts d e e X cellId numIps ipCoord U D q) as (EB & _). rewrite EB. cbn [obind]. rewrite Nat.eqb_refl.
        unfold mb_Gradient. change (strain_of _ _ _) with (the_strain d e e X cellId ipCoord q (affine d A b X)). rewrite Es. reflexivity. }
      unfold gs. rewrite G. split; [reflexivity|]. intros a. unfold tmat_vec. apply rsum_zero. intros i Hi. rewrite Zs by exact Hi. ring. }
  destruct (vec_loop_Ok cellId ipCoord ipWeight _ _ _ _ (the_ip d e X cellId ipCoord) _ gs (seq 0 numIps)
     (make_ip_ok d e X cellId numIps ipCoord U D) (fun q Hq => proj1 (Hg q Hq)) (fun _ => 0)) as (h & Eh & V).
  exists h. split; [exact Eh|]. intros a. rewrite V, rlsum_map_seq, Rplus_0_l. apply rsum_zero. intros q Hq.
  rewrite (proj2 (Hg q ltac:(apply in_seq; lia))). ring.
Qed.
Print Assumptions C99_rigid_motion.

(** the stiffness matrix of a linear elastic cell: it gives the forces, is symmetric, has the rigid motions in its kernel, and
    for positive weights and determinants its energy is positive unless the strains at all integration points vanish *)
Theorem C99_stiffness : forall d E nu ps e X U cellId numIps ipCoord ipWeight, usable e numIps ipCoord -> e_dim e = d ->
  0 < E -> -1 < nu < 1/2 -> (forall q, (q < numIps)%nat -> geometry_det e d X (ipCoord q) <> 0) ->
  let l := le_make d E nu ps in let n := length (e_nodes e) in
  exists f K, cell_Gradient d (fun _ s => Ok (le_Stress d l s)) e (flat d n X) e d U cellId numIps ipCoord ipWeight = Ok f /\
    cell_Hessian0 d (fun _ s => Ok (le_Tangent l s)) e (flat d n X) e d U cellId numIps ipCoord ipWeight = Ok K /\
    (forall a, f a = apply_stiffness d n K U a) /\
    (forall a b, K a b = K b a) /\
    (forall A b, skew d A -> forall a, apply_stiffness d n K (affine d A b X) a = 0) /\
    ((forall q, (q < numIps)%nat -> 0 < geometry_det e d X (ipCoord q) * ipWeight q) -> forall v,
       0 <= nodal_work d n (apply_stiffness d n K v) v /\
       (nodal_work d n (apply_stiffness d n K v) v = 0 <->
        exists strains, cell_Strains e (flat d n X) e d v cellId numIps ipCoord = Ok strains /\
          forall s, In s strains -> exists w, s = Ok w /\ forall i, (i < Voigt_Dim d)%nat -> w i = 0)).
Proof.
  intros d E nu ps e X U cellId numIps ipCoord ipWeight Ue D HE Hnu Hdet l n.
  destruct (elastic_gradient d E nu ps e e X cellId numIps ipCoord ipWeight Ue D U) as (f & Ef & Hf).
  destruct (elastic_hessian d E nu ps e e X cellId numIps ipCoord ipWeight Ue D U) as (K & EK & HK).
  exists f, K. split; [exact Ef|]. split; [exact EK|]. split; [|split; [|split]].
  - intros a. rewrite Hf. symmetry. apply (K_apply d E nu ps e e X cellId numIps ipCoord ipWeight). exact HK.
  - intros a b. rewrite !HK. apply rsum_ext. intros q Hq. f_equal. apply Kq_symmetric.
  - intros A b HA a. etransitivity; [apply (K_apply d E nu ps e e X cellId numIps ipCoord ipWeight); exact HK|].
    apply rsum_zero. intros q Hq. replace (tmat_vec _ _ _ a) with 0; [ring|]. symmetry. unfold tmat_vec. apply rsum_zero. intros i Hi.
    replace (le_Stress _ _ _ i) with 0; [ring|]. symmetry. unfold le_Stress, mat_vec. apply rsum_zero. intros j Hj.
    rewrite (rigid_strain d e X A b cellId numIps ipCoord q) by auto. ring.
  - intros P v.
    assert (En : nodal_work d n (apply_stiffness d n K v) v = _) by (apply (K_energy d E nu ps e e X cellId numIps ipCoord ipWeight K v v HK)).
    assert (Pos : forall q, (q < numIps)%nat -> 0 <= rsum (Voigt_Dim d) (fun i => the_strain d e e X cellId ipCoord q v i * le_Stress d (le_make d E nu ps) (the_strain d e e X cellId ipCoord q v) i) * (geometry_det e d X (ipCoord q) * ipWeight q)).
    { intros q Hq. apply Rmult_le_pos; [|left; apply P; exact Hq]. apply (energy_point d E nu ps e e numIps ipCoord Ue D D HE Hnu). }
    split; [rewrite En; apply rsum_nonneg; exact Pos|]. split.
    + intros Z. rewrite En in Z. eexists. split; [apply strains_ok; assumption|]. intros s Hs. apply in_map_iff in Hs. destruct Hs as (q & <- & Hq).
      apply in_seq in Hq. eexists. split; [reflexivity|]. apply (energy_point d E nu ps e e numIps ipCoord Ue D D HE Hnu).
      pose proof (rsum_nonneg_zero _ _ Pos Z q ltac:(lia)) as Zq. apply Rmult_integral in Zq. destruct Zq as [Zq|Zq]; [exact Zq|].
      specialize (P q ltac:(lia)). lra.
    + intros (strains & Es & Zs). fold n in Es. unfold n in Es. rewrite strains_ok in Es by assumption. injection Es as <-.
      rewrite En. apply rsum_zero. intros q Hq. destruct (Zs (Ok (the_strain d e e X cellId ipCoord q v))) as (w & Ew & Zw).
      { apply in_map_iff. exists q. split; [reflexivity|apply in_seq; lia]. }
      injection Ew as <-. replace (rsum (Voigt_Dim d) _) with 0; [ring|]. symmetry. apply rsum_zero. intros i Hi. rewrite Zw by exact Hi. ring.
Qed.
Print Assumptions C99_stiffness.

(** simplex elements of first order have no zero energy modes but the rigid motions, whatever the rule *)
Theorem C99_no_spurious_modes : forall d E nu ps e X U cellId numIps ipCoord ipWeight K v,
  In e [truss_linear; triangle_linear; tetrahedron_linear] -> e_dim e = d -> 0 < E -> -1 < nu < 1/2 -> (0 < numIps)%nat ->
  (forall q, (q < numIps)%nat -> 0 < geometry_det e d X (ipCoord q) * ipWeight q) ->
  let n := length (e_nodes e) in
  cell_Hessian0 d (fun _ s => Ok (le_Tangent (le_make d E nu ps) s)) e (flat d n X) e d U cellId numIps ipCoord ipWeight = Ok K ->
  nodal_work d n (apply_stiffness d n K v) v = 0 ->
  exists A b, skew d A /\ forall k i, (k < n)%nat -> (i < d)%nat -> v k i = affine d A b X k i.
Proof.
  intros d E nu ps e X U cellId numIps ipCoord ipWeight K v He D HE Hnu Hn P n HK Z.
  assert (Ue : usable e numIps ipCoord).
  { left. unfold exact_elements. cbn in He. cbn. intuition. }
  assert (Hdet : forall q, (q < numIps)%nat -> geometry_det e d X (ipCoord q) <> 0).
  { intros q Hq H0. specialize (P q Hq). rewrite H0 in P. lra. }
  destruct (C99_stiffness d E nu ps e X U cellId numIps ipCoord ipWeight Ue D HE Hnu Hdet) as (f & K' & _ & EK & _ & _ & _ & HP).
  fold n in EK, HP. assert (K' = K) by congruence. subst K'.
  destruct (proj1 (proj2 (HP P v)) Z) as (strains & Es & Zs). unfold n in Es. rewrite strains_ok in Es by assumption. injection Es as <-.
  destruct (Zs (Ok (the_strain d e e X cellId ipCoord 0 v))) as (w & Ew & Zw).
  { apply in_map_iff. exists 0%nat. split; [reflexivity|apply in_seq; lia]. }
  injection Ew as <-. set (A := the_grad d e e X cellId ipCoord 0 v).
  assert (SA : skew d A).
  { apply voigt_zero_skew; [apply (d_range d e numIps ipCoord Ue D)|].
    destruct (B_facts d e e X cellId numIps ipCoord Ue D 0) as (_ & HS). rewrite repeat_map. etransitivity; [symmetry; exact (HS v)|]. apply map_eq_nth. exact Zw. }
  exists A, (fun i => v 0%nat i - rsum d (fun j => A i j * X 0%nat j)). split; [exact SA|]. intros k i Hk Hi. unfold affine.
  (* chain rule: A J = natural derivative of v *)
  pose proof (d_range d e numIps ipCoord Ue D) as Hd.
  destruct (square_jacobian d n (flat d n X) (as_matrix (e_deriv e (as_point (ipCoord 0%nat)))) Hd (nx_pos e numIps ipCoord Ue) (coords_length d e X)) as (j & Ej & Hr & Hc & HG & HD & HI).
  destruct (ip_facts d e X cellId numIps ipCoord Ue D 0) as (Eip & Hco & _ & Hr' & Hc' & HD' & _).
  assert (J : ipJac (the_ip d e X cellId ipCoord 0) = j).
  { unfold make_ip in Eip. rewrite D in Eip. fold n in Eip. rewrite Ej in Eip. cbn [omap obind] in Eip. injection Eip as Eip. rewrite <- Eip. reflexivity. }
  rewrite J in HD'. assert (Hj0 : jDet j <> 0) by (rewrite HD'; apply Hdet; lia).
  destruct (transform_chain_rule d j (as_matrix (e_deriv e (as_point (ipCoord 0%nat)))) n (fun k => v k i) Hc Hr (HI Hj0)) as (CR & _).
  assert (AE : forall c, A i c = rsum n (fun k => transform_derivatives j (as_matrix (e_deriv e (as_point (ipCoord 0%nat)))) k c * v k i)).
  { intros c. unfold A, the_grad, the_dN. rewrite J. reflexivity. }
  assert (CR' : forall m, (m < d)%nat -> rsum d (fun c => A i c * rsum n (fun k => as_matrix (e_deriv e (as_point (ipCoord 0%nat))) k m * X k c))
     = rsum n (fun k => as_matrix (e_deriv e (as_point (ipCoord 0%nat))) k m * v k i)).
  { intros m Hm. rewrite <- (CR m Hm). apply rsum_ext. intros c Hcd. rewrite AE. f_equal. rewrite HG. unfold geometry_derivative. apply rsum_ext.
    intros k' Hk'. f_equal. symmetry. apply (coords_nth d e X k' c); assumption. }
  clear - CR' He D Hk Hi Hd. subst n.
  cbn in He. destruct He as [<-|[<-|[<-|[]]]]; cbn in D; subst d; cbn [e_nodes truss_linear triangle_linear tetrahedron_linear] in *;
    unfold truss_linear_nodes, triangle_linear_nodes, tetrahedron_linear_nodes in *; cbn [length] in *;
    (destruct k as [|k]; [cbn [rsum]; ring|]).
  - specialize (CR' 0%nat ltac:(lia)). destruct k as [|k]; [|lia].
    cbn [e_deriv truss_linear] in CR'. unfold truss_linear_deriv, as_matrix in CR'. cbn [rsum nth] in *. lra.
  - specialize (CR' k ltac:(lia)). destruct k as [|[|k]]; [| |lia];
    cbn [e_deriv triangle_linear] in CR'; unfold triangle_linear_deriv, as_matrix in CR'; cbn [rsum nth] in *; lra.
  - specialize (CR' k ltac:(lia)). destruct k as [|[|[|k]]]; [| | |lia];
    cbn [e_deriv tetrahedron_linear] in CR'; unfold tetrahedron_linear_deriv, as_matrix in CR'; cbn [rsum nth] in *; lra.
Qed.
Print Assumptions C99_no_spurious_modes.

(** a distorted quadrilateral with one integration point, stretched by A = [[1, 2], [3, 4]] *)
Definition ex_X (k i : nat) : R := nth i (nth k [[0; 0]; [3; 0]; [2; 2]; [0; 1]] []) 0.
Definition ex_A (i j : nat) : R := nth j (nth i [[1; 2]; [3; 4]] []) 0.
Example quad_hypotheses : usable quad_linear 1 (fun _ => [0; 0]) /\ e_dim quad_linear = 2%nat /\
  forall q, (q < 1)%nat -> 0 < geometry_det quad_linear 2 ex_X [0; 0] * 4.
Proof.
  split; [left; cbn; tauto|]. split; [reflexivity|]. intros q _. unfold geometry_det, leibniz, quad_linear. cbn [e_nodes e_deriv].
  unfold quad_linear_nodes, quad_linear_deriv, ex_X. cbn [length rsum nth]. lra.
Qed.
Example quad_patch : exists strains, cell_Strains quad_linear (flat 2 4 ex_X) quad_linear 2
    (affine 2 ex_A (fun _ => 7) ex_X) 5 1 (fun _ => [0; 0]) = Ok strains /\
  exists v, strains = [Ok v] /\ map v (seq 0 3) = [1; 4; 5].
Proof.
  destruct (C99_patch 2 quad_linear ex_X ex_A (fun _ => 7) 5 1 (fun _ => [0; 0]))
    as (strains & E & L & H).
  - apply quad_hypotheses.
  - reflexivity.
  - intros q Hq. pose proof (proj2 (proj2 quad_hypotheses) q Hq). lra.
  - exists strains. split; [exact E|]. destruct strains as [|s [|s' r]]; try discriminate. destruct (H s) as (v & -> & Hv); [left; reflexivity|].
    exists v. split; [reflexivity|]. change (Voigt_Dim 2) with 3%nat in Hv. rewrite Hv. unfold voigt_components, eps, ex_A. cbn [nth].
    repeat apply f_equal2; try reflexivity; lra.
Qed.
(** the force balance is not void: the cell of one truss of length 2 under unit stress has the forces -1 and 1 *)
Example truss_forces : exists f, cell_Gradient 1 (fun _ _ => Ok (fun _ => 1)) truss_linear (flat 1 2 (fun k _ => 2 * INR k)) truss_linear 1 (fun _ _ => 0) 0 1 (fun _ => [0]) (fun _ => 2) = Ok f
  /\ f 0%nat = -1 /\ f 1%nat = 1.
Proof.
  eexists. split; [unfold cell_Gradient, integrate; cbn -[Rinv Rmult Rplus Rminus Rdiv Ropp INR]; reflexivity|].
  unfold tmat_vec, Voigt_Dim, nabla_gradient, transform_derivatives. cbn [rsum jCols jInv]. unfold as_matrix, as_point, jacobian_matrix. cbn. split; field.
Qed.
