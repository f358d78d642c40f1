(** * Proofs for C99: the strain matrix of a cell, virtual work *)
From Coq Require Import List Arith ZArith Reals Lra Lia.
From Verif Require Import Outcome RSum CellModel CellSpec CellProofs CellProofs2 ElasticModel IntegrandModel InterpolationModel
  InterpolationSpec PropInterpolation EquilibriumModel EquilibriumSpec EquilibriumProofs.
Import ListNotations.
Local Open Scope R_scope.

Lemma leibniz_ext_lt d A B : (1 <= d <= 3)%nat -> (forall i l, (i < d)%nat -> A i l = B i l) -> leibniz d A = leibniz d B.
Proof. intros Hd H. destruct d as [|[|[|[|d]]]]; try lia; simpl; rewrite ?H by lia; reflexivity. Qed.

Section Setup.
  Variables (d : nat) (ex eu : element) (X : nat -> nat -> R) (cellId : Z) (numIps : nat) (ipCoord : nat -> list R) (ipWeight : nat -> R).
  Let nx := length (e_nodes ex).
  Let nu := length (e_nodes eu).
  Let coords := flat d nx X.
  Let dSh := fun x : list R => as_matrix (e_deriv ex (as_point x)).

  Definition the_ip (q : nat) : ipdata :=
    match make_ip cellId ipCoord coords nx (e_dim ex) dSh q with
    | Ok p => p | _ => mkIp 0 0 [] (mkJac 0 0 (fun _ _ => 0) (fun _ _ => 0) 0 None) end.
  Definition the_B (q : nat) : mfun := match ip_B eu d (the_ip q) with Ok B => B | _ => fun _ _ => 0 end.
  Definition the_dN (q : nat) : mfun := transform_derivatives (ipJac (the_ip q)) (as_matrix (e_deriv eu (as_point (ipCoord q)))).
  Definition the_grad (q : nat) (w : nat -> nat -> R) : mfun := fun a b => rsum nu (fun k => the_dN q k b * w k a).
  Definition the_strain (q : nat) (w : nat -> nat -> R) : vec := strain_of (nu * d) (the_B q) (node_values eu d w).

  Hypotheses (Ux : usable ex numIps ipCoord) (Uu : usable eu numIps ipCoord) (Dx : e_dim ex = d) (Du : e_dim eu = d).

  Lemma coords_length : length coords = (nx * d)%nat.
  Proof. unfold coords, flat. apply (flat_blocks_length (fun k i => X k i)). Qed.
  Lemma coords_nth k i : (k < nx)%nat -> (i < d)%nat -> nth (k * d + i) coords 0 = X k i.
  Proof. intros. unfold coords, flat. apply nth_flat_blocks; assumption. Qed.
  Lemma d_range : (1 <= d <= 3)%nat.
  Proof. rewrite <- Dx. apply (usable_facts _ _ _ Ux). Qed.
  Lemma nx_pos : (0 < nx)%nat.
  Proof. apply (usable_facts _ _ _ Ux). Qed.

  Lemma ip_facts q : 
    make_ip cellId ipCoord coords nx (e_dim ex) dSh q = Ok (the_ip q) /\ ipCoords (the_ip q) = ipCoord q /\ ipId (the_ip q) = q /\
    jRows (ipJac (the_ip q)) = d /\ jCols (ipJac (the_ip q)) = d /\ jDet (ipJac (the_ip q)) = geometry_det ex d X (ipCoord q) /\
    (geometry_det ex d X (ipCoord q) <> 0 -> forall a b, (a < d)%nat -> (b < d)%nat ->
       rsum d (fun l => rsum nx (fun k => dSh (ipCoord q) k l * X k a) * jInv (ipJac (the_ip q)) l b) = kron a b).
  Proof.
    destruct (square_jacobian d nx coords (dSh (ipCoord q)) d_range nx_pos coords_length) as (j & E & Hr & Hc & HG & HD & HI).
    assert (M : make_ip cellId ipCoord coords nx (e_dim ex) dSh q = Ok (mkIp cellId q (ipCoord q) j)).
    { unfold make_ip. rewrite Dx. fold nx. rewrite E. reflexivity. }
    assert (T : the_ip q = mkIp cellId q (ipCoord q) j) by (unfold the_ip; rewrite M; reflexivity).
    rewrite T. cbn [ipCoords ipId ipJac]. rewrite Hr, Hc.
    assert (GD : jDet j = geometry_det ex d X (ipCoord q)).
    { rewrite HD. unfold geometry_det, geometry_derivative.
      apply leibniz_ext_lt; [exact d_range|]. intros i l Hi. apply rsum_ext. intros k Hk. rewrite coords_nth by assumption. reflexivity. }
    repeat split; [exact M|exact GD|]. intros H a b Ha Hb. rewrite <- GD in H.
    destruct (HI H a b Ha Hb) as (_ & HI2). rewrite <- HI2. unfold mmul. apply rsum_ext. intros l Hl. f_equal.
    rewrite HG. unfold geometry_derivative. apply rsum_ext. intros k Hk. rewrite coords_nth by assumption. reflexivity.
  Qed.

  Lemma B_facts q : ip_B eu d (the_ip q) = Ok (the_B q) /\
    forall w, map (the_strain q w) (seq 0 (Voigt_Dim d)) = voigt_components d (the_grad q w).
  Proof.
    destruct (ip_facts q) as (_ & Hc & _ & Hr & _).
    destruct (nabla_strain_ok d nu (the_dN q) d_range) as (B & E).
    assert (M : ip_B eu d (the_ip q) = Ok B).
    { unfold ip_B, numDofNodes. fold nu. rewrite Hr, Hc, Nat.eqb_refl. fold (the_dN q). rewrite E. reflexivity. }
    assert (T : the_B q = B) by (unfold the_B; rewrite M; reflexivity).
    rewrite T. split; [exact M|]. intros w. etransitivity; [|exact (strain_product d nu (the_dN q) (Voigt_Dim d) B w E)].
    unfold the_strain. rewrite T. reflexivity.
  Qed.

  (** translations have no gradient *)
  Lemma grad_translation q b a c : (q < numIps)%nat -> (c < d)%nat -> the_grad q (fun _ => b) a c = 0.
  Proof.
    intros Hq Hc. unfold the_grad. rewrite rsum_scal_r.
    replace (rsum nu (fun k => the_dN q k c)) with 0; [lra|]. symmetry.
    unfold the_dN, transform_derivatives. rewrite rsum_swap. destruct (ip_facts q) as (_ & _ & _ & _ & HC & _). rewrite HC.
    apply rsum_zero. intros l Hl. rewrite rsum_scal_r. unfold nu.
    rewrite (proj2 (proj2 (usable_facts _ _ _ Uu)) q Hq l) by (rewrite Du; exact Hl). lra.
  Qed.
End Setup.

(** isoparametric elements: the gradient of an affine field *)
Lemma grad_affine d e X cellId numIps ipCoord q A b a c : usable e numIps ipCoord -> e_dim e = d -> (q < numIps)%nat ->
  geometry_det e d X (ipCoord q) <> 0 -> (a < d)%nat -> (c < d)%nat ->
  the_grad d e e X cellId ipCoord q (affine d A b X) a c = A a c.
Proof.
  intros U D Hq Hdet Ha Hc. unfold the_grad, affine.
  rewrite (rsum_ext _ _ (fun k => rsum d (fun j => A a j * (the_dN d e e X cellId ipCoord q k c * X k j)) + the_dN d e e X cellId ipCoord q k c * b a))
    by (intros k Hk; rewrite Rmult_plus_distr_l, <- rsum_scal; f_equal; apply rsum_ext; intros; ring).
  rewrite rsum_plus.
  pose proof (grad_translation d e e X cellId numIps ipCoord U U D D q b a c Hq Hc) as T. unfold the_grad in T. rewrite T, Rplus_0_r. clear T.
  rewrite rsum_swap.
  rewrite (rsum_single d c _ Hc).
  - rewrite rsum_scal. replace (rsum _ _) with 1; [ring|]. symmetry.
    unfold the_dN, transform_derivatives. destruct (ip_facts d e X cellId numIps ipCoord U D q) as (_ & _ & _ & _ & HC & _ & HI).
    rewrite HC. specialize (HI Hdet c c Hc Hc). unfold kron in HI. rewrite Nat.eqb_refl in HI. rewrite <- HI.
    rewrite (rsum_ext _ _ (fun k => rsum d (fun l => as_matrix (e_deriv e (as_point (ipCoord q))) k l * X k c * jInv (ipJac (the_ip d e X cellId ipCoord q)) l c)))
      by (intros; rewrite <- rsum_scal_r; apply rsum_ext; intros; ring).
    rewrite rsum_swap. apply rsum_ext. intros l Hl. rewrite rsum_scal_r. reflexivity.
  - intros j Hj Hne. rewrite rsum_scal. replace (rsum _ _) with 0; [ring|]. symmetry.
    unfold the_dN, transform_derivatives. destruct (ip_facts d e X cellId numIps ipCoord U D q) as (_ & _ & _ & _ & HC & _ & HI).
    rewrite HC. specialize (HI Hdet j c Hj Hc). unfold kron in HI. destruct (Nat.eqb_spec j c); [congruence|]. rewrite <- HI.
    rewrite (rsum_ext _ _ (fun k => rsum d (fun l => as_matrix (e_deriv e (as_point (ipCoord q))) k l * X k j * jInv (ipJac (the_ip d e X cellId ipCoord q)) l c)))
      by (intros; rewrite <- rsum_scal_r; apply rsum_ext; intros; ring).
    rewrite rsum_swap. apply rsum_ext. intros l Hl. rewrite rsum_scal_r. reflexivity.
Qed.

(** ** Virtual work of the internal forces *)
Lemma work_as_sum d n f w : nodal_work d n f w = rsum (n * d) (fun a => f a * nth a (extract_node_values d n w) 0).
Proof.
  rewrite rsum_blocks. unfold nodal_work. apply rsum_ext. intros k Hk. apply rsum_ext. intros i Hi. f_equal.
  symmetry. apply nth_flat_blocks; assumption.
Qed.

Lemma virtual_work d stress ex eu X cellId numIps ipCoord ipWeight U f :
  usable ex numIps ipCoord -> usable eu numIps ipCoord -> e_dim ex = d -> e_dim eu = d ->
  cell_Gradient d stress ex (flat d (length (e_nodes ex)) X) eu d U cellId numIps ipCoord ipWeight = Ok f ->
  exists sigma : nat -> vec,
    (forall q, (q < numIps)%nat -> stress (the_ip d ex X cellId ipCoord q) (the_strain d ex eu X cellId ipCoord q U) = Ok (sigma q)) /\
    forall w, nodal_work d (length (e_nodes eu)) f w =
      rsum numIps (fun q => rsum (Voigt_Dim d) (fun i => sigma q i * the_strain d ex eu X cellId ipCoord q w i) * (geometry_det ex d X (ipCoord q) * ipWeight q)).
Proof.
  intros Ux Uu Dx Du E. unfold cell_Gradient, integrate in E.
  set (ip := the_ip d ex X cellId ipCoord) in *. set (B := the_B d ex eu X cellId ipCoord).
  assert (Hm : forall q, In q (seq 0 numIps) -> make_ip cellId ipCoord (flat d (length (e_nodes ex)) X) (length (e_nodes ex)) (e_dim ex)
                (fun x => as_matrix (e_deriv ex (as_point x))) q = Ok (ip q)).
  { intros q _. apply (ip_facts d ex X cellId numIps ipCoord Ux Dx q). }
  pose proof (vec_loop_inv _ _ _ _ _ _ _ ip _ _ Hm _ _ E) as Hv.
  set (sg := fun q => match stress (ip q) (the_strain d ex eu X cellId ipCoord q U) with Ok s => s | _ => fun _ => 0 end).
  assert (Hs : forall q, (q < numIps)%nat -> stress (ip q) (the_strain d ex eu X cellId ipCoord q U) = Ok (sg q) /\
                ip_Gradient d stress eu d U (ip q) = Ok (tmat_vec (Voigt_Dim d) (B q) (sg q))).
  { intros q Hq. destruct (Hv q) as (v & Ev); [apply in_seq; lia|]. unfold ip_Gradient in *.
    destruct (B_facts d ex eu X cellId numIps ipCoord Ux Dx q) as (EB & _). fold ip in EB. rewrite EB in *. cbn [obind] in *. rewrite Nat.eqb_refl in *.
    unfold mb_Gradient in *. change (strain_of (numDofs eu d) (the_B d ex eu X cellId ipCoord q) (node_values eu d U))
      with (the_strain d ex eu X cellId ipCoord q U) in *. unfold sg.
    destruct (stress (ip q) (the_strain d ex eu X cellId ipCoord q U)); cbn [omap obind] in *; try discriminate. split; reflexivity. }
  exists sg. split; [intros; apply Hs; assumption|]. intros w.
  destruct (vec_loop_Ok cellId ipCoord ipWeight _ _ _ _ ip _ (fun q => tmat_vec (Voigt_Dim d) (B q) (sg q)) (seq 0 numIps) Hm
              (fun q Hq => proj2 (Hs q ltac:(apply in_seq in Hq; lia))) (fun _ => 0)) as (h & E' & V).
  assert (Hf : Ok f = Ok h) by exact (eq_trans (eq_sym E) E'). injection Hf as <-. rewrite work_as_sum.
  rewrite (rsum_ext _ _ (fun a => rsum numIps (fun q => rsum (Voigt_Dim d) (fun i => sg q i * (B q i a * nth a (extract_node_values d (length (e_nodes eu)) w) 0)) * (jDet (ipJac (ip q)) * ipWeight q)))).
  - rewrite rsum_swap. apply rsum_ext. intros q Hq. rewrite rsum_scal_r. f_equal.
    + rewrite rsum_swap. apply rsum_ext. intros i Hi. rewrite rsum_scal. reflexivity.
    + f_equal. apply (ip_facts d ex X cellId numIps ipCoord Ux Dx q).
  - intros a Ha. rewrite V, rlsum_map_seq, Rplus_0_l, <- rsum_scal_r. apply rsum_ext. intros q Hq. unfold tmat_vec.
    rewrite <- !rsum_scal_r. apply rsum_ext. intros i Hi. ring.
Qed.
