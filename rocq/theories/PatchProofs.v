(** * Proofs for C105: the patch test *)
From Coq Require Import List Arith ZArith Bool Permutation Reals Lra Lia.
From Verif Require Import Outcome RSum Algebra DofModel CellModel CellSpec CellProofs ElasticModel IntegrandModel InterpolationModel EquilibriumModel EquilibriumSpec EquilibriumProofs EquilibriumProofs2
  EquilibriumProofs3 BodyModel BodySpec BodyProofs BodyProofs2.
Import ListNotations.
Local Open Scope R_scope.

(** ** Closed curves and surfaces *)
Lemma count_filter (l : list Z) p : length (filter (fun x => Z.eqb x p) l) = count_occ Z.eq_dec l p.
Proof. induction l as [|x l IH]; [reflexivity|]. cbn [filter count_occ]. destruct (Z.eqb_spec x p), (Z.eq_dec x p); try congruence; cbn [length]; congruence. Qed.
Lemma filter_map_len {A B} (f : A -> B) (P : B -> bool) l : length (filter P (map f l)) = length (filter (fun a => P (f a)) l).
Proof. induction l as [|a l IH]; [reflexivity|]. cbn [map filter]. destruct (P (f a)); cbn [length]; congruence. Qed.
Definition zz_dec : forall x y : Z * Z, {x = y} + {x <> y}.
Proof. decide equality; apply Z.eq_dec. Defined.
Lemma count_filter2 (l : list (Z * Z)) p q : length (filter (fun e => andb (Z.eqb (fst e) p) (Z.eqb (snd e) q)) l) = count_occ zz_dec l (p, q).
Proof.
  induction l as [|(x, y) l IH]; [reflexivity|]. cbn [filter count_occ fst snd].
  destruct (zz_dec (x, y) (p, q)) as [E|N].
  - injection E as -> ->. rewrite !Z.eqb_refl. cbn [andb length]. congruence.
  - destruct (Z.eqb_spec x p), (Z.eqb_spec y q); cbn [andb]; congruence.
Qed.
Lemma rlsum_perm l m : Permutation l m -> rlsum l = rlsum m.
Proof. induction 1; cbn [rlsum]; lra. Qed.

Definition cross_at (x y : nat -> R) (j : nat) : R :=
  match j with 0%nat => x 1%nat * y 2%nat - x 2%nat * y 1%nat | 1%nat => x 2%nat * y 0%nat - x 0%nat * y 2%nat | _ => x 0%nat * y 1%nat - x 1%nat * y 0%nat end.
(** the area vector of an edge *)
Definition edge_vec (d : nat) (x y : nat -> R) (j : nat) : R :=
  match d with
  | 2%nat => match j with 0%nat => x 1%nat - y 1%nat | _ => y 0%nat - x 0%nat end
  | _ => - cross_at x y j
  end.
Definition side_vec (d : nat) (place : Z -> nat -> R) (l : list (Z * Z)) (j : nat) : R := rlsum (map (fun e => edge_vec d (place (fst e)) (place (snd e)) j) l).

Lemma closed_side d place cells a j : (j < d)%nat -> inner_node d cells a ->
  side_vec d place (flat_map (fun c => edges_around (bc_nodes c) a) cells) j = 0.
Proof.
  intros Hj. unfold inner_node. cbv zeta. set (l := flat_map _ cells). destruct d as [|[|[|[|d]]]]; try contradiction; intros H; unfold side_vec.
  - assert (P : Permutation (map fst l) (map snd l)).
    { apply (Permutation_count_occ Z.eq_dec). intros p. rewrite <- !count_filter, !filter_map_len. apply H. }
    assert (S : forall g : Z -> R, rlsum (map (fun e => g (snd e) - g (fst e)) l) = 0).
    { intros g. rewrite (rlsum_ext l _ (fun e => g (snd e) + (- 1) * g (fst e))) by (intros; ring).
      rewrite rlsum_plus, (rlsum_ext l (fun e => -1 * g (fst e)) (fun e => g (fst e) * -1)) by (intros; ring).
      rewrite rlsum_scal_r. rewrite <- (map_map snd g), <- (map_map fst g). rewrite (rlsum_perm _ _ (Permutation_map g P)). ring. }
    destruct j as [|j]; cbn [edge_vec].
    + rewrite <- (S (fun p => - place p 1%nat)). apply rlsum_ext. intros; ring.
    + apply (S (fun p => place p 0%nat)).
  - assert (P : Permutation l (map (fun e => (snd e, fst e)) l)).
    { apply (Permutation_count_occ zz_dec). intros (p, q). rewrite <- !count_filter2, filter_map_len. cbn [fst snd]. rewrite H. f_equal.
      apply filter_ext. intros e. apply andb_comm. }
    assert (E : rlsum (map (fun e => edge_vec 3 (place (fst e)) (place (snd e)) j) l) = rlsum (map (fun e => edge_vec 3 (place (fst e)) (place (snd e)) j * -1) l)).
    { rewrite (rlsum_perm _ _ (Permutation_map _ P)), map_map. apply rlsum_ext. intros e _. cbn [fst snd edge_vec]. unfold cross_at. destruct j as [|[|]]; ring. }
    rewrite rlsum_scal_r in E. lra.
Qed.

(** ** Gradients of the shape functions of a simplex *)
Section Simplex.
  Variables (d : nat) (e : element) (X : nat -> nat -> R) (cellId : Z) (numIps : nat) (ipCoord : nat -> list R) (q : nat).
  Hypotheses (Hq : (q < numIps)%nat) (U : usable e numIps ipCoord) (D : e_dim e = d) (Hdet : geometry_det e d X (ipCoord q) <> 0).
  Let dN := the_dN d e e X cellId ipCoord q.
  Lemma dN_zero b : (b < d)%nat -> rsum (length (e_nodes e)) (fun k => dN k b) = 0.
  Proof.
    intros Hb. pose proof (grad_translation d e e X cellId numIps ipCoord U U D D q (fun _ => 1) 0 b Hq Hb) as T. unfold the_grad in T.
    fold dN in T. rewrite <- T. apply rsum_ext. intros; ring.
  Qed.
  Lemma dN_one a b : (a < d)%nat -> (b < d)%nat -> rsum (length (e_nodes e)) (fun k => dN k b * X k a) = kron a b.
  Proof.
    intros Ha Hb. pose proof (grad_affine d e X cellId numIps ipCoord q kron (fun _ => 0) a b U D Hq Hdet Ha Hb) as T. unfold the_grad in T.
    fold dN in T. rewrite <- T. apply rsum_ext. intros k Hk. f_equal. unfold affine. rewrite Rplus_0_r. rewrite (rsum_single d a _ Ha).
    - unfold kron. rewrite Nat.eqb_refl. ring.
    - intros j Hj Hn. unfold kron. destruct (Nat.eqb_spec a j); [congruence|ring].
  Qed.
End Simplex.

Lemma triangle_grad X cellId numIps ipCoord q : (q < numIps)%nat -> usable triangle_linear numIps ipCoord -> geometry_det triangle_linear 2 X (ipCoord q) <> 0 ->
  let D := geometry_det triangle_linear 2 X (ipCoord q) in let dN := the_dN 2 triangle_linear triangle_linear X cellId ipCoord q in
  forall b, (b < 2)%nat -> D * dN 0%nat b = edge_vec 2 (X 1%nat) (X 2%nat) b /\ D * dN 1%nat b = edge_vec 2 (X 2%nat) (X 0%nat) b /\ D * dN 2%nat b = edge_vec 2 (X 0%nat) (X 1%nat) b.
Proof.
  intros Hq U Hd D dN b Hb.
  pose proof (dN_zero 2 triangle_linear X cellId numIps ipCoord q Hq U eq_refl b Hb) as Z.
  pose proof (dN_one 2 triangle_linear X cellId numIps ipCoord q Hq U eq_refl Hd 0 b ltac:(lia) Hb) as O0.
  pose proof (dN_one 2 triangle_linear X cellId numIps ipCoord q Hq U eq_refl Hd 1 b ltac:(lia) Hb) as O1.
  fold dN in Z, O0, O1. change (length (e_nodes triangle_linear)) with 3%nat in Z, O0, O1. cbn [rsum] in Z, O0, O1.
  assert (ED : D = (X 1%nat 0%nat - X 0%nat 0%nat) * (X 2%nat 1%nat - X 0%nat 1%nat) - (X 2%nat 0%nat - X 0%nat 0%nat) * (X 1%nat 1%nat - X 0%nat 1%nat)).
  { unfold D, geometry_det, leibniz. change (length (e_nodes triangle_linear)) with 3%nat. cbn [e_deriv triangle_linear triangle_linear_deriv rsum nth]. ring. }
  set (g0 := dN 0%nat b) in *. set (g1 := dN 1%nat b) in *. set (g2 := dN 2%nat b) in *. clearbody D g0 g1 g2. clear Hd.
  assert (G0 : g0 = - g1 - g2) by lra. subst g0.
  assert (A0 : g1 * (X 1%nat 0%nat - X 0%nat 0%nat) + g2 * (X 2%nat 0%nat - X 0%nat 0%nat) = kron 0 b) by (rewrite <- O0; ring).
  assert (A1 : g1 * (X 1%nat 1%nat - X 0%nat 1%nat) + g2 * (X 2%nat 1%nat - X 0%nat 1%nat) = kron 1 b) by (rewrite <- O1; ring).
  assert (E1 : D * g1 = (X 2%nat 1%nat - X 0%nat 1%nat) * kron 0 b - (X 2%nat 0%nat - X 0%nat 0%nat) * kron 1 b) by (rewrite <- A0, <- A1, ED; ring).
  assert (E2 : D * g2 = (X 1%nat 0%nat - X 0%nat 0%nat) * kron 1 b - (X 1%nat 1%nat - X 0%nat 1%nat) * kron 0 b) by (rewrite <- A0, <- A1, ED; ring).
  replace (D * (- g1 - g2)) with (- (D * g1) - D * g2) by ring. rewrite E1, E2.
  destruct b as [|[|]]; [| |lia]; cbn [edge_vec]; unfold kron; cbn [Nat.eqb]; repeat split; ring.
Qed.

Lemma tetra_grad X cellId numIps ipCoord q : (q < numIps)%nat -> usable tetrahedron_linear numIps ipCoord -> geometry_det tetrahedron_linear 3 X (ipCoord q) <> 0 ->
  let D := geometry_det tetrahedron_linear 3 X (ipCoord q) in let dN := the_dN 3 tetrahedron_linear tetrahedron_linear X cellId ipCoord q in
  let face x y z j := edge_vec 3 (X x) (X y) j + edge_vec 3 (X y) (X z) j + edge_vec 3 (X z) (X x) j in
  forall b, (b < 3)%nat -> D * dN 0%nat b = face 1%nat 2%nat 3%nat b /\ D * dN 1%nat b = face 0%nat 3%nat 2%nat b /\
    D * dN 2%nat b = face 0%nat 1%nat 3%nat b /\ D * dN 3%nat b = face 0%nat 2%nat 1%nat b.
Proof.
  intros Hq U Hd D dN face b Hb.
  pose proof (dN_zero 3 tetrahedron_linear X cellId numIps ipCoord q Hq U eq_refl b Hb) as Z.
  pose proof (dN_one 3 tetrahedron_linear X cellId numIps ipCoord q Hq U eq_refl Hd 0 b ltac:(lia) Hb) as O0.
  pose proof (dN_one 3 tetrahedron_linear X cellId numIps ipCoord q Hq U eq_refl Hd 1 b ltac:(lia) Hb) as O1.
  pose proof (dN_one 3 tetrahedron_linear X cellId numIps ipCoord q Hq U eq_refl Hd 2 b ltac:(lia) Hb) as O2.
  fold dN in Z, O0, O1, O2. change (length (e_nodes tetrahedron_linear)) with 4%nat in Z, O0, O1, O2. cbn [rsum] in Z, O0, O1, O2.
  set (p := fun k i => X k i - X 0%nat i).
  assert (ED : D = leibniz 3 (fun i j => p (S j) i)).
  { unfold D, geometry_det, leibniz, p. change (length (e_nodes tetrahedron_linear)) with 4%nat. cbn [e_deriv tetrahedron_linear tetrahedron_linear_deriv rsum nth]. ring. }
  set (g0 := dN 0%nat b) in *. set (g1 := dN 1%nat b) in *. set (g2 := dN 2%nat b) in *. set (g3 := dN 3%nat b) in *. clearbody D g0 g1 g2 g3. clear Hd.
  assert (G0 : g0 = - g1 - g2 - g3) by lra. subst g0.
  assert (A0 : g1 * p 1%nat 0%nat + g2 * p 2%nat 0%nat + g3 * p 3%nat 0%nat = kron 0 b) by (rewrite <- O0; unfold p; ring).
  assert (A1 : g1 * p 1%nat 1%nat + g2 * p 2%nat 1%nat + g3 * p 3%nat 1%nat = kron 1 b) by (rewrite <- O1; unfold p; ring).
  assert (A2 : g1 * p 1%nat 2%nat + g2 * p 2%nat 2%nat + g3 * p 3%nat 2%nat = kron 2 b) by (rewrite <- O2; unfold p; ring).
  assert (E1 : D * g1 = cross_at (p 2%nat) (p 3%nat) 0 * kron 0 b + cross_at (p 2%nat) (p 3%nat) 1 * kron 1 b + cross_at (p 2%nat) (p 3%nat) 2 * kron 2 b) by (rewrite <- A0, <- A1, <- A2, ED; unfold leibniz, cross_at; ring).
  assert (E2 : D * g2 = cross_at (p 3%nat) (p 1%nat) 0 * kron 0 b + cross_at (p 3%nat) (p 1%nat) 1 * kron 1 b + cross_at (p 3%nat) (p 1%nat) 2 * kron 2 b) by (rewrite <- A0, <- A1, <- A2, ED; unfold leibniz, cross_at; ring).
  assert (E3 : D * g3 = cross_at (p 1%nat) (p 2%nat) 0 * kron 0 b + cross_at (p 1%nat) (p 2%nat) 1 * kron 1 b + cross_at (p 1%nat) (p 2%nat) 2 * kron 2 b) by (rewrite <- A0, <- A1, <- A2, ED; unfold leibniz, cross_at; ring).
  replace (D * (- g1 - g2 - g3)) with (- (D * g1) - D * g2 - D * g3) by ring. rewrite E1, E2, E3. unfold face.
  destruct b as [|[|[|]]]; [| | |lia]; cbn [edge_vec]; unfold cross_at, kron, p; cbn [Nat.eqb]; repeat split; ring.
Qed.

(** ** The force of a cell at a node *)
Definition voigt_work (d : nat) (s : vec) (i : nat) (v : nat -> R) : R :=
  rsum (Voigt_Dim d) (fun m => s m * nth m (voigt_components d (fun a b => if Nat.eqb a i then v b else 0)) 0).
Lemma voigt_work_add d s i v w : voigt_work d s i (fun j => v j + w j) = voigt_work d s i v + voigt_work d s i w.
Proof.
  unfold voigt_work. rewrite <- rsum_plus. apply rsum_ext. intros m _. rewrite <- Rmult_plus_distr_l. f_equal.
  destruct d as [|[|[|[|d]]]]; cbn [voigt_components]; do 7 (destruct m as [|m]; cbn [nth]; unfold eps; try (repeat match goal with |- context[Nat.eqb ?x i] => destruct (Nat.eqb x i) end; lra)).
Qed.
Lemma voigt_work_zero d s i v : (1 <= d <= 3)%nat -> (forall j, (j < d)%nat -> v j = 0) -> voigt_work d s i v = 0.
Proof.
  intros Hd H. unfold voigt_work. apply rsum_zero. intros m _. replace (nth m _ 0) with 0; [ring|].
  destruct d as [|[|[|[|d]]]]; try lia; cbn [voigt_components]; pose proof (H 0%nat) as H0; pose proof (H 1%nat) as H1; pose proof (H 2%nat) as H2;
    try specialize (H0 ltac:(lia)); try specialize (H1 ltac:(lia)); try specialize (H2 ltac:(lia));
    do 7 (destruct m as [|m]; cbn [nth]; unfold eps; try (rewrite ?H0, ?H1, ?H2; repeat match goal with |- context[Nat.eqb ?x i] => destruct (Nat.eqb x i) end; lra)).
Qed.
Lemma voigt_work_ext d s i v w : (1 <= d <= 3)%nat -> (forall j, (j < d)%nat -> v j = w j) -> voigt_work d s i v = voigt_work d s i w.
Proof.
  intros Hd H. unfold voigt_work. apply rsum_ext. intros m _. f_equal.
  destruct d as [|[|[|[|d]]]]; try lia; cbn [voigt_components]; unfold eps; rewrite ?(H 0%nat), ?(H 1%nat), ?(H 2%nat) by lia; reflexivity.
Qed.

Lemma voigt_scale d D G m : (1 <= d <= 3)%nat -> nth m (voigt_components d (fun a b => D * G a b)) 0 = D * nth m (voigt_components d G) 0.
Proof.
  intros Hd. destruct d as [|[|[|[|d]]]]; try lia; cbn [voigt_components];
    do 7 (destruct m as [|m]; cbn [nth]; unfold eps; try lra).
Qed.

Lemma sum_at3 (l : list Z) a (g : nat -> R) p q r : l = [p; q; r] -> NoDup l ->
  rsum 3 (fun k => if Z.eqb (nth k l 0%Z) a then g k else 0) = if Z.eqb a p then g 0%nat else if Z.eqb a q then g 1%nat else if Z.eqb a r then g 2%nat else 0.
Proof.
  intros -> ND. cbn [rsum nth]. inversion ND as [|? ? N1 ND1]; subst. inversion ND1 as [|? ? N2 ND2]; subst. cbn in N1, N2.
  destruct (Z.eqb_spec p a), (Z.eqb_spec q a), (Z.eqb_spec r a), (Z.eqb_spec a p), (Z.eqb_spec a q), (Z.eqb_spec a r); subst; try congruence; try ring; exfalso; intuition congruence.
Qed.
Lemma sum_at4 (l : list Z) a (g : nat -> R) p q r s : l = [p; q; r; s] -> NoDup l ->
  rsum 4 (fun k => if Z.eqb (nth k l 0%Z) a then g k else 0) = if Z.eqb a p then g 0%nat else if Z.eqb a q then g 1%nat else if Z.eqb a r then g 2%nat else if Z.eqb a s then g 3%nat else 0.
Proof.
  intros -> ND. cbn [rsum nth]. inversion ND as [|? ? N1 ND1]; subst. inversion ND1 as [|? ? N2 ND2]; subst. inversion ND2 as [|? ? N3 ND3]; subst. cbn in N1, N2, N3.
  rewrite (Z.eqb_sym p a), (Z.eqb_sym q a), (Z.eqb_sym r a), (Z.eqb_sym s a).
  destruct (Z.eqb_spec a p), (Z.eqb_spec a q), (Z.eqb_spec a r), (Z.eqb_spec a s); subst; try congruence; try ring; exfalso; intuition congruence.
Qed.

Lemma simplex_grad d e X cellId numIps ipCoord q nodes place a b : (d = 2%nat /\ e = triangle_linear) \/ (d = 3%nat /\ e = tetrahedron_linear) ->
  (q < numIps)%nat -> usable e numIps ipCoord -> geometry_det e d X (ipCoord q) <> 0 -> NoDup nodes -> length nodes = length (e_nodes e) ->
  (forall k, (k < length (e_nodes e))%nat -> place (nth k nodes 0%Z) = X k) -> (b < d)%nat ->
  rsum (length (e_nodes e)) (fun k => if Z.eqb (nth k nodes 0%Z) a then geometry_det e d X (ipCoord q) * the_dN d e e X cellId ipCoord q k b else 0) =
  side_vec d place (edges_around nodes a) b.
Proof.
  intros [(-> & ->)|(-> & ->)] Hq U Hd ND Ln Ip Hb.
  - change (length (e_nodes triangle_linear)) with 3%nat in *. destruct nodes as [|p [|q1 [|r [|]]]]; try discriminate Ln.
    rewrite (sum_at3 [p; q1; r] a _ p q1 r eq_refl ND).
    destruct (triangle_grad X cellId numIps ipCoord q Hq U Hd b Hb) as (T0 & T1 & T2).
    rewrite T0, T1, T2. rewrite <- (Ip 0%nat), <- (Ip 1%nat), <- (Ip 2%nat) by lia. cbn [nth]. unfold edges_around.
    destruct (Z.eqb a p); [unfold side_vec; cbn [map rlsum fst snd]; ring|].
    destruct (Z.eqb a q1); [unfold side_vec; cbn [map rlsum fst snd]; ring|].
    destruct (Z.eqb a r); unfold side_vec; cbn [map rlsum fst snd]; ring.
  - change (length (e_nodes tetrahedron_linear)) with 4%nat in *. destruct nodes as [|p [|q1 [|r [|s [|]]]]]; try discriminate Ln.
    rewrite (sum_at4 [p; q1; r; s] a _ p q1 r s eq_refl ND).
    destruct (tetra_grad X cellId numIps ipCoord q Hq U Hd b Hb) as (T0 & T1 & T2 & T3).
    rewrite T0, T1, T2, T3. rewrite <- (Ip 0%nat), <- (Ip 1%nat), <- (Ip 2%nat), <- (Ip 3%nat) by lia. cbn [nth]. unfold edges_around.
    destruct (Z.eqb a p); [unfold side_vec; cbn [map rlsum fst snd]; ring|].
    destruct (Z.eqb a q1); [unfold side_vec; cbn [map rlsum fst snd]; ring|].
    destruct (Z.eqb a r); [unfold side_vec; cbn [map rlsum fst snd]; ring|].
    destruct (Z.eqb a s); unfold side_vec; cbn [map rlsum fst snd]; ring.
Qed.

Lemma simplex_force d coordinate place stress sigma0 A b c f a i : solid d c -> isoparametric coordinate place c -> regular d coordinate c -> simplex d c ->
  length (bc_nodes c) = length (e_nodes (bc_element c)) -> (i < d)%nat ->
  (forall ip s, map s (seq 0 (Voigt_Dim d)) = voigt_components d A -> exists sigma, stress ip s = Ok sigma /\ forall m, (m < Voigt_Dim d)%nat -> sigma m = sigma0 m) ->
  cell_Forces d coordinate (affine_at d A b place) stress c = Ok f ->
  nodal_work d (length (e_nodes (bc_element c))) f (fun k => unit_at a i (nth k (bc_nodes c) 0%Z)) =
  rsum (bc_numIps c) (bc_ipWeight c) * voigt_work d sigma0 i (side_vec d place (edges_around (bc_nodes c) a)).
Proof.
  intros (Ux & Uu & Dx & Du) (Ie & Ip) Rg (ND & Sim) Ln Hi Hs Ef. unfold cell_Forces in Ef. unfold regular, det_at in Rg. rewrite Ie in *.
  set (e := bc_geometry c) in *. set (X := fun k => coordinate (nth k (bc_coordinateNodes c) 0%Z)) in *.
  destruct (virtual_work d stress e e X _ _ _ _ _ f Ux Ux Dx Dx Ef) as (sigma & Es & W). rewrite W. clear W.
  rewrite Rmult_comm, <- rsum_scal. apply rsum_ext. intros q Hq.
  assert (Rd : (1 <= d <= 3)%nat) by (destruct Sim as [(-> & _)|(-> & _)]; lia).
  assert (Sg : forall m, (m < Voigt_Dim d)%nat -> sigma q m = sigma0 m).
  { destruct (Hs (the_ip d e X (bc_id c) (bc_ipCoord c) q) (the_strain d e e X (bc_id c) (bc_ipCoord c) q (cell_values (affine_at d A b place) c))) as (s & E1 & E2).
    - destruct (B_facts d e e X (bc_id c) (bc_numIps c) (bc_ipCoord c) Ux Dx q) as (_ & HB). rewrite HB. apply voigt_ext; [exact Rd|].
      intros a' b' Ha' Hb'. rewrite <- (grad_affine d e X (bc_id c) (bc_numIps c) (bc_ipCoord c) q A b a' b' Ux Dx Hq (Rg q Hq) Ha' Hb').
      unfold the_grad. apply rsum_ext. intros k Hk. f_equal. unfold cell_values, affine_at, affine, X. rewrite (Ip k Hk). reflexivity.
    - specialize (Es q Hq). rewrite E1 in Es. injection Es as <-. exact E2. }
  set (w := fun k : nat => unit_at a i (nth k (bc_nodes c) 0%Z)).
  set (D := geometry_det e d X (bc_ipCoord c q)).
  assert (St : forall m, (m < Voigt_Dim d)%nat -> the_strain d e e X (bc_id c) (bc_ipCoord c) q w m = nth m (voigt_components d (the_grad d e e X (bc_id c) (bc_ipCoord c) q w)) 0).
  { intros m Hm. destruct (B_facts d e e X (bc_id c) (bc_numIps c) (bc_ipCoord c) Ux Dx q) as (_ & HB). rewrite <- HB.
    rewrite (nth_indep _ 0 (the_strain d e e X (bc_id c) (bc_ipCoord c) q w 0%nat)) by (rewrite map_length, seq_length; exact Hm). rewrite map_nth, seq_nth by exact Hm. reflexivity. }
  assert (Gr : forall a' b', (a' < d)%nat -> (b' < d)%nat ->
     D * the_grad d e e X (bc_id c) (bc_ipCoord c) q w a' b' = if Nat.eqb a' i then side_vec d place (edges_around (bc_nodes c) a) b' else 0).
  { intros a' b' Ha' Hb'. unfold the_grad. rewrite <- rsum_scal.
    rewrite (rsum_ext _ _ (fun k => if Nat.eqb a' i then (if Z.eqb (nth k (bc_nodes c) 0%Z) a then D * the_dN d e e X (bc_id c) (bc_ipCoord c) q k b' else 0) else 0)).
    2:{ intros k Hk. unfold w, unit_at. destruct (Z.eqb _ a), (Nat.eqb a' i); cbn [andb]; ring. }
    destruct (Nat.eqb a' i); [|apply rsum_zero; reflexivity].
    apply (simplex_grad d e X (bc_id c) (bc_numIps c) (bc_ipCoord c) q (bc_nodes c) place a b' Sim Hq Ux (Rg q Hq) ND Ln Ip Hb'). }
  rewrite <- Rmult_assoc. f_equal. unfold voigt_work. rewrite <- rsum_scal_r. apply rsum_ext. intros m Hm. rewrite (Sg m Hm), (St m Hm), Rmult_assoc. f_equal.
  rewrite (Rmult_comm _ D). rewrite <- voigt_scale by exact Rd. f_equal. apply voigt_ext; [exact Rd|exact Gr].
Qed.
