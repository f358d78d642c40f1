From Coq Require Import Arith ZArith Bool Reals Lra Lia FunctionalExtensionality.
From Coq Require Import List.
From Verif Require Import RSum Outcome AdaptiveModel ShapeModel InterpolationModel InterpolationSpec InterpolationProofs CompanionModel CompanionSpec.
Import ListNotations.
Local Open Scope R_scope.

(** ** the trace of an element on a facet is the Lagrange interpolation of the nodes there *)
Definition fits (e : element) (s : eshape) (order : Z) (c : list nat) : Prop :=
  exists sigma, length sigma = length (facet_points order (length c)) /\
    (forall k, (k < length sigma)%nat -> node_on e s order c (nth k sigma 0%nat) k) /\
    forall xi, on_facet (length c) xi -> forall v,
      value e v (facet_map s c xi) = rsum (length sigma) (fun k => nth k (facet_basis order (length c) xi) 0 * v (nth k sigma 0%nat)).

Lemma fits_intro e s order c sigma : length sigma = length (facet_points order (length c)) ->
  (forall k, (k < length sigma)%nat -> node_on e s order c (nth k sigma 0%nat) k) ->
  (forall xi, on_facet (length c) xi -> forall i, (i < length (e_nodes e))%nat ->
     nth i (e_shape e (facet_map s c xi)) 0 = rsum (length sigma) (fun k => nth k (facet_basis order (length c) xi) 0 * (if Nat.eqb (nth k sigma 0%nat) i then 1 else 0))) ->
  fits e s order c.
Proof.
  intros H1 H2 H3. exists sigma. split; [exact H1|]. split; [exact H2|]. intros xi Hx v. unfold value.
  rewrite (rsum_ext _ _ (fun i => rsum (length sigma) (fun k => nth k (facet_basis order (length c) xi) 0 * (if Nat.eqb (nth k sigma 0%nat) i then 1 else 0) * v i))).
  - rewrite rsum_swap. apply rsum_ext. intros k Hk. destruct (H2 k Hk) as (Hi & _).
    rewrite (rsum_single _ (nth k sigma 0%nat)); [|exact Hi|].
    + rewrite Nat.eqb_refl. ring.
    + intros i Hi' Hne. replace (Nat.eqb (nth k sigma 0%nat) i) with false; [ring|]. symmetry. apply Nat.eqb_neq. congruence.
  - intros i Hi. rewrite H3 by assumption. rewrite <- rsum_scal_r. reflexivity.
Qed.

Ltac facet := cbv [facet_map facet_basis facet_points shape_corners Z.eqb Pos.eqb rsum app length nth Nat.eqb at_node
  truss_linear truss_linear_nodes truss_linear_shape truss_quadratic truss_quadratic_nodes truss_quadratic_shape
  triangle_linear triangle_linear_nodes triangle_linear_shape triangle_quadratic triangle_quadratic_nodes triangle_quadratic_shape
  quad_linear quad_linear_nodes quad_linear_shape quad_serendipity quad_serendipity_nodes quad_serendipity_shape
  tetrahedron_linear tetrahedron_linear_nodes tetrahedron_linear_shape tetrahedron_quadratic tetrahedron_quadratic_nodes tetrahedron_quadratic_shape
  brick_linear brick_linear_nodes brick_linear_shape prism_linear prism_linear_nodes prism_linear_shape prism_quadratic prism_quadratic_nodes prism_quadratic_shape
  pyramid_linear pyramid_linear_nodes pyramid_linear_shape e_dim e_nodes e_shape].
Ltac shape_case := intros xi Hx i Hi; cbv [e_nodes length triangle_linear triangle_linear_nodes triangle_quadratic triangle_quadratic_nodes quad_linear quad_linear_nodes
    quad_serendipity quad_serendipity_nodes tetrahedron_linear tetrahedron_linear_nodes tetrahedron_quadratic tetrahedron_quadratic_nodes brick_linear brick_linear_nodes
    prism_linear prism_linear_nodes prism_quadratic prism_quadratic_nodes pyramid_linear pyramid_linear_nodes] in Hi;
  cases i Hi; facet; try field.
Ltac node_case := let k := fresh "k" in intros k Hk; cbn [length] in Hk; cases k Hk; (split; [cbn; lia|]);
  let d := fresh "d" in intros d; do 3 (destruct d as [|d]; [facet; field|]); destruct d; facet; field.
Ltac pyramid_base := match goal with |- context [Req_EM_T ?a ?b] => let E := fresh in destruct (Req_EM_T a b) as [E|E]; [exfalso; lra|field; lra] end.
Ltac pyramid_case H := cbv [on_facet length] in H;
  match goal with |- context [Req_EM_T ?a ?b] => let E := fresh in destruct (Req_EM_T a b) as [E|E];
  [match type of H with 0 <= ?u /\ 0 <= ?v /\ _ => let V := fresh in let U := fresh in assert (V : v = 1) by lra; assert (U : u = 0) by lra; rewrite U, V; field end|field; lra] end.
Lemma triangle_linear_fits c : In c (facets STriangle) -> fits triangle_linear STriangle 1%Z c.
Proof.
  intros H; cbn [facets In] in H. repeat (destruct H as [H|H]; [subst c|]); [..|destruct H].
  - apply (fits_intro _ _ _ _ [0; 1]%nat); [reflexivity|node_case|shape_case].
  - apply (fits_intro _ _ _ _ [1; 2]%nat); [reflexivity|node_case|shape_case].
  - apply (fits_intro _ _ _ _ [2; 0]%nat); [reflexivity|node_case|shape_case].
Qed.
Lemma triangle_quadratic_fits c : In c (facets STriangle) -> fits triangle_quadratic STriangle 2%Z c.
Proof.
  intros H; cbn [facets In] in H. repeat (destruct H as [H|H]; [subst c|]); [..|destruct H].
  - apply (fits_intro _ _ _ _ [0; 1; 3]%nat); [reflexivity|node_case|shape_case].
  - apply (fits_intro _ _ _ _ [1; 2; 4]%nat); [reflexivity|node_case|shape_case].
  - apply (fits_intro _ _ _ _ [2; 0; 5]%nat); [reflexivity|node_case|shape_case].
Qed.
Lemma quad_linear_fits c : In c (facets SQuadrilateral) -> fits quad_linear SQuadrilateral 1%Z c.
Proof.
  intros H; cbn [facets In] in H. repeat (destruct H as [H|H]; [subst c|]); [..|destruct H].
  - apply (fits_intro _ _ _ _ [0; 1]%nat); [reflexivity|node_case|shape_case].
  - apply (fits_intro _ _ _ _ [1; 2]%nat); [reflexivity|node_case|shape_case].
  - apply (fits_intro _ _ _ _ [2; 3]%nat); [reflexivity|node_case|shape_case].
  - apply (fits_intro _ _ _ _ [3; 0]%nat); [reflexivity|node_case|shape_case].
Qed.
Lemma quad_serendipity_fits c : In c (facets SQuadrilateral) -> fits quad_serendipity SQuadrilateral 2%Z c.
Proof.
  intros H; cbn [facets In] in H. repeat (destruct H as [H|H]; [subst c|]); [..|destruct H].
  - apply (fits_intro _ _ _ _ [0; 1; 4]%nat); [reflexivity|node_case|shape_case].
  - apply (fits_intro _ _ _ _ [1; 2; 5]%nat); [reflexivity|node_case|shape_case].
  - apply (fits_intro _ _ _ _ [2; 3; 6]%nat); [reflexivity|node_case|shape_case].
  - apply (fits_intro _ _ _ _ [3; 0; 7]%nat); [reflexivity|node_case|shape_case].
Qed.
Lemma tetrahedron_linear_fits c : In c (facets STetrahedron) -> fits tetrahedron_linear STetrahedron 1%Z c.
Proof.
  intros H; cbn [facets In] in H. repeat (destruct H as [H|H]; [subst c|]); [..|destruct H].
  - apply (fits_intro _ _ _ _ [0; 1; 2]%nat); [reflexivity|node_case|shape_case].
  - apply (fits_intro _ _ _ _ [0; 1; 3]%nat); [reflexivity|node_case|shape_case].
  - apply (fits_intro _ _ _ _ [1; 2; 3]%nat); [reflexivity|node_case|shape_case].
  - apply (fits_intro _ _ _ _ [0; 2; 3]%nat); [reflexivity|node_case|shape_case].
Qed.
Lemma tetrahedron_quadratic_fits c : In c (facets STetrahedron) -> fits tetrahedron_quadratic STetrahedron 2%Z c.
Proof.
  intros H; cbn [facets In] in H. repeat (destruct H as [H|H]; [subst c|]); [..|destruct H].
  - apply (fits_intro _ _ _ _ [0; 1; 2; 4; 5; 6]%nat); [reflexivity|node_case|shape_case].
  - apply (fits_intro _ _ _ _ [0; 1; 3; 4; 9; 7]%nat); [reflexivity|node_case|shape_case].
  - apply (fits_intro _ _ _ _ [1; 2; 3; 5; 8; 9]%nat); [reflexivity|node_case|shape_case].
  - apply (fits_intro _ _ _ _ [0; 2; 3; 6; 8; 7]%nat); [reflexivity|node_case|shape_case].
Qed.
Lemma brick_linear_fits c : In c (facets SHexahedron) -> fits brick_linear SHexahedron 1%Z c.
Proof.
  intros H; cbn [facets In] in H. repeat (destruct H as [H|H]; [subst c|]); [..|destruct H].
  - apply (fits_intro _ _ _ _ [0; 1; 2; 3]%nat); [reflexivity|node_case|shape_case].
  - apply (fits_intro _ _ _ _ [4; 5; 6; 7]%nat); [reflexivity|node_case|shape_case].
  - apply (fits_intro _ _ _ _ [0; 1; 5; 4]%nat); [reflexivity|node_case|shape_case].
  - apply (fits_intro _ _ _ _ [1; 2; 6; 5]%nat); [reflexivity|node_case|shape_case].
  - apply (fits_intro _ _ _ _ [2; 3; 7; 6]%nat); [reflexivity|node_case|shape_case].
  - apply (fits_intro _ _ _ _ [3; 0; 4; 7]%nat); [reflexivity|node_case|shape_case].
Qed.
Lemma prism_linear_fits c : In c (facets SPrism) -> fits prism_linear SPrism 1%Z c.
Proof.
  intros H; cbn [facets In] in H. repeat (destruct H as [H|H]; [subst c|]); [..|destruct H].
  - apply (fits_intro _ _ _ _ [0; 1; 2]%nat); [reflexivity|node_case|shape_case].
  - apply (fits_intro _ _ _ _ [3; 4; 5]%nat); [reflexivity|node_case|shape_case].
  - apply (fits_intro _ _ _ _ [0; 1; 4; 3]%nat); [reflexivity|node_case|shape_case].
  - apply (fits_intro _ _ _ _ [1; 2; 5; 4]%nat); [reflexivity|node_case|shape_case].
  - apply (fits_intro _ _ _ _ [2; 0; 3; 5]%nat); [reflexivity|node_case|shape_case].
Qed.
Lemma prism_quadratic_fits c : In c (facets SPrism) -> fits prism_quadratic SPrism 2%Z c.
Proof.
  intros H; cbn [facets In] in H. repeat (destruct H as [H|H]; [subst c|]); [..|destruct H].
  - apply (fits_intro _ _ _ _ [0; 1; 2; 6; 9; 7]%nat); [reflexivity|node_case|shape_case].
  - apply (fits_intro _ _ _ _ [3; 4; 5; 12; 14; 13]%nat); [reflexivity|node_case|shape_case].
  - apply (fits_intro _ _ _ _ [0; 1; 4; 3; 6; 10; 12; 8; 15]%nat); [reflexivity|node_case|shape_case].
  - apply (fits_intro _ _ _ _ [1; 2; 5; 4; 9; 11; 14; 10; 17]%nat); [reflexivity|node_case|shape_case].
  - apply (fits_intro _ _ _ _ [2; 0; 3; 5; 7; 8; 13; 11; 16]%nat); [reflexivity|node_case|shape_case].
Qed.
Lemma pyramid_linear_fits c : In c (facets SPyramid) -> fits pyramid_linear SPyramid 1%Z c.
Proof.
  intros H; cbn [facets In] in H. repeat (destruct H as [H|H]; [subst c|]); [..|destruct H].
  - apply (fits_intro _ _ _ _ [0; 1; 2; 3]%nat); [reflexivity|node_case|]. shape_case; pyramid_base.
  - apply (fits_intro _ _ _ _ [0; 1; 4]%nat); [reflexivity|node_case|]. shape_case; pyramid_case Hx.
  - apply (fits_intro _ _ _ _ [1; 2; 4]%nat); [reflexivity|node_case|]. shape_case; pyramid_case Hx.
  - apply (fits_intro _ _ _ _ [2; 3; 4]%nat); [reflexivity|node_case|]. shape_case; pyramid_case Hx.
  - apply (fits_intro _ _ _ _ [3; 0; 4]%nat); [reflexivity|node_case|]. shape_case; pyramid_case Hx.
Qed.
