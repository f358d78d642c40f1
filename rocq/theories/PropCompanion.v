(** * C98: interpolations created from a shape and an order *)
From Coq Require Import Arith ZArith Bool Reals Lra Lia.
From Coq Require Import List.
From Coquelicot Require Import Coquelicot.
From Verif Require Import RSum Outcome AdaptiveModel ShapeModel InterpolationModel InterpolationSpec InterpolationProofs LobattoModel LobattoSpec
  PropInterpolation PropLobatto CompanionModel CompanionSpec CompanionProofs CompanionProofs2.
Import ListNotations.
Local Open Scope R_scope.

(** the orders that exist, every other order throws *)
Definition max_order (s : eshape) : Z := match s with STriangle | SQuadrilateral | STetrahedron | SPrism => 2 | _ => 1 end.
Theorem C98_available : forall s order,
  ((1 <= order <= max_order s)%Z -> exists e, CreateLagrangeInterpolation s order = Ok e) /\
  (~ (1 <= order <= max_order s)%Z -> CreateLagrangeInterpolation s order = Throw).
Proof.
  intros s order. split.
  - intros H. assert (Hz : (order = 1 \/ order = 2)%Z) by (destruct s; cbn in H; lia). destruct Hz as [->| ->]; destruct s; cbn in H; try lia; eexists; reflexivity.
  - intros H. destruct s; cbn in *; destruct order as [|[p|[p|p|]|]|p]; try reflexivity; exfalso; apply H; lia.
Qed.
Print Assumptions C98_available.

(** what is created belongs to the shape: dimension, the corners are the first nodes, one function per node, a nodal basis *)
Theorem C98_created : forall s order e, CreateLagrangeInterpolation s order = Ok e ->
  e_dim e = shape_dim s /\ firstn (length (shape_corners s)) (e_nodes e) = shape_corners s /\
  (forall x, length (e_shape e x) = length (e_nodes e)) /\ nodal_basis (e_nodes e) (e_shape e) /\
  (order = 1%Z -> length (e_nodes e) = length (shape_corners s)).
Proof.
  intros s order e H. pose proof C37_nodal_basis as HN. rewrite List.Forall_forall in HN.
  assert (Hz : (order = 1 \/ order = 2 \/ (order <> 1 /\ order <> 2))%Z) by lia. destruct Hz as [->|[->|(H1 & H2)]].
  - destruct s; cbn in H; inversion H; subst e; (split; [reflexivity|]); (split; [reflexivity|]); (split; [reflexivity|]); (split; [apply HN; cbn; auto 20|reflexivity]).
  - destruct s; cbn in H; inversion H; subst e; (split; [reflexivity|]); (split; [reflexivity|]); (split; [reflexivity|]); (split; [apply HN; cbn; auto 20|lia]).
  - exfalso. destruct s; cbn in H; destruct order as [|[?|[?|?|]|]|?]; try discriminate; congruence.
Qed.
Print Assumptions C98_created.

(** every polynomial of total degree up to the order is reproduced from its nodal values, everywhere *)
Theorem C98_complete : forall s order e p, CreateLagrangeInterpolation s order = Ok e -> degree_at_most (shape_dim s) order p ->
  forall x, value e (fun i => polynomial p (at_node (nth i (e_nodes e) []))) x = polynomial p x.
Proof.
  intros s order e p H Hp x. apply polynomial_good. intros k ((a, b), c) Hin. destruct (Hp k a b c Hin) as (H1 & H2 & H3).
  eapply created_good; eauto.
Qed.
Print Assumptions C98_complete.

(** on every facet, with its corners listed in any way around, the interpolated field depends on the nodes there only and is their Lagrange
    interpolation *)
Theorem C98_facet : forall s order e c c', CreateLagrangeInterpolation s order = Ok e -> In c (facets s) -> same_facet c c' ->
  exists sigma, length sigma = length (facet_points order (length c')) /\
    (forall k, (k < length sigma)%nat -> node_on e s order c' (nth k sigma 0%nat) k) /\
    forall xi, on_facet (length c') xi -> forall v,
      value e v (facet_map s c' xi) = rsum (length sigma) (fun k => nth k (facet_basis order (length c') xi) 0 * v (nth k sigma 0%nat)).
Proof. intros s order e c c' H Hc Hs. apply (fits_same e s order c c' (facet_size s c Hc) Hs). apply created_fits; assumption. Qed.
Print Assumptions C98_facet.

(** two elements of the same order, of whatever shapes, that share a facet and the values of the nodes on it have the same field on it *)
Theorem C98_conforming : forall s1 s2 order e1 e2 c1 c2 c1' c2' v1 v2,
  CreateLagrangeInterpolation s1 order = Ok e1 -> CreateLagrangeInterpolation s2 order = Ok e2 ->
  In c1 (facets s1) -> In c2 (facets s2) -> same_facet c1 c1' -> same_facet c2 c2' -> length c1 = length c2 ->
  (forall i j k, (k < length (facet_points order (length c1)))%nat -> node_on e1 s1 order c1' i k -> node_on e2 s2 order c2' j k -> v1 i = v2 j) ->
  forall xi, on_facet (length c1) xi -> value e1 v1 (facet_map s1 c1' xi) = value e2 v2 (facet_map s2 c2' xi).
Proof.
  intros s1 s2 order e1 e2 c1 c2 c1' c2' v1 v2 H1 H2 Hc1 Hc2 Hs1 Hs2 Hl Hv xi Hx.
  destruct (C98_facet s1 order e1 c1 c1' H1 Hc1 Hs1) as (g1 & L1 & N1 & V1). destruct (C98_facet s2 order e2 c2 c2' H2 Hc2 Hs2) as (g2 & L2 & N2 & V2).
  pose proof (same_length _ _ Hs1) as E1. pose proof (same_length _ _ Hs2) as E2. rewrite E1 in L1, V1. rewrite E2, <- Hl in L2, V2.
  rewrite V1, V2 by exact Hx. assert (EL : length g1 = length g2) by congruence. rewrite <- EL. apply rsum_ext. intros k Hk. f_equal.
  apply (Hv _ _ k); [rewrite <- L1; exact Hk|apply N1; exact Hk|apply N2; rewrite <- EL; exact Hk].
Qed.
Print Assumptions C98_conforming.

(** Lobatto interpolations exist for lines, quadrilaterals and hexahedra and every order from one on, with (order + 1)^dimension nodes *)
Theorem C98_lobatto : forall roots s order, (forall n, length (roots n) = (n - 1)%nat) ->
  (s = SLine \/ s = SQuadrilateral \/ s = SHexahedron ->
     ((1 <= order)%Z -> exists e, CreateLobattoInterpolation roots s order = Ok e /\ e_dim e = shape_dim s /\
        length (e_nodes e) = (S (Z.to_nat order) ^ shape_dim s)%nat /\ forall i, (i < length (e_nodes e))%nat -> length (nth i (e_nodes e) []) = shape_dim s) /\
     ((order < 1)%Z -> CreateLobattoInterpolation roots s order = Throw)) /\
  (s <> SLine -> s <> SQuadrilateral -> s <> SHexahedron -> CreateLobattoInterpolation roots s order = Throw).
Proof.
  intros roots s order Hr. split.
  - intros Hs. split.
    + intros Ho. destruct (C39_nodes roots (Z.to_nat order)) as (nodes & E & Hl & _); [lia|rewrite Hr; reflexivity|].
      assert (Hin : forall (f : nat -> list R) m d, (forall id, length (f id) = d) -> forall i, (i < length (map f (seq 0 m)))%nat -> length (nth i (map f (seq 0 m)) []) = d).
      { intros f m d Hf i Hi. rewrite (nth_indep _ [] (f 0%nat)) by exact Hi. rewrite map_nth. apply Hf. }
      destruct Hs as [->|[->| ->]]; unfold CreateLobattoInterpolation; rewrite E; cbn [omap obind]; eexists; (split; [reflexivity|]);
        cbn [lobatto_line lobatto_quad lobatto_brick e_dim e_nodes shape_dim]; (split; [reflexivity|]); rewrite map_length; try rewrite seq_length.
      * split; [rewrite Hl; cbn [Nat.pow]; lia|]. intros i Hi. rewrite (nth_indep _ [] [0]) by (rewrite map_length; exact Hi). rewrite (map_nth (fun x => [x])). reflexivity.
      * split; [rewrite Hl; cbn [Nat.pow]; lia|]. intros i Hi. apply Hin; [reflexivity|]. rewrite map_length, seq_length. exact Hi.
      * split; [rewrite Hl; cbn [Nat.pow]; lia|]. intros i Hi. apply Hin; [reflexivity|]. rewrite map_length, seq_length. exact Hi.
    + intros Ho. assert (E : Z.to_nat order = 0%nat) by lia.
      destruct Hs as [->|[->| ->]]; unfold CreateLobattoInterpolation; rewrite E; reflexivity.
  - intros H1 H2 H3. destruct s; try reflexivity; congruence.
Qed.
Print Assumptions C98_lobatto.

Lemma flat_map_length_const {A B} (f : A -> list B) l c : (forall x, In x l -> length (f x) = c) -> length (flat_map f l) = (length l * c)%nat.
Proof. induction l as [|a l IH]; intros H; [reflexivity|]. cbn [flat_map length]. rewrite app_length, (H a (or_introl eq_refl)), IH by (intros x Hx; apply H; now right). lia. Qed.
(** what CreateLobattoInterpolation returns is a nodal basis that adds up to one, and its derivative matrix holds the gradients (at points
    that no node coordinate is closer to than 1e-15, see C39); every node coordinate is one of -1, the inner roots and 1 *)
Theorem C98_lobatto_basis : forall roots s order e, NoDup ([-1] ++ roots (Z.to_nat order) ++ [1]) -> separated ([-1] ++ roots (Z.to_nat order) ++ [1]) ->
  CreateLobattoInterpolation roots s order = Ok e ->
  nodal_basis (e_nodes e) (e_shape e) /\ partition_of_unity (e_shape e) /\ (forall x, length (e_shape e x) = length (e_nodes e)) /\
  (forall node c, In node (e_nodes e) -> In c node -> In c ([-1] ++ roots (Z.to_nat order) ++ [1])) /\
  forall x, (forall node d, In node (e_nodes e) -> (d < e_dim e)%nat -> 1 / 10 ^ 15 < Rabs (x d - nth d node 0)) -> gradient_at (e_dim e) (e_shape e) (e_deriv e) x.
Proof.
  intros roots s order e ND SE E. set (nodes := [-1] ++ roots (Z.to_nat order) ++ [1]) in *. set (n := length nodes).
  assert (Hn : (0 < n)%nat) by (unfold n, nodes; cbn [app length]; lia).
  assert (LN : forall nds, lobatto_nodes roots (Z.to_nat order) = Ok nds -> nds = nodes) by (intros nds; unfold lobatto_nodes; destruct (Z.to_nat order); [discriminate|unfold nodes; congruence]).
  assert (LS : forall x, length (lobatto_shape x nodes) = n) by (intros x; unfold lobatto_shape; destruct (existsb _ _); rewrite !map_length, seq_length; reflexivity).
  assert (LD : forall x, length (lobatto_deriv x nodes) = n) by (intros x; unfold lobatto_deriv; rewrite map_length, seq_length; reflexivity).
  assert (NI : forall i, (i < n)%nat -> In (nth i nodes 0) nodes) by (intros i Hi; apply nth_In; exact Hi).
  unfold CreateLobattoInterpolation in E. destruct s; try discriminate; destruct (lobatto_nodes roots (Z.to_nat order)) as [nds| |] eqn:EN; try discriminate;
    rewrite (LN nds eq_refl) in E; cbn [omap obind] in E; injection E as <-.
  - cbn [lobatto_line e_dim e_nodes e_shape e_deriv]. split; [|split; [|split; [|split]]].
    + intros i j Hi Hj. rewrite map_length in Hi, Hj. rewrite (nth_indep _ [] [0]) by (rewrite map_length; exact Hi). rewrite (map_nth (fun x => [x])).
      change (at_node [nth i nodes 0] 0%nat) with (nth i nodes 0). rewrite C39_nodal_basis by assumption. reflexivity.
    + intros x. apply C39_partition_of_unity; assumption.
    + intros x. rewrite LS, map_length. reflexivity.
    + intros node c Hn' Hc. apply in_map_iff in Hn'. destruct Hn' as (y & <- & Hy). destruct Hc as [<-|[]]. exact Hy.
    + intros x Hx. split; [rewrite map_length, LD, LS; reflexivity|]. intros i d Hi Hd. rewrite LS in Hi. destruct d; [|lia].
      rewrite (nth_indep _ [] [0]) by (rewrite map_length, LD; exact Hi). rewrite (map_nth (fun x => [x])). cbn [nth]. apply (is_derive_ext (fun t => nth i (lobatto_shape t nodes) 0)); [intros t; reflexivity|].
      apply C39_gradient; [exact ND| |exact Hi]. intros k Hk. apply (Hx [nth k nodes 0] 0%nat); [|lia]. apply in_map_iff. exists (nth k nodes 0). split; [reflexivity|apply NI; exact Hk].
  - destruct (C39_quad nodes ND SE Hn) as (P1 & P2 & P3). cbn [lobatto_quad e_dim e_nodes e_shape e_deriv]. fold n in P1, P2, P3 |- *.
    assert (NM : forall i, (i < n * n)%nat -> nth i (map (fun id => quad_coords id nodes) (seq 0 (n * n))) [] = quad_coords i nodes).
    { intros i Hi. rewrite (nth_indep _ [] (quad_coords 0 nodes)) by (rewrite map_length, seq_length; exact Hi). rewrite (map_nth (fun id => quad_coords id nodes)), seq_nth by exact Hi. reflexivity. }
    split; [|split; [|split; [|split]]].
    + intros i j Hi Hj. rewrite map_length, seq_length in Hi, Hj. rewrite (NM i Hi). exact (P2 i j Hi Hj).
    + intros x. apply P1.
    + intros x. rewrite map_length, seq_length. apply P1.
    + intros node c Hn' Hc. apply in_map_iff in Hn'. destruct Hn' as (id & <- & Hid). apply in_seq in Hid. destruct Hc as [<-|[<-|[]]]; apply NI.
      * apply Nat.mod_upper_bound. fold n. lia.
      * apply Nat.div_lt_upper_bound; fold n; lia.
    + intros x Hx.
      assert (Cov : forall i, (i < n)%nat -> 1 / 10 ^ 15 < Rabs (x 0%nat - nth i nodes 0) /\ 1 / 10 ^ 15 < Rabs (x 1%nat - nth i nodes 0)).
      { intros i Hi. split.
        - replace (nth i nodes 0) with (nth 0 (quad_coords i nodes) 0) by (cbn [quad_coords nth]; fold n; rewrite Nat.mod_small by exact Hi; reflexivity).
          apply Hx; [|lia]. apply in_map_iff. exists i. split; [reflexivity|]. apply in_seq. nia.
        - replace (nth i nodes 0) with (nth 1 (quad_coords (i * n) nodes) 0) by (cbn [quad_coords nth]; fold n; rewrite Nat.div_mul by lia; reflexivity).
          apply Hx; [|lia]. apply in_map_iff. exists (i * n)%nat. split; [reflexivity|]. apply in_seq. nia. }
      split.
      * rewrite (proj1 (P1 _ _)). unfold quad_deriv. rewrite (flat_map_length_const _ _ n); [rewrite seq_length; reflexivity|]. intros y _. rewrite map_length, seq_length. reflexivity.
      * intros i d Hi Hd. rewrite (proj1 (P1 _ _)) in Hi. destruct (P3 (x 0%nat) (x 1%nat) i Hi Cov) as (D1 & D2). destruct d as [|[|d]]; [| |lia].
        -- apply (is_derive_ext (fun t => nth i (quad_shape t (x 1%nat) nodes) 0)); [intros t; reflexivity|exact D1].
        -- apply (is_derive_ext (fun t => nth i (quad_shape (x 0%nat) t nodes) 0)); [intros t; reflexivity|exact D2].
  - destruct (C39_brick nodes ND SE Hn) as (P1 & P2 & P3). cbn [lobatto_brick e_dim e_nodes e_shape e_deriv]. fold n in P1, P2, P3 |- *.
    assert (NM : forall i, (i < n * n * n)%nat -> nth i (map (fun id => brick_coords id nodes) (seq 0 (n * n * n))) [] = brick_coords i nodes).
    { intros i Hi. rewrite (nth_indep _ [] (brick_coords 0 nodes)) by (rewrite map_length, seq_length; exact Hi). rewrite (map_nth (fun id => brick_coords id nodes)), seq_nth by exact Hi. reflexivity. }
    assert (LB : forall x y z, length (brick_shape x y z nodes) = (n * n * n)%nat).
    { intros x y z. unfold brick_shape. rewrite (flat_map_length_const _ _ (n * n)%nat); [rewrite seq_length; fold n; lia|]. intros k _.
      rewrite (flat_map_length_const _ _ n); [rewrite seq_length; reflexivity|]. intros j _. rewrite map_length, seq_length. reflexivity. }
    assert (LBD : forall x y z, length (brick_deriv x y z nodes) = (n * n * n)%nat).
    { intros x y z. unfold brick_deriv. rewrite (flat_map_length_const _ _ (n * n)%nat); [rewrite seq_length; fold n; lia|]. intros k _.
      rewrite (flat_map_length_const _ _ n); [rewrite seq_length; reflexivity|]. intros j _. rewrite map_length, seq_length. reflexivity. }
    split; [|split; [|split; [|split]]].
    + intros i j Hi Hj. rewrite map_length, seq_length in Hi, Hj. rewrite (NM i Hi). exact (P2 i j Hi Hj).
    + intros x. apply P1.
    + intros x. rewrite map_length, seq_length. apply LB.
    + intros node c Hn' Hc. apply in_map_iff in Hn'. destruct Hn' as (id & <- & Hid). apply in_seq in Hid. destruct Hc as [<-|[<-|[<-|[]]]]; apply NI; fold n.
      * apply Nat.mod_upper_bound. lia.
      * apply Nat.div_lt_upper_bound; [lia|]. apply Nat.mod_upper_bound. nia.
      * apply Nat.div_lt_upper_bound; nia.
    + intros x Hx.
      assert (Cov : forall i, (i < n)%nat -> 1 / 10 ^ 15 < Rabs (x 0%nat - nth i nodes 0) /\ 1 / 10 ^ 15 < Rabs (x 1%nat - nth i nodes 0) /\ 1 / 10 ^ 15 < Rabs (x 2%nat - nth i nodes 0)).
      { intros i Hi. assert (Hnn : (n <= n * n)%nat) by nia. assert (Hnnn : (n * n <= n * n * n)%nat) by nia. split; [|split].
        - replace (nth i nodes 0) with (nth 0 (brick_coords i nodes) 0) by (cbn [brick_coords nth]; fold n; rewrite Nat.mod_small by exact Hi; reflexivity).
          apply Hx; [|lia]. apply in_map_iff. exists i. split; [reflexivity|]. apply in_seq. lia.
        - assert (Hin : (i * n < n * n)%nat) by nia.
          replace (nth i nodes 0) with (nth 1 (brick_coords (i * n) nodes) 0) by (cbn [brick_coords nth]; fold n; rewrite (Nat.mod_small (i * n)) by exact Hin; rewrite Nat.div_mul by lia; reflexivity).
          apply Hx; [|lia]. apply in_map_iff. exists (i * n)%nat. split; [reflexivity|]. apply in_seq. lia.
        - replace (nth i nodes 0) with (nth 2 (brick_coords (i * (n * n)) nodes) 0) by (cbn [brick_coords nth]; fold n; rewrite Nat.div_mul by nia; reflexivity).
          apply Hx; [|lia]. apply in_map_iff. exists (i * (n * n))%nat. split; [reflexivity|]. apply in_seq. nia. }
      split; [rewrite LB, LBD; reflexivity|].
      intros i d Hi Hd. rewrite LB in Hi. destruct (P3 (x 0%nat) (x 1%nat) (x 2%nat) i Hi Cov) as (D1 & D2 & D3). destruct d as [|[|[|d]]]; [| | |lia].
      -- apply (is_derive_ext (fun t => nth i (brick_shape t (x 1%nat) (x 2%nat) nodes) 0)); [intros t; reflexivity|exact D1].
      -- apply (is_derive_ext (fun t => nth i (brick_shape (x 0%nat) t (x 2%nat) nodes) 0)); [intros t; reflexivity|exact D2].
      -- apply (is_derive_ext (fun t => nth i (brick_shape (x 0%nat) (x 1%nat) t nodes) 0)); [intros t; reflexivity|exact D3].
Qed.
Print Assumptions C98_lobatto_basis.

(** a quadratic triangle next to a quadratic quadrilateral, edge traversed in opposite directions; a prism next to a pyramid *)
Example C98_mixed : exists e1 e2, CreateLagrangeInterpolation STriangle 2 = Ok e1 /\ CreateLagrangeInterpolation SQuadrilateral 2 = Ok e2 /\
  In [1; 2]%nat (facets STriangle) /\ In [3; 0]%nat (facets SQuadrilateral) /\ same_facet [3; 0]%nat [0; 3]%nat /\
  node_on e1 STriangle 2 [1; 2]%nat 4 2 /\ node_on e2 SQuadrilateral 2 [0; 3]%nat 7 2.
Proof.
  exists triangle_quadratic, quad_serendipity. repeat (split; [first [reflexivity | solve [cbn; auto] | apply (same_rotate [3;0]%nat 3%nat [0%nat]); apply same_refl]|]).
  split; (split; [cbn; lia|]); intros d; do 2 (destruct d as [|d]; [facet; field|]); destruct d; facet; field.
Qed.
Example C98_solid : In [0; 1; 4; 3]%nat (facets SPrism) /\ In [0; 1; 2; 3]%nat (facets SPyramid) /\ on_facet 4 (fun _ => 1/3).
Proof. cbn. repeat split; auto; lra. Qed.
Example C98_quadratic : degree_at_most 2 2 [(3, (1, 1, 0)%nat); (-1, (0, 2, 0)%nat); (2, (0, 0, 0)%nat)].
Proof. intros k a b c H. cbn [In] in H. repeat (destruct H as [H|H]; [inversion H; subst; repeat split; cbn; lia|]). destruct H. Qed.

(** hypotheses of C98_lobatto_basis: order 2 has the inner node 0 *)
Example C98_lobatto_example : NoDup ([-1] ++ [0] ++ [1]) /\ separated ([-1] ++ [0] ++ [1]) /\
  exists e, CreateLobattoInterpolation (fun _ => [0]) SHexahedron 2 = Ok e /\ length (e_nodes e) = 27%nat.
Proof.
  cbn [app]. split; [|split].
  - repeat constructor; cbn [In]; intros H; repeat (destruct H as [H|H]; [lra|]); exact H.
  - intros i j Hi Hj N. cbn [length] in Hi, Hj. assert (2 / 10 ^ 15 <= 1) by (apply Rmult_le_reg_r with (10 ^ 15); [lra|field_simplify; lra]).
    destruct i as [|[|[|i]]], j as [|[|[|j]]]; try lia; try congruence; cbn [nth]; first [rewrite Rabs_right by lra|rewrite Rabs_left by lra]; lra.
  - eexists. split; [reflexivity|]. cbn [lobatto_brick e_nodes]. rewrite map_length, seq_length. reflexivity.
Qed.
