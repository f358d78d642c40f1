(** * C39: Lobatto interpolations of arbitrary order *)
From Coq Require Import List Arith Bool Reals Lra Lia.
From Coquelicot Require Import Coquelicot.
From Verif Require Import RSum Outcome PolyProofs LobattoModel LobattoSpec LobattoProofs.
Import ListNotations.
Local Open Scope R_scope.

Lemma derive_times (f : R -> R) (x d c : R) : is_derive f x d -> is_derive (fun t => f t * c) x (d * c).
Proof. intros H. rewrite Rmult_comm. apply (is_derive_ext (fun t => c * f t)); [intros; apply Rmult_comm|]. apply (is_derive_scal f x c d H). Qed.
Lemma derive_scaled (f : R -> R) (x d c : R) : is_derive f x d -> is_derive (fun t => c * f t) x (c * d).
Proof. exact (is_derive_scal f x c d). Qed.

(** the nodes: order + 1 of them, the end points included; an order below 1 is rejected *)
Theorem C39_nodes : forall roots order, (1 <= order)%nat -> length (roots order) = (order - 1)%nat ->
  exists nodes, lobatto_nodes roots order = Ok nodes /\ length nodes = S order /\ nth 0 nodes 0 = -1 /\ nth order nodes 0 = 1.
Proof.
  intros roots order Ho Hl. destruct order as [|o]; [lia|]. eexists. split; [reflexivity|]. simpl in Hl. rewrite Nat.sub_0_r in Hl. repeat split.
  - simpl. rewrite app_length, Hl. simpl. lia.
  - simpl app. change (nth (S o) (-1 :: roots (S o) ++ [1]) 0) with (nth o (roots (S o) ++ [1]) 0). rewrite app_nth2, Hl, Nat.sub_diag by lia. reflexivity.
Qed.
Print Assumptions C39_nodes.

(** C39: for all distinct nodes the shape functions are the Lagrange basis, the derivatives are its derivatives *)
Theorem C39_lagrange : forall nodes, NoDup nodes ->
  exists L, lagrange_basis nodes L /\
    (forall x, away_from nodes x -> forall j, (j < length nodes)%nat -> nth j (lobatto_shape x nodes) 0 = L j x) /\
    (forall x j, (j < length nodes)%nat -> is_derive (L j) x (nth j (lobatto_deriv x nodes) 0)) /\
    (forall f, polynomial_below (length nodes) f -> forall x, rsum (length nodes) (fun j => f (nth j nodes 0) * L j x) = f x).
Proof.
  intros nodes H. exists (L nodes). split; [|split; [|split]].
  - intros j Hj. split; [apply L_poly; auto|]. intros i Hi. destruct (Nat.eqb_spec i j) as [->|Hne]; [apply L_diag; auto|apply L_off; auto].
  - intros x Ha j Hj. apply shape_away; auto.
  - intros x j Hj. apply deriv_exact; auto.
  - intros f Hf x. apply L_reproduces; auto.
Qed.
Print Assumptions C39_lagrange.

(** at every point the shape functions sum to one, also within the tolerance of a node *)
Theorem C39_partition_of_unity : forall nodes x, NoDup nodes -> separated nodes -> (0 < length nodes)%nat -> rlsum (lobatto_shape x nodes) = 1.
Proof. intros nodes x H Hs Hn. apply shape_sum; auto. Qed.
Print Assumptions C39_partition_of_unity.

Theorem C39_nodal_basis : forall nodes, separated nodes -> forall i j, (i < length nodes)%nat -> (j < length nodes)%nat ->
  nth j (lobatto_shape (nth i nodes 0) nodes) 0 = if Nat.eqb i j then 1 else 0.
Proof.
  intros nodes Hs i j Hi Hj. apply shape_near; auto. replace (nth i nodes 0 - nth i nodes 0) with 0 by ring. rewrite Rabs_R0.
  apply Rdiv_lt_0_compat; [lra|apply pow_lt; lra].
Qed.
Print Assumptions C39_nodal_basis.

(** every polynomial of degree below the number of nodes is reproduced at x, or at the node within 1e-15 of x *)
Theorem C39_reproduction : forall nodes x f, NoDup nodes -> separated nodes -> polynomial_below (length nodes) f ->
  exists x', Rabs (x - x') < 1 / 10 ^ 15 /\ (away_from nodes x -> x' = x) /\
    rsum (length nodes) (fun j => f (nth j nodes 0) * nth j (lobatto_shape x nodes) 0) = f x'.
Proof.
  intros nodes x f H Hs Hf. assert (Hpos : 0 < 1 / 10 ^ 15) by (apply Rdiv_lt_0_compat; [lra|apply pow_lt; lra]).
  destruct (near_or_away nodes x) as [Ha|(i & Hi & Hx)].
  - exists x. replace (x - x) with 0 by ring. rewrite Rabs_R0. split; [exact Hpos|]. split; [auto|].
    rewrite <- (L_reproduces nodes H f Hf x). apply rsum_ext. intros j Hj. rewrite (shape_away nodes H x Ha) by exact Hj. reflexivity.
  - exists (nth i nodes 0). split; [exact Hx|]. split; [intros Ha; specialize (Ha i Hi); lra|].
    rewrite (rsum_single _ i); [rewrite (shape_near nodes x i) by auto; rewrite Nat.eqb_refl; ring|exact Hi|].
    intros j Hj Hne. rewrite (shape_near nodes x i) by auto. destruct (Nat.eqb_spec i j); [congruence|ring].
Qed.
Print Assumptions C39_reproduction.

(** a neighbourhood of x stays away from the nodes *)
Lemma away_locally nodes x : (forall i, (i < length nodes)%nat -> 1 / 10 ^ 15 < Rabs (x - nth i nodes 0)) -> locally x (away_from nodes).
Proof.
  intros H. assert (G : forall m, (m <= length nodes)%nat -> locally x (fun t => forall i, (i < m)%nat -> 1 / 10 ^ 15 <= Rabs (t - nth i nodes 0))).
  { induction m as [|m IH]; intros Hm; [apply filter_forall; intros; lia|].
    assert (C : locally x (fun t => 1 / 10 ^ 15 <= Rabs (t - nth m nodes 0))).
    { specialize (H m ltac:(lia)). assert (Hd : 0 < Rabs (x - nth m nodes 0) - 1 / 10 ^ 15) by lra. exists (mkposreal _ Hd). intros t Ht.
      unfold ball in Ht; simpl in Ht. unfold AbsRing_ball, abs, minus, plus, opp in Ht; simpl in Ht.
      pose proof (Rabs_triang (x - t) (t - nth m nodes 0)) as T. replace (x - t + (t - nth m nodes 0)) with (x - nth m nodes 0) in T by ring.
      replace (Rabs (x - t)) with (Rabs (t + - x)) in T by (rewrite <- Rabs_Ropp; f_equal; ring). lra. }
    assert (IH' := IH ltac:(lia)). generalize (filter_and (F := locally x) _ _ IH' C). apply filter_imp. intros t (H1 & H2) i Hi. destruct (Nat.eq_dec i m) as [->|]; [exact H2|apply H1; lia]. }
  apply (G (length nodes)). lia.
Qed.

Lemma shape_derive nodes : NoDup nodes -> forall x, (forall i, (i < length nodes)%nat -> 1 / 10 ^ 15 < Rabs (x - nth i nodes 0)) ->
  forall j, (j < length nodes)%nat -> is_derive (fun t => nth j (lobatto_shape t nodes) 0) x (nth j (lobatto_deriv x nodes) 0).
Proof.
  intros H x Hx j Hj. apply (is_derive_ext_loc (L nodes j)); [|apply deriv_exact; auto].
  generalize (away_locally nodes x Hx). apply filter_imp. intros t Ht. symmetry. apply shape_away; auto.
Qed.

(** the derivative of the shape functions as they are evaluated, outside of the tolerance of the nodes *)
Theorem C39_gradient : forall nodes, NoDup nodes -> forall x, (forall i, (i < length nodes)%nat -> 1 / 10 ^ 15 < Rabs (x - nth i nodes 0)) ->
  forall j, (j < length nodes)%nat -> is_derive (fun t => nth j (lobatto_shape t nodes) 0) x (nth j (lobatto_deriv x nodes) 0).
Proof. exact shape_derive. Qed.
Print Assumptions C39_gradient.

(** ** products: node number id is at the coordinates (id mod n, id / n) *)
Lemma shape_list nodes x : lobatto_shape x nodes = map (fun i => nth i (lobatto_shape x nodes) 0) (seq 0 (length nodes)).
Proof.
  apply (nth_ext _ _ 0 0); [rewrite map_length, seq_length; apply shape_length|]. intros k Hk. rewrite shape_length in Hk. rewrite nth_map_seq by exact Hk. reflexivity.
Qed.
Lemma digits2 n a b : (0 < n)%nat -> (if Nat.eqb (a mod n) (b mod n) then 1 else 0) * (if Nat.eqb (a / n) (b / n) then 1 else 0) = if Nat.eqb a b then 1 else 0.
Proof.
  intros Hn. pose proof (Nat.div_mod a n ltac:(lia)). pose proof (Nat.div_mod b n ltac:(lia)).
  destruct (Nat.eqb_spec (a mod n) (b mod n)), (Nat.eqb_spec (a / n) (b / n)), (Nat.eqb_spec a b); try ring; exfalso; subst; auto; congruence.
Qed.

Theorem C39_quad : forall nodes, NoDup nodes -> separated nodes -> let n := length nodes in (0 < n)%nat ->
  (forall x y, length (quad_shape x y nodes) = (n * n)%nat /\ rlsum (quad_shape x y nodes) = 1) /\
  (forall a b, (a < n * n)%nat -> (b < n * n)%nat ->
     nth b (quad_shape (nth 0 (quad_coords a nodes) 0) (nth 1 (quad_coords a nodes) 0) nodes) 0 = if Nat.eqb a b then 1 else 0) /\
  (forall x y c, (c < n * n)%nat -> (forall i, (i < n)%nat -> 1 / 10 ^ 15 < Rabs (x - nth i nodes 0) /\ 1 / 10 ^ 15 < Rabs (y - nth i nodes 0)) ->
     is_derive (fun t => nth c (quad_shape t y nodes) 0) x (nth 0 (nth c (quad_deriv x y nodes) []) 0) /\
     is_derive (fun t => nth c (quad_shape x t nodes) 0) y (nth 1 (nth c (quad_deriv x y nodes) []) 0)).
Proof.
  intros nodes H Hs n Hn.
  assert (E : forall x y c, (c < n * n)%nat -> nth c (quad_shape x y nodes) 0 = nth (c mod n) (lobatto_shape x nodes) 0 * nth (c / n) (lobatto_shape y nodes) 0).
  { intros x y c Hc. apply (nth_flat_map (fun j i => nth i (lobatto_shape x nodes) 0 * nth j (lobatto_shape y nodes) 0)); auto. }
  assert (B : forall c, (c < n * n)%nat -> (c mod n < n)%nat /\ (c / n < n)%nat).
  { intros c Hc. split; [apply Nat.mod_upper_bound; lia|apply Nat.div_lt_upper_bound; lia]. }
  split; [|split].
  - intros x y. split; [apply (flat_map_length2 (fun j i => nth i (lobatto_shape x nodes) 0 * nth j (lobatto_shape y nodes) 0))|].
    unfold quad_shape. rewrite rlsum_flat, <- !shape_list, !shape_sum by auto. ring.
  - intros a b Ha Hb. rewrite E by exact Hb. unfold quad_coords. cbn [nth]. fold n. destruct (B a Ha) as (A1 & A2). destruct (B b Hb) as (B1 & B2).
    rewrite !C39_nodal_basis by auto. apply digits2; auto.
  - intros x y c Hc Hx. destruct (B c Hc) as (C1 & C2).
    assert (D : nth c (quad_deriv x y nodes) [] = [nth (c mod n) (lobatto_deriv x nodes) 0 * nth (c / n) (lobatto_shape y nodes) 0; nth (c mod n) (lobatto_shape x nodes) 0 * nth (c / n) (lobatto_deriv y nodes) 0]).
    { apply (nth_flat_map (fun j i => [nth i (lobatto_deriv x nodes) 0 * nth j (lobatto_shape y nodes) 0; nth i (lobatto_shape x nodes) 0 * nth j (lobatto_deriv y nodes) 0])); auto. }
    rewrite D. cbn [nth]. split.
    + apply (is_derive_ext (fun t => nth (c mod n) (lobatto_shape t nodes) 0 * nth (c / n) (lobatto_shape y nodes) 0)); [intros t; symmetry; apply E; auto|].
      apply (derive_times (fun t => nth (c mod n) (lobatto_shape t nodes) 0)). apply shape_derive; auto. intros; apply Hx; auto.
    + apply (is_derive_ext (fun t => nth (c mod n) (lobatto_shape x nodes) 0 * nth (c / n) (lobatto_shape t nodes) 0)); [intros t; symmetry; apply E; auto|].
      apply (derive_scaled (fun t => nth (c / n) (lobatto_shape t nodes) 0)). apply shape_derive; auto. intros; apply Hx; auto.
Qed.
Print Assumptions C39_quad.

Theorem C39_brick : forall nodes, NoDup nodes -> separated nodes -> let n := length nodes in (0 < n)%nat ->
  (forall x y z, rlsum (brick_shape x y z nodes) = 1) /\
  (forall a b, (a < n * n * n)%nat -> (b < n * n * n)%nat ->
     let c := brick_coords a nodes in nth b (brick_shape (nth 0 c 0) (nth 1 c 0) (nth 2 c 0) nodes) 0 = if Nat.eqb a b then 1 else 0) /\
  (forall x y z c, (c < n * n * n)%nat ->
     (forall i, (i < n)%nat -> 1 / 10 ^ 15 < Rabs (x - nth i nodes 0) /\ 1 / 10 ^ 15 < Rabs (y - nth i nodes 0) /\ 1 / 10 ^ 15 < Rabs (z - nth i nodes 0)) ->
     is_derive (fun t => nth c (brick_shape t y z nodes) 0) x (nth 0 (nth c (brick_deriv x y z nodes) []) 0) /\
     is_derive (fun t => nth c (brick_shape x t z nodes) 0) y (nth 1 (nth c (brick_deriv x y z nodes) []) 0) /\
     is_derive (fun t => nth c (brick_shape x y t nodes) 0) z (nth 2 (nth c (brick_deriv x y z nodes) []) 0)).
Proof.
  intros nodes H Hs n Hn.
  assert (E : forall x y z c, (c < n * n * n)%nat -> nth c (brick_shape x y z nodes) 0 =
    nth (c mod n) (lobatto_shape x nodes) 0 * nth (c mod (n * n) / n) (lobatto_shape y nodes) 0 * nth (c / (n * n)) (lobatto_shape z nodes) 0).
  { intros x y z c Hc. apply (nth_flat_map3 (fun k j i => nth i (lobatto_shape x nodes) 0 * nth j (lobatto_shape y nodes) 0 * nth k (lobatto_shape z nodes) 0)); auto. }
  assert (B : forall c, (c < n * n * n)%nat -> (c mod n < n)%nat /\ (c mod (n * n) / n < n)%nat /\ (c / (n * n) < n)%nat).
  { intros c Hc. split; [apply Nat.mod_upper_bound; lia|]. split; [|apply Nat.div_lt_upper_bound; nia].
    apply Nat.div_lt_upper_bound; [lia|]. apply Nat.mod_upper_bound. nia. }
  split; [|split].
  - intros x y z. unfold brick_shape. rewrite rlsum_flat3, <- !shape_list, !shape_sum by auto. ring.
  - intros a b Ha Hb c. rewrite E by exact Hb. unfold c, brick_coords. cbn [nth]. fold n. destruct (B a Ha) as (A1 & A2 & A3). destruct (B b Hb) as (B1 & B2 & B3).
    rewrite !C39_nodal_basis by auto.
    assert (M : forall c, (c mod n = (c mod (n * n)) mod n)%nat).
    { intros m. rewrite Nat.mod_mul_r by lia. rewrite (Nat.mul_comm n (_ mod _)), Nat.mod_add, Nat.mod_mod by lia. reflexivity. }
    rewrite (M a), (M b), digits2 by auto. apply digits2. nia.
  - intros x y z c Hc Hx. destruct (B c Hc) as (C1 & C2 & C3).
    assert (D : nth c (brick_deriv x y z nodes) [] =
      [nth (c mod n) (lobatto_deriv x nodes) 0 * nth (c mod (n * n) / n) (lobatto_shape y nodes) 0 * nth (c / (n * n)) (lobatto_shape z nodes) 0;
       nth (c mod n) (lobatto_shape x nodes) 0 * nth (c mod (n * n) / n) (lobatto_deriv y nodes) 0 * nth (c / (n * n)) (lobatto_shape z nodes) 0;
       nth (c mod n) (lobatto_shape x nodes) 0 * nth (c mod (n * n) / n) (lobatto_shape y nodes) 0 * nth (c / (n * n)) (lobatto_deriv z nodes) 0]).
    { apply (nth_flat_map3 (fun k j i => [nth i (lobatto_deriv x nodes) 0 * nth j (lobatto_shape y nodes) 0 * nth k (lobatto_shape z nodes) 0;
        nth i (lobatto_shape x nodes) 0 * nth j (lobatto_deriv y nodes) 0 * nth k (lobatto_shape z nodes) 0; nth i (lobatto_shape x nodes) 0 * nth j (lobatto_shape y nodes) 0 * nth k (lobatto_deriv z nodes) 0])); auto. }
    rewrite D. cbn [nth]. clear D. set (fx := fun t => nth (c mod n) (lobatto_shape t nodes) 0). set (fy := fun t => nth (c mod (n * n) / n) (lobatto_shape t nodes) 0).
    set (fz := fun t => nth (c / (n * n)) (lobatto_shape t nodes) 0).
    change (nth (c mod n) (lobatto_shape x nodes) 0) with (fx x). change (nth (c mod (n * n) / n) (lobatto_shape y nodes) 0) with (fy y). change (nth (c / (n * n)) (lobatto_shape z nodes) 0) with (fz z).
    split; [|split].
    + apply (is_derive_ext (fun t => fx t * fy y * fz z)); [intros t; symmetry; apply E; auto|].
      apply (derive_times (fun t => fx t * fy y)). apply (derive_times fx). apply shape_derive; auto. intros; apply Hx; auto.
    + apply (is_derive_ext (fun t => fx x * fy t * fz z)); [intros t; symmetry; apply E; auto|].
      apply (derive_times (fun t => fx x * fy t)). apply (derive_scaled fy). apply shape_derive; auto. intros; apply Hx; auto.
    + apply (is_derive_ext (fun t => fx x * fy y * fz t)); [intros t; symmetry; apply E; auto|].
      apply (derive_scaled fz). apply shape_derive; auto. intros; apply Hx; auto.
Qed.
Print Assumptions C39_brick.

(** three nodes *)
Example three_nodes : NoDup [-1; 0; 1] /\ separated [-1; 0; 1].
Proof.
  split.
  - repeat constructor; simpl; intros H; repeat destruct H as [H|H]; try lra; auto.
  - intros i j Hi Hj Hne. simpl in Hi, Hj. assert (2 / 10 ^ 15 <= 1) by (apply (Rmult_le_reg_r (10 ^ 15)); [apply pow_lt; lra|]; unfold Rdiv; rewrite Rmult_assoc, Rinv_l by (apply pow_nonzero; lra); simpl; lra).
    destruct i as [|[|[|]]]; try lia; destruct j as [|[|[|]]]; try lia; cbn [nth]; unfold Rabs; destruct (Rcase_abs _); lra.
Qed.
(** the parabola through them has the middle shape function 1 - x^2 at 1/2 *)
Example middle : nth 1 (lobatto_shape (1 / 2) [-1; 0; 1]) 0 = 3 / 4.
Proof.
  destruct three_nodes as (H & _). rewrite (shape_away _ H).
  - unfold L, bw. simpl. field.
  - intros i Hi. simpl in Hi. assert (1 / 10 ^ 15 <= 1 / 2) by (apply (Rmult_le_reg_r (10 ^ 15)); [apply pow_lt; lra|]; unfold Rdiv; rewrite Rmult_assoc, Rinv_l by (apply pow_nonzero; lra); simpl; lra).
    destruct i as [|[|[|]]]; try lia; cbn [nth]; unfold Rabs; destruct (Rcase_abs _); lra.
  - simpl. lia.
Qed.

(** within the tolerance of a node the evaluated shape functions are constant, so there the derivative matrix is not their gradient *)
Theorem C39_gradient_at_node_refuted :
  is_derive (fun t => nth 1 (lobatto_shape t [-1; 1]) 0) 1 0 /\ nth 1 (lobatto_deriv 1 [-1; 1]) 0 = 1 / 2.
Proof.
  assert (Hpos : 0 < 1 / 10 ^ 15) by (apply Rdiv_lt_0_compat; [lra|apply pow_lt; lra]). split.
  - apply (is_derive_ext_loc (fun _ : R => 1)); [|apply derive_const].
    exists (mkposreal _ Hpos). intros t Ht. unfold ball in Ht; simpl in Ht. unfold AbsRing_ball, abs, minus, plus, opp in Ht; simpl in Ht. symmetry.
    change (1 / (10 * (10 * (10 * (10 * (10 * (10 * (10 * (10 * (10 * (10 * (10 * (10 * (10 * (10 * (10 * 1)))))))))))))))) with (1 / 10 ^ 15) in Ht.
    apply (shape_near [-1; 1] t 1); simpl length; try lia; [|exact Ht].
    intros i j Hi Hj Hne. simpl in Hi, Hj. assert (2 / 10 ^ 15 <= 2) by (apply (Rmult_le_reg_r (10 ^ 15)); [apply pow_lt; lra|]; unfold Rdiv; rewrite Rmult_assoc, Rinv_l by (apply pow_nonzero; lra); simpl; lra).
    destruct i as [|[|]]; try lia; destruct j as [|[|]]; try lia; cbn [nth]; unfold Rabs; destruct (Rcase_abs _); lra.
  - unfold lobatto_deriv, barycentric. simpl. field.
Qed.
Print Assumptions C39_gradient_at_node_refuted.
