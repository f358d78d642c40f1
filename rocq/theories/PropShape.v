(** * C87: IsWithinShape *)
From Coq Require Import List Arith Bool Reals Lra Lia Psatz.
From Verif Require Import RSum AdaptiveModel AdaptiveProofs ShapeModel InterpolationModel.
Import ListNotations.
Local Open Scope R_scope.

(** ** Specification: the convex hull of the corner nodes *)
Definition dim (s : eshape) : nat := match s with SLine => 1 | STriangle | SQuadrilateral => 2 | _ => 3 end.
(** the nodes of the linear elements, as the interpolations number them *)
Definition corners (s : eshape) : list (list R) :=
  match s with
  | SLine => truss_linear_nodes | STriangle => triangle_linear_nodes | SQuadrilateral => quad_linear_nodes
  | STetrahedron => tetrahedron_linear_nodes | SHexahedron => brick_linear_nodes | SPrism => prism_linear_nodes | SPyramid => pyramid_linear_nodes
  end.
Definition in_element (s : eshape) (x : nat -> R) : Prop :=
  exists w : nat -> R, (forall i, (i < length (corners s))%nat -> 0 <= w i) /\ rsum (length (corners s)) w = 1
    /\ forall k, (k < dim s)%nat -> x k = rsum (length (corners s)) (fun i => w i * nth k (nth i (corners s) []) 0).

Lemma rltb_true a b : rltb a b = true <-> a < b.
Proof. destruct (rltb_spec a b) as [(-> & H)|(-> & H)]; split; intros; try lra; try discriminate; reflexivity. Qed.
Ltac splitb := repeat match goal with H : (_ && _)%bool = true |- _ => apply andb_true_iff in H; destruct H | H : rltb _ _ = true |- _ => apply rltb_true in H end.
Lemma all_small a b : (forall e, 0 < e -> a < b + e) -> a <= b.
Proof. intros H. destruct (Rle_lt_dec a b) as [|Hl]; [assumption|]. specialize (H (a - b) ltac:(lra)). lra. Qed.

(** ** C87: every point of the element is accepted, for every positive tolerance *)
Theorem C87_accepts s x e : 0 < e -> in_element s x -> IsWithinShape s x e = true.
Proof.
  intros He (w & Hw & Hs & Hx). destruct s; cbn [dim] in Hx;
    pose proof (Hx 0%nat ltac:(lia)) as X; try pose proof (Hx 1%nat ltac:(lia)) as Y; try pose proof (Hx 2%nat ltac:(lia)) as Z;
    pose proof (Hw 0%nat ltac:(cbn; lia)) as W0; pose proof (Hw 1%nat ltac:(cbn; lia)) as W1;
    try pose proof (Hw 2%nat ltac:(cbn; lia)) as W2; try pose proof (Hw 3%nat ltac:(cbn; lia)) as W3; try pose proof (Hw 4%nat ltac:(cbn; lia)) as W4;
    try pose proof (Hw 5%nat ltac:(cbn; lia)) as W5; try pose proof (Hw 6%nat ltac:(cbn; lia)) as W6; try pose proof (Hw 7%nat ltac:(cbn; lia)) as W7;
    clear Hw Hx; cbn in Hs, X; try cbn in Y; try cbn in Z;
    unfold IsWithinShape; rewrite X; try rewrite Y; try rewrite Z; clear X; try clear Y; try clear Z;
    rewrite !andb_true_iff, !rltb_true; repeat split; try lra.
Qed.
Print Assumptions C87_accepts.

(** ** C87: nothing else is accepted for every positive tolerance, except by the pyramid *)
Theorem C87_rejects_partial s x : s <> SPyramid -> (forall e, 0 < e -> IsWithinShape s x e = true) -> in_element s x.
Proof.
  intros Hs H. set (a := x 0%nat). set (b := x 1%nat). set (c := x 2%nat). destruct s; try congruence; clear Hs.
  - assert (L1: -1 <= a) by (apply all_small; intros e He; specialize (H e He); cbn in H; splitb; unfold a, b, c; lra).
    assert (L2: a <= 1) by (apply all_small; intros e He; specialize (H e He); cbn in H; splitb; unfold a, b, c; lra).
    exists (fun i => match i with O => (1 - a) / 2 | _ => (1 + a) / 2 end). cbn [corners truss_linear_nodes length dim]. split; [|split].
    + intros [|i] _; lra.
    + cbn; lra.
    + intros [|k] Hk; [|lia]. cbn. fold a. lra.
  - assert (L1: 0 <= a) by (apply all_small; intros e He; specialize (H e He); cbn in H; splitb; unfold a, b, c; lra).
    assert (L2: 0 <= b) by (apply all_small; intros e He; specialize (H e He); cbn in H; splitb; unfold a, b, c; lra).
    assert (L3: a + b <= 1) by (apply all_small; intros e He; specialize (H e He); cbn in H; splitb; unfold a, b, c; lra).
    exists (fun i => match i with O => 1 - a - b | 1%nat => a | _ => b end). cbn [corners triangle_linear_nodes length dim]. split; [|split].
    + intros [|[|i]] _; lra.
    + cbn; lra.
    + intros [|[|k]] Hk; [| |lia]; cbn; fold a b; lra.
  - assert (L1: -1 <= a) by (apply all_small; intros e He; specialize (H e He); cbn in H; splitb; unfold a, b, c; lra).
    assert (L2: a <= 1) by (apply all_small; intros e He; specialize (H e He); cbn in H; splitb; unfold a, b, c; lra).
    assert (L3: -1 <= b) by (apply all_small; intros e He; specialize (H e He); cbn in H; splitb; unfold a, b, c; lra).
    assert (L4: b <= 1) by (apply all_small; intros e He; specialize (H e He); cbn in H; splitb; unfold a, b, c; lra).
    exists (fun i => nth i [ (1 - a) * (1 - b) / 4; (1 + a) * (1 - b) / 4; (1 + a) * (1 + b) / 4; (1 - a) * (1 + b) / 4 ] 0).
    cbn [corners quad_linear_nodes length dim]. split; [|split].
    + assert (0 <= (1 - a) * (1 - b)) by nra. assert (0 <= (1 + a) * (1 - b)) by nra. assert (0 <= (1 + a) * (1 + b)) by nra. assert (0 <= (1 - a) * (1 + b)) by nra.
      intros [|[|[|[|i]]]] Hi; cbn; try lra; lia.
    + cbn; field.
    + intros [|[|k]] Hk; [| |lia]; cbn; fold a b; field.
  - assert (L1: 0 <= a) by (apply all_small; intros e He; specialize (H e He); cbn in H; splitb; unfold a, b, c; lra).
    assert (L2: 0 <= b) by (apply all_small; intros e He; specialize (H e He); cbn in H; splitb; unfold a, b, c; lra).
    assert (L3: 0 <= c) by (apply all_small; intros e He; specialize (H e He); cbn in H; splitb; unfold a, b, c; lra).
    assert (L4: a + b + c <= 1) by (apply all_small; intros e He; specialize (H e He); cbn in H; splitb; unfold a, b, c; lra).
    exists (fun i => nth i [1 - a - b - c; a; b; c] 0). cbn [corners tetrahedron_linear_nodes length dim]. split; [|split].
    + intros [|[|[|[|i]]]] Hi; cbn; try lra; lia.
    + cbn; lra.
    + intros [|[|[|k]]] Hk; [| | |lia]; cbn; fold a b c; lra.
  - assert (L1: -1 <= a) by (apply all_small; intros e He; specialize (H e He); cbn in H; splitb; unfold a, b, c; lra).
    assert (L2: a <= 1) by (apply all_small; intros e He; specialize (H e He); cbn in H; splitb; unfold a, b, c; lra).
    assert (L3: -1 <= b) by (apply all_small; intros e He; specialize (H e He); cbn in H; splitb; unfold a, b, c; lra).
    assert (L4: b <= 1) by (apply all_small; intros e He; specialize (H e He); cbn in H; splitb; unfold a, b, c; lra).
    assert (L5: -1 <= c) by (apply all_small; intros e He; specialize (H e He); cbn in H; splitb; unfold a, b, c; lra).
    assert (L6: c <= 1) by (apply all_small; intros e He; specialize (H e He); cbn in H; splitb; unfold a, b, c; lra).
    exists (fun i => nth i [ (1 - a) * (1 - b) * (1 - c) / 8; (1 + a) * (1 - b) * (1 - c) / 8; (1 + a) * (1 + b) * (1 - c) / 8; (1 - a) * (1 + b) * (1 - c) / 8;
                             (1 - a) * (1 - b) * (1 + c) / 8; (1 + a) * (1 - b) * (1 + c) / 8; (1 + a) * (1 + b) * (1 + c) / 8; (1 - a) * (1 + b) * (1 + c) / 8 ] 0).
    cbn [corners brick_linear_nodes length dim]. split; [|split].
    + assert (P: forall u v t, 0 <= u -> 0 <= v -> 0 <= t -> 0 <= u * v * t / 8) by (intros u v t Hu Hv Ht; assert (0 <= u * v * t) by (apply Rmult_le_pos; [apply Rmult_le_pos|]; assumption); lra).
      intros [|[|[|[|[|[|[|[|i]]]]]]]] Hi; cbn; try (apply P; lra); cbn in Hi; lia.
    + cbn; field.
    + intros [|[|[|k]]] Hk; [| | |lia]; cbn; fold a b c; field.
  - assert (L1: 0 <= a) by (apply all_small; intros e He; specialize (H e He); cbn in H; splitb; unfold a, b, c; lra).
    assert (L2: 0 <= b) by (apply all_small; intros e He; specialize (H e He); cbn in H; splitb; unfold a, b, c; lra).
    assert (L3: a + b <= 1) by (apply all_small; intros e He; specialize (H e He); cbn in H; splitb; unfold a, b, c; lra).
    assert (L5: -1 <= c) by (apply all_small; intros e He; specialize (H e He); cbn in H; splitb; unfold a, b, c; lra).
    assert (L6: c <= 1) by (apply all_small; intros e He; specialize (H e He); cbn in H; splitb; unfold a, b, c; lra).
    exists (fun i => nth i [ (1 - a - b) * (1 - c) / 2; a * (1 - c) / 2; b * (1 - c) / 2; (1 - a - b) * (1 + c) / 2; a * (1 + c) / 2; b * (1 + c) / 2 ] 0).
    cbn [corners prism_linear_nodes length dim]. split; [|split].
    + assert (P: forall u v, 0 <= u -> 0 <= v -> 0 <= u * v / 2) by (intros u v Hu Hv; assert (0 <= u * v) by (apply Rmult_le_pos; assumption); lra).
      intros [|[|[|[|[|[|i]]]]]] Hi; cbn; try (apply P; lra); cbn in Hi; lia.
    + cbn; field.
    + intros [|[|[|k]]] Hk; [| | |lia]; cbn; fold a b c; field.
Qed.
Print Assumptions C87_rejects_partial.

(** the two together: acceptance for all tolerances is membership *)
Corollary C87_membership_partial s x : s <> SPyramid -> (in_element s x <-> forall e, 0 < e -> IsWithinShape s x e = true).
Proof. intros Hs. split; [intros H e He; apply C87_accepts; assumption|apply C87_rejects_partial; exact Hs]. Qed.

(** ** a point outside is at most [e] away: what the tolerance means, for all shapes but the pyramid *)
Theorem C87_tolerance s x e : s <> SPyramid -> 0 < e -> IsWithinShape s x e = true ->
  exists y, in_element s y /\ forall k, (k < dim s)%nat -> Rabs (x k - y k) <= e.
Proof.
  intros Hs He H.
  assert (Cl: forall t, -1 - e < t < 1 + e -> exists u, -1 <= u <= 1 /\ Rabs (t - u) <= e).
  { intros t Ht. destruct (Rlt_le_dec t (-1)) as [A|A]; [exists (-1); split; [lra|unfold Rabs; destruct (Rcase_abs _); lra]|].
    destruct (Rlt_le_dec 1 t) as [B|B]; [exists 1; split; [lra|unfold Rabs; destruct (Rcase_abs _); lra]|].
    exists t. split; [lra|unfold Rabs; destruct (Rcase_abs _); lra]. }
  assert (Mv: forall t, - e < t -> exists u, 0 <= u /\ Rabs (t - u) <= e /\ (u = 0 \/ u = t - e)).
  { intros t Ht. destruct (Rle_lt_dec t e) as [A|A]; [exists 0|exists (t - e)]; (split; [lra|split; [unfold Rabs; destruct (Rcase_abs _); lra|auto]]). }
  assert (In: forall y, (forall e', 0 < e' -> IsWithinShape s y e' = true) -> in_element s y) by (intros y; apply C87_rejects_partial; exact Hs).
  destruct s; try congruence; cbn in H; splitb; cbn [dim].
  - destruct (Cl (x 0%nat)) as (u & Hu & Du); [lra|]. exists (fun _ => u). split; [|intros [|k] Hk; [exact Du|lia]].
    apply In. intros e' He'. cbn. rewrite !andb_true_iff, !rltb_true. lra.
  - destruct (Mv (x 0%nat)) as (u & Hu & Du & Cu); [lra|]. destruct (Mv (x 1%nat)) as (v & Hv & Dv & Cv); [lra|].
    exists (fun k => match k with O => u | _ => v end).
    split; [|intros [|[|k]] Hk; [exact Du|exact Dv|lia]]. apply In. intros e' He'. cbn. rewrite !andb_true_iff, !rltb_true. lra.
  - destruct (Cl (x 0%nat)) as (u & Hu & Du); [lra|]. destruct (Cl (x 1%nat)) as (v & Hv & Dv); [lra|]. exists (fun k => match k with O => u | _ => v end).
    split; [|intros [|[|k]] Hk; [exact Du|exact Dv|lia]]. apply In. intros e' He'. cbn. rewrite !andb_true_iff, !rltb_true. lra.
  - destruct (Mv (x 0%nat)) as (u & Hu & Du & Cu); [lra|]. destruct (Mv (x 1%nat)) as (v & Hv & Dv & Cv); [lra|]. destruct (Mv (x 2%nat)) as (t & Ht & Dt & Ct); [lra|].
    exists (fun k => match k with O => u | 1%nat => v | _ => t end).
    split; [|intros [|[|[|k]]] Hk; [exact Du|exact Dv|exact Dt|lia]]. apply In. intros e' He'. cbn. rewrite !andb_true_iff, !rltb_true. lra.
  - destruct (Cl (x 0%nat)) as (u & Hu & Du); [lra|]. destruct (Cl (x 1%nat)) as (v & Hv & Dv); [lra|]. destruct (Cl (x 2%nat)) as (t & Ht & Dt); [lra|].
    exists (fun k => match k with O => u | 1%nat => v | _ => t end).
    split; [|intros [|[|[|k]]] Hk; [exact Du|exact Dv|exact Dt|lia]]. apply In. intros e' He'. cbn. rewrite !andb_true_iff, !rltb_true. lra.
  - destruct (Mv (x 0%nat)) as (u & Hu & Du & Cu); [lra|]. destruct (Mv (x 1%nat)) as (v & Hv & Dv & Cv); [lra|]. destruct (Cl (x 2%nat)) as (t & Ht & Dt); [lra|].
    exists (fun k => match k with O => u | 1%nat => v | _ => t end).
    split; [|intros [|[|[|k]]] Hk; [exact Du|exact Dv|exact Dt|lia]]. apply In. intros e' He'. cbn. rewrite !andb_true_iff, !rltb_true. lra.
Qed.
Print Assumptions C87_tolerance.

(** the pyramid: a lower bound for z is all that is missing.  Above the base acceptance for all tolerances is membership,
    and what is accepted with tolerance e above -e is at most 2 e away from the element *)
Lemma pyramid_inside x : Rabs (x 0%nat) <= 1 - x 2%nat -> Rabs (x 1%nat) <= 1 - x 2%nat -> 0 <= x 2%nat -> in_element SPyramid x.
Proof.
  set (a := x 0%nat). set (b := x 1%nat). set (c := x 2%nat). intros Ha Hb Hc.
  assert (A: - (1 - c) <= a <= 1 - c) by (revert Ha; unfold Rabs; destruct (Rcase_abs a); lra).
  assert (B: - (1 - c) <= b <= 1 - c) by (revert Hb; unfold Rabs; destruct (Rcase_abs b); lra).
  destruct (Req_dec c 1) as [E|E].
  - exists (fun i => nth i [0; 0; 0; 0; 1] 0). cbn [corners pyramid_linear_nodes length dim]. split; [|split].
    + intros [|[|[|[|[|i]]]]] Hi; cbn; try lra; cbn in Hi; lia.
    + cbn; lra.
    + intros [|[|[|k]]] Hk; [| | |lia]; cbn; fold a b c; lra.
  - set (h := 1 - c) in *. assert (Hh: 0 < h) by (unfold h in *; lra).
    exists (fun i => nth i [(h + a) * (h + b) / (4 * h); (h + a) * (h - b) / (4 * h); (h - a) * (h - b) / (4 * h); (h - a) * (h + b) / (4 * h); c] 0).
    cbn [corners pyramid_linear_nodes length dim]. split; [|split].
    + assert (P: forall u v, 0 <= u -> 0 <= v -> 0 <= u * v / (4 * h)) by (intros u v Hu Hv; apply Rmult_le_pos; [apply Rmult_le_pos; assumption|apply Rlt_le, Rinv_0_lt_compat; lra]).
      intros [|[|[|[|[|i]]]]] Hi; cbn; try (apply P; lra); try exact Hc; cbn in Hi; lia.
    + cbn. replace c with (1 - h) by (unfold h; lra). field. lra.
    + intros [|[|[|k]]] Hk; [| | |lia]; cbn; fold a b c; field; lra.
Qed.
(** without a tolerance in the call: the whole closed element is accepted, and nothing farther from it than a hundred millionth in some coordinate *)
Theorem C87_default s x : (in_element s x -> IsWithinShape s x default_tolerance = true) /\
  (s <> SPyramid -> IsWithinShape s x default_tolerance = true -> exists y, in_element s y /\ forall k, (k < dim s)%nat -> Rabs (x k - y k) <= / 100000000).
Proof.
  assert (E : default_tolerance = / 100000000) by (unfold default_tolerance; cbn [pow]; field). split.
  - apply C87_accepts. rewrite E. lra.
  - rewrite E. intros Hs. apply C87_tolerance; [exact Hs|lra].
Qed.
Print Assumptions C87_default.

Theorem C87_pyramid_partial x : (0 <= x 2%nat -> (in_element SPyramid x <-> forall e, 0 < e -> IsWithinShape SPyramid x e = true)) /\
  (forall e, 0 < e -> - e < x 2%nat -> IsWithinShape SPyramid x e = true ->
     exists y, in_element SPyramid y /\ forall k, (k < 3)%nat -> Rabs (x k - y k) <= 2 * e).
Proof.
  split.
  - intros Hz. split; [intros H e He; apply C87_accepts; assumption|]. intros H.
    assert (Ab: forall p q, - q <= p -> p <= q -> Rabs p <= q) by (intros p q; unfold Rabs; destruct (Rcase_abs p); lra).
    apply pyramid_inside; [apply Ab..|exact Hz]; apply all_small; intros e He; specialize (H e He); cbn in H; splitb; lra.
  - intros e He Hz H. cbn in H. splitb. set (a := x 0%nat) in *. set (b := x 1%nat) in *. set (c := x 2%nat) in *.
    assert (Cl: forall t r, 0 <= r -> - r - 2 * e <= t <= r + 2 * e -> exists u, Rabs u <= r /\ Rabs (t - u) <= 2 * e).
    { intros t r Hr Ht. destruct (Rlt_le_dec t (- r)) as [A|A]; [exists (- r); split; unfold Rabs; repeat destruct (Rcase_abs _); lra|].
      destruct (Rlt_le_dec r t) as [B|B]; [exists r; split; unfold Rabs; repeat destruct (Rcase_abs _); lra|].
      exists t. split; unfold Rabs; repeat destruct (Rcase_abs _); lra. }
    assert (Z: exists d, 0 <= d <= 1 /\ Rabs (c - d) <= 2 * e /\ 1 - c + e <= 1 - d + 2 * e).
    { destruct (Rle_lt_dec c 0) as [A|A]; [exists 0|destruct (Rle_lt_dec c 1) as [B|B]; [exists c|exists 1]]; (split; [lra|split; [unfold Rabs; destruct (Rcase_abs _); lra|lra]]). }
    destruct Z as (d & Hd & Dd & Ed).
    destruct (Cl a (1 - d)) as (u & Hu & Du); [lra|lra|]. destruct (Cl b (1 - d)) as (v & Hv & Dv); [lra|lra|].
    exists (fun k => match k with O => u | 1%nat => v | _ => d end). split; [apply pyramid_inside; [exact Hu|exact Hv|lra]|].
    intros [|[|[|k]]] Hk; [exact Du|exact Dv|exact Dd|lia].
Qed.
Print Assumptions C87_pyramid_partial.

(** an inner point of the triangle, and one outside *)
Example C87_case : in_element STriangle (fun k => match k with O => 1 / 4 | _ => 1 / 2 end) 
  /\ IsWithinShape STriangle (fun k => match k with O => 3 / 4 | _ => 1 / 2 end) default_tolerance = false.
Proof.
  split.
  - apply C87_rejects_partial; [discriminate|]. intros e He. cbn. rewrite !andb_true_iff, !rltb_true. lra.
  - apply not_true_iff_false. unfold IsWithinShape, default_tolerance. rewrite !andb_true_iff, !rltb_true.
    intros [_ H]. assert (1 / 10 ^ 8 < 1 / 4) by (apply (Rmult_lt_reg_r (10 ^ 8)); [apply pow_lt; lra|]; unfold Rdiv; rewrite Rmult_assoc, Rinv_l; [|apply pow_nonzero; lra]; cbn [pow]; lra). lra.
Qed.

(** ** C87 is false for the pyramid: nothing bounds z from below, a point far below the base is inside for every tolerance *)
Theorem C87_pyramid_refuted : let x := fun k => match k with 2%nat => -100 | _ => 50 end in
  (forall e, 0 < e -> IsWithinShape SPyramid x e = true) /\ ~ in_element SPyramid x.
Proof.
  intros x. split.
  - intros e He. unfold IsWithinShape, x. rewrite !andb_true_iff, !rltb_true. lra.
  - intros (w & Hw & Hs & Hx). specialize (Hx 2%nat ltac:(cbn; lia)). cbn in Hx. specialize (Hw 4%nat ltac:(cbn; lia)). lra.
Qed.
Print Assumptions C87_pyramid_refuted.
