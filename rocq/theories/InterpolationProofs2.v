(** * Proofs for C36 - C38 *)
From Coq Require Import List Arith Bool Reals Lra Lia.
From Coquelicot Require Import Coquelicot.
From Verif Require Import RSum InterpolationModel InterpolationSpec.
Import ListNotations.
Local Open Scope R_scope.

Ltac model := cbv [truss_linear truss_linear_nodes truss_linear_shape truss_linear_deriv truss_quadratic truss_quadratic_nodes truss_quadratic_shape truss_quadratic_deriv truss_3rd truss_3rd_nodes truss_3rd_shape truss_3rd_deriv triangle_linear triangle_linear_nodes triangle_linear_shape triangle_linear_deriv triangle_quadratic triangle_quadratic_nodes triangle_quadratic_shape triangle_quadratic_deriv triangle_3rd triangle_3rd_nodes triangle_3rd_shape triangle_3rd_deriv quad_linear quad_linear_nodes quad_linear_shape quad_linear_deriv quad_serendipity quad_serendipity_nodes quad_serendipity_shape quad_serendipity_deriv tetrahedron_linear tetrahedron_linear_nodes tetrahedron_linear_shape tetrahedron_linear_deriv tetrahedron_quadratic tetrahedron_quadratic_nodes tetrahedron_quadratic_shape tetrahedron_quadratic_deriv brick_linear brick_linear_nodes brick_linear_shape brick_linear_deriv brick_quadratic brick_quadratic_nodes brick_quadratic_shape brick_quadratic_deriv prism_linear prism_linear_nodes prism_linear_shape prism_linear_deriv prism_quadratic prism_quadratic_nodes prism_quadratic_shape prism_quadratic_deriv truss_4th truss_4th_nodes truss_4th_shape truss_4th_deriv triangle_4th triangle_4th_nodes triangle_4th_shape triangle_4th_deriv pyramid_linear pyramid_linear_nodes pyramid_linear_shape pyramid_linear_deriv e_dim e_nodes e_shape e_deriv at_node move nth rlsum interpolate map combine fst snd length Nat.eqb kronecker].
Ltac model_in H := cbv [truss_linear truss_linear_nodes truss_linear_shape truss_linear_deriv truss_quadratic truss_quadratic_nodes truss_quadratic_shape truss_quadratic_deriv truss_3rd truss_3rd_nodes truss_3rd_shape truss_3rd_deriv triangle_linear triangle_linear_nodes triangle_linear_shape triangle_linear_deriv triangle_quadratic triangle_quadratic_nodes triangle_quadratic_shape triangle_quadratic_deriv triangle_3rd triangle_3rd_nodes triangle_3rd_shape triangle_3rd_deriv quad_linear quad_linear_nodes quad_linear_shape quad_linear_deriv quad_serendipity quad_serendipity_nodes quad_serendipity_shape quad_serendipity_deriv tetrahedron_linear tetrahedron_linear_nodes tetrahedron_linear_shape tetrahedron_linear_deriv tetrahedron_quadratic tetrahedron_quadratic_nodes tetrahedron_quadratic_shape tetrahedron_quadratic_deriv brick_linear brick_linear_nodes brick_linear_shape brick_linear_deriv brick_quadratic brick_quadratic_nodes brick_quadratic_shape brick_quadratic_deriv prism_linear prism_linear_nodes prism_linear_shape prism_linear_deriv prism_quadratic prism_quadratic_nodes prism_quadratic_shape prism_quadratic_deriv truss_4th truss_4th_nodes truss_4th_shape truss_4th_deriv triangle_4th triangle_4th_nodes triangle_4th_shape triangle_4th_deriv pyramid_linear pyramid_linear_nodes pyramid_linear_shape pyramid_linear_deriv e_dim e_nodes e_shape e_deriv length] in H.

Lemma lt_pred i n : (S i < S n)%nat -> (i < n)%nat.
Proof. lia. Qed.
(** case distinction on an index below a concrete bound *)
Ltac cases i H := repeat (destruct i as [|i]; [clear H|apply lt_pred in H]); [..|exfalso; revert H; apply Nat.nlt_0_r].
Ltac derive := auto_derive; [auto|]; try ring; field.

(** ** fourth order elements: the coefficients are rounded to 12 digits *)
Lemma unit_mul a b : 0 <= a <= 1 -> 0 <= b <= 1 -> 0 <= a * b <= 1.
Proof. intros; split; nra. Qed.
Lemma sym_mul a b : -1 <= a <= 1 -> -1 <= b <= 1 -> -1 <= a * b <= 1.
Proof. intros; split; nra. Qed.
Ltac close := apply Rabs_le; split; lra.
Lemma truss_4th_partition x : -1 <= x 0%nat <= 1 -> Rabs (rlsum (truss_4th_shape x) - 1) <= / 10 ^ 10.
Proof.
  intros H. pose proof (sym_mul _ _ H H) as H2. pose proof (sym_mul _ _ H2 H) as H3. pose proof (sym_mul _ _ H3 H) as H4.
  model. simpl pow. set (r := x 0%nat) in *. close.
Qed.
Lemma truss_4th_nodal i j : (i < 5)%nat -> (j < 5)%nat ->
  Rabs (nth j (truss_4th_shape (at_node (nth i truss_4th_nodes []))) 0 - kronecker i j) <= / 10 ^ 10.
Proof. intros Hi Hj. cases i Hi; cases j Hj; model; simpl pow; close. Qed.
Lemma truss_4th_gradient x : -1 <= x 0%nat <= 1 -> gradient_near (/ 10 ^ 9) 1 truss_4th_shape truss_4th_deriv x.
Proof.
  intros H. pose proof (sym_mul _ _ H H) as H2. pose proof (sym_mul _ _ H2 H) as H3.
  split; [reflexivity|]. intros i d Hi Hd. model_in Hi. cases i Hi; cases d Hd; model; (eexists; split; [auto_derive; [auto|reflexivity]|simpl pow; set (r := x 0%nat) in *; close]).
Qed.

Lemma triangle_4th_partition x : 0 <= x 0%nat -> 0 <= x 1%nat -> x 0%nat + x 1%nat <= 1 -> Rabs (rlsum (triangle_4th_shape x) - 1) <= / 10 ^ 8.
Proof.
  intros Hr' Hs' H. assert (Hr : 0 <= x 0%nat <= 1) by lra. assert (Hs : 0 <= x 1%nat <= 1) by lra. clear Hr' Hs' H. model. simpl pow.
  set (r := x 0%nat) in *. set (s := x 1%nat) in *. clearbody r s.
  pose proof (unit_mul _ _ Hr Hr) as H20. pose proof (unit_mul _ _ Hr Hs) as H11. pose proof (unit_mul _ _ Hs Hs) as H02.
  pose proof (unit_mul _ _ H20 Hr) as H30. pose proof (unit_mul _ _ H20 Hs) as H21. pose proof (unit_mul _ _ H11 Hs) as H12. pose proof (unit_mul _ _ H02 Hs) as H03.
  pose proof (unit_mul _ _ H30 Hr) as H40. pose proof (unit_mul _ _ H30 Hs) as H31. pose proof (unit_mul _ _ H21 Hs) as H22. pose proof (unit_mul _ _ H12 Hs) as H13. pose proof (unit_mul _ _ H03 Hs) as H04.
  close.
Qed.
Lemma triangle_4th_nodal i j : (i < 15)%nat -> (j < 15)%nat ->
  Rabs (nth j (triangle_4th_shape (at_node (nth i triangle_4th_nodes []))) 0 - kronecker i j) <= / 10 ^ 9.
Proof. intros Hi Hj. cases i Hi; cases j Hj; model; simpl pow; close. Qed.
Lemma triangle_4th_gradient x : 0 <= x 0%nat -> 0 <= x 1%nat -> x 0%nat + x 1%nat <= 1 -> gradient_near (/ 10 ^ 8) 2 triangle_4th_shape triangle_4th_deriv x.
Proof.
  intros Hr' Hs' H. assert (Hr : 0 <= x 0%nat <= 1) by lra. assert (Hs : 0 <= x 1%nat <= 1) by lra. clear Hr' Hs' H.
  pose proof (unit_mul _ _ Hr Hr) as H20. pose proof (unit_mul _ _ Hr Hs) as H11. pose proof (unit_mul _ _ Hs Hs) as H02.
  pose proof (unit_mul _ _ H20 Hr) as H30. pose proof (unit_mul _ _ H20 Hs) as H21. pose proof (unit_mul _ _ H11 Hs) as H12. pose proof (unit_mul _ _ H02 Hs) as H03.
  split; [reflexivity|]. intros i d Hi Hd. model_in Hi. cases i Hi; cases d Hd; model; (eexists; split; [auto_derive; [auto|reflexivity]|simpl pow; set (r := x 0%nat) in *; set (s := x 1%nat) in *; close]).
Qed.

(** ** the pyramid *)
Ltac req := match goal with |- context [Req_EM_T ?a ?b] => destruct (Req_EM_T a b) end.
Lemma pyramid_partition : partition_of_unity pyramid_linear_shape.
Proof. intros x. model. field. Qed.
Lemma pyramid_linear_fields x : reproduces_linear 3 pyramid_linear_nodes pyramid_linear_shape x.
Proof.
  intros d Hd. cases d Hd; model; field.
Qed.
Lemma pyramid_nodal : nodal_basis pyramid_linear_nodes pyramid_linear_shape.
Proof.
  intros i j Hi Hj. model_in Hi. model_in Hj. cases i Hi; cases j Hj; model; try req; try lra; field; lra.
Qed.
(** away from the plane z = 1 *)
Definition pyramid_smooth (x y z : R) : list R :=
  [ (25 / 100) * ((1 + x) * (1 + y) - z + x * y * z / (1 - z)); (25 / 100) * ((1 + x) * (1 - y) - z - x * y * z / (1 - z));
    (25 / 100) * ((1 - x) * (1 - y) - z + x * y * z / (1 - z)); (25 / 100) * ((1 - x) * (1 + y) - z - x * y * z / (1 - z)); z ].
Lemma pyramid_is_smooth x : x 2%nat <> 1 -> pyramid_linear_shape x = pyramid_smooth (x 0%nat) (x 1%nat) (x 2%nat).
Proof. intros H. unfold pyramid_linear_shape. req; [exfalso; lra|]. reflexivity. Qed.
Lemma near_ne (z : R) : z <> 1 -> locally z (fun t : R => t <> 1).
Proof. intros H. apply (open_neq 1). exact H. Qed.
Lemma pyramid_gradient x : x 2%nat <> 1 -> gradient_at 3 pyramid_linear_shape pyramid_linear_deriv x.
Proof.
  intros Hz. assert (Hz' : 1 - x 2%nat <> 0) by lra. split; [reflexivity|]. intros i d Hi Hd.
  assert (E : locally (x d) (fun t => nth i (pyramid_smooth (move x d t 0%nat) (move x d t 1%nat) (move x d t 2%nat)) 0 = nth i (pyramid_linear_shape (move x d t)) 0)).
  { destruct (Nat.eq_dec d 2) as [->|Hd2].
    - apply (filter_imp (fun t : R => t <> 1)); [|apply near_ne; exact Hz]. intros t Ht. rewrite pyramid_is_smooth by exact Ht. reflexivity.
    - apply filter_forall. intros t. rewrite pyramid_is_smooth; [reflexivity|]. unfold move. destruct (Nat.eqb_spec 2 d); [lia|exact Hz]. }
  apply (is_derive_ext_loc _ _ _ _ E). model_in Hi. clear E.
  cases i Hi; cases d Hd; model; unfold pyramid_smooth; cbv [nth]; try (match goal with |- context [Req_EM_T ?a ?b] => destruct (Req_EM_T a b) as [Hc|_]; [exfalso; exact (Hz' Hc)|] end);
    (auto_derive; [repeat split; auto; lra|]; field; exact Hz').
Qed.
(** and at the apex, where the code evaluates the derivative a little below *)
Lemma pyramid_gradient_apex x : x 0%nat = 0 -> x 1%nat = 0 -> x 2%nat = 1 -> gradient_at 3 pyramid_linear_shape pyramid_linear_deriv x.
Proof.
  intros Hx Hy Hz. split; [reflexivity|]. intros i d Hi Hd.
  assert (H52 : / 2 ^ 52 <> 0) by (apply Rinv_neq_0_compat, pow_nonzero; lra).
  assert (D : nth d (nth i (pyramid_linear_deriv x) []) 0 = nth d (nth i [[25/100; 25/100; -(25/100)]; [25/100; -(25/100); -(25/100)]; [-(25/100); -(25/100); -(25/100)]; [-(25/100); 25/100; -(25/100)]; [0; 0; 1]] []) 0).
  { model_in Hi. unfold pyramid_linear_deriv. rewrite Hx, Hy, Hz. destruct (Req_EM_T (1 - 1) 0) as [_|N]; [|lra].
    set (z := 1 - / 2 ^ 52). assert (Hn : 1 - z <> 0) by (unfold z; intros E; apply H52; lra). cases i Hi; cases d Hd; cbv [nth]; field; exact Hn. }
  rewrite D. clear D.
  set (g := fun t : R => nth i (nth d [[25/100 * t; 25/100 * t; -(25/100) * t; -(25/100) * t; 1]; [25/100 * t; -(25/100) * t; -(25/100) * t; 25/100 * t; 1];
       [25/100 * (1 - t); 25/100 * (1 - t); 25/100 * (1 - t); 25/100 * (1 - t); t]] []) 0).
  apply (is_derive_ext g); unfold g.
  - intros t. model_in Hi. cases i Hi; cases d Hd; model; cbv [seq map nth]; rewrite ?Hx, ?Hy, ?Hz; try req; try (field; lra); try lra.
  - model_in Hi. cases i Hi; cases d Hd; cbv [seq map nth]; (auto_derive; [auto|]; field).
Qed.
