(** * Proofs for C36 - C38 *)
From Coq Require Import List Arith Bool Reals Lra Lia.
From Coquelicot Require Import Coquelicot.
From Verif Require Import RSum InterpolationModel InterpolationSpec.
Import ListNotations.
Local Open Scope R_scope.

Ltac model := cbv [truss_linear truss_linear_nodes truss_linear_shape truss_linear_deriv truss_quadratic truss_quadratic_nodes truss_quadratic_shape truss_quadratic_deriv truss_3rd truss_3rd_nodes truss_3rd_shape truss_3rd_deriv triangle_linear triangle_linear_nodes triangle_linear_shape triangle_linear_deriv triangle_quadratic triangle_quadratic_nodes triangle_quadratic_shape triangle_quadratic_deriv triangle_3rd triangle_3rd_nodes triangle_3rd_shape triangle_3rd_deriv quad_linear quad_linear_nodes quad_linear_shape quad_linear_deriv quad_serendipity quad_serendipity_nodes quad_serendipity_shape quad_serendipity_deriv tetrahedron_linear tetrahedron_linear_nodes tetrahedron_linear_shape tetrahedron_linear_deriv tetrahedron_quadratic tetrahedron_quadratic_nodes tetrahedron_quadratic_shape tetrahedron_quadratic_deriv brick_linear brick_linear_nodes brick_linear_shape brick_linear_deriv brick_quadratic brick_quadratic_nodes brick_quadratic_shape brick_quadratic_deriv prism_linear prism_linear_nodes prism_linear_shape prism_linear_deriv prism_quadratic prism_quadratic_nodes prism_quadratic_shape prism_quadratic_deriv truss_4th truss_4th_nodes truss_4th_shape truss_4th_deriv triangle_4th triangle_4th_nodes triangle_4th_shape triangle_4th_deriv pyramid_linear pyramid_linear_nodes pyramid_linear_shape pyramid_linear_deriv e_dim e_nodes e_shape e_deriv at_node move nth rlsum interpolate map combine fst snd length Nat.eqb kronecker].
Ltac model_in H := cbv [truss_linear truss_linear_nodes truss_linear_shape truss_linear_deriv truss_quadratic truss_quadratic_nodes truss_quadratic_shape truss_quadratic_deriv truss_3rd truss_3rd_nodes truss_3rd_shape truss_3rd_deriv triangle_linear triangle_linear_nodes triangle_linear_shape triangle_linear_deriv triangle_quadratic triangle_quadratic_nodes triangle_quadratic_shape triangle_quadratic_deriv triangle_3rd triangle_3rd_nodes triangle_3rd_shape triangle_3rd_deriv quad_linear quad_linear_nodes quad_linear_shape quad_linear_deriv quad_serendipity quad_serendipity_nodes quad_serendipity_shape quad_serendipity_deriv tetrahedron_linear tetrahedron_linear_nodes tetrahedron_linear_shape tetrahedron_linear_deriv tetrahedron_quadratic tetrahedron_quadratic_nodes tetrahedron_quadratic_shape tetrahedron_quadratic_deriv brick_linear brick_linear_nodes brick_linear_shape brick_linear_deriv brick_quadratic brick_quadratic_nodes brick_quadratic_shape brick_quadratic_deriv prism_linear prism_linear_nodes prism_linear_shape prism_linear_deriv prism_quadratic prism_quadratic_nodes prism_quadratic_shape prism_quadratic_deriv truss_4th truss_4th_nodes truss_4th_shape truss_4th_deriv triangle_4th triangle_4th_nodes triangle_4th_shape triangle_4th_deriv pyramid_linear pyramid_linear_nodes pyramid_linear_shape pyramid_linear_deriv e_dim e_nodes e_shape e_deriv length] in H.

Lemma lt_pred i n : (S i < S n)%nat -> (i < n)%nat.
Proof. lia. Qed.
(** case distinction on an index below a concrete bound *)
Ltac cases i H := repeat (destruct i as [|i]; [clear H|apply lt_pred in H]); [..|exfalso; revert H; apply Nat.nlt_0_r].
Ltac derive := auto_derive; [auto|]; try ring; field.

Lemma truss_linear_partition : partition_of_unity truss_linear_shape.
Proof. intros x. model. field. Qed.
Lemma truss_linear_linear x : reproduces_linear (e_dim truss_linear) truss_linear_nodes truss_linear_shape x.
Proof. intros d Hd. model_in Hd. cases d Hd; model; field. Qed.
Lemma truss_linear_nodal : nodal_basis truss_linear_nodes truss_linear_shape.
Proof. intros i j Hi Hj. model_in Hi. model_in Hj. cases i Hi; cases j Hj; model; field. Qed.
Lemma truss_linear_gradient x : gradient_at (e_dim truss_linear) truss_linear_shape truss_linear_deriv x.
Proof. split; [reflexivity|]. intros i d Hi Hd. model_in Hi. model_in Hd. cases i Hi; cases d Hd; model; derive. Qed.

Lemma truss_quadratic_partition : partition_of_unity truss_quadratic_shape.
Proof. intros x. model. field. Qed.
Lemma truss_quadratic_linear x : reproduces_linear (e_dim truss_quadratic) truss_quadratic_nodes truss_quadratic_shape x.
Proof. intros d Hd. model_in Hd. cases d Hd; model; field. Qed.
Lemma truss_quadratic_nodal : nodal_basis truss_quadratic_nodes truss_quadratic_shape.
Proof. intros i j Hi Hj. model_in Hi. model_in Hj. cases i Hi; cases j Hj; model; field. Qed.
Lemma truss_quadratic_gradient x : gradient_at (e_dim truss_quadratic) truss_quadratic_shape truss_quadratic_deriv x.
Proof. split; [reflexivity|]. intros i d Hi Hd. model_in Hi. model_in Hd. cases i Hi; cases d Hd; model; derive. Qed.

Lemma truss_3rd_partition : partition_of_unity truss_3rd_shape.
Proof. intros x. model. field. Qed.
Lemma truss_3rd_linear x : reproduces_linear (e_dim truss_3rd) truss_3rd_nodes truss_3rd_shape x.
Proof. intros d Hd. model_in Hd. cases d Hd; model; field. Qed.
Lemma truss_3rd_nodal : nodal_basis truss_3rd_nodes truss_3rd_shape.
Proof. intros i j Hi Hj. model_in Hi. model_in Hj. cases i Hi; cases j Hj; model; field. Qed.
Lemma truss_3rd_gradient x : gradient_at (e_dim truss_3rd) truss_3rd_shape truss_3rd_deriv x.
Proof. split; [reflexivity|]. intros i d Hi Hd. model_in Hi. model_in Hd. cases i Hi; cases d Hd; model; derive. Qed.

Lemma triangle_linear_partition : partition_of_unity triangle_linear_shape.
Proof. intros x. model. field. Qed.
Lemma triangle_linear_linear x : reproduces_linear (e_dim triangle_linear) triangle_linear_nodes triangle_linear_shape x.
Proof. intros d Hd. model_in Hd. cases d Hd; model; field. Qed.
Lemma triangle_linear_nodal : nodal_basis triangle_linear_nodes triangle_linear_shape.
Proof. intros i j Hi Hj. model_in Hi. model_in Hj. cases i Hi; cases j Hj; model; field. Qed.
Lemma triangle_linear_gradient x : gradient_at (e_dim triangle_linear) triangle_linear_shape triangle_linear_deriv x.
Proof. split; [reflexivity|]. intros i d Hi Hd. model_in Hi. model_in Hd. cases i Hi; cases d Hd; model; derive. Qed.

Lemma triangle_quadratic_partition : partition_of_unity triangle_quadratic_shape.
Proof. intros x. model. field. Qed.
Lemma triangle_quadratic_linear x : reproduces_linear (e_dim triangle_quadratic) triangle_quadratic_nodes triangle_quadratic_shape x.
Proof. intros d Hd. model_in Hd. cases d Hd; model; field. Qed.
Lemma triangle_quadratic_nodal : nodal_basis triangle_quadratic_nodes triangle_quadratic_shape.
Proof. intros i j Hi Hj. model_in Hi. model_in Hj. cases i Hi; cases j Hj; model; field. Qed.
Lemma triangle_quadratic_gradient x : gradient_at (e_dim triangle_quadratic) triangle_quadratic_shape triangle_quadratic_deriv x.
Proof. split; [reflexivity|]. intros i d Hi Hd. model_in Hi. model_in Hd. cases i Hi; cases d Hd; model; derive. Qed.

Lemma triangle_3rd_partition : partition_of_unity triangle_3rd_shape.
Proof. intros x. model. field. Qed.
Lemma triangle_3rd_linear x : reproduces_linear (e_dim triangle_3rd) triangle_3rd_nodes triangle_3rd_shape x.
Proof. intros d Hd. model_in Hd. cases d Hd; model; field. Qed.
Lemma triangle_3rd_nodal : nodal_basis triangle_3rd_nodes triangle_3rd_shape.
Proof. intros i j Hi Hj. model_in Hi. model_in Hj. cases i Hi; cases j Hj; model; field. Qed.
Lemma triangle_3rd_gradient x : gradient_at (e_dim triangle_3rd) triangle_3rd_shape triangle_3rd_deriv x.
Proof. split; [reflexivity|]. intros i d Hi Hd. model_in Hi. model_in Hd. cases i Hi; cases d Hd; model; derive. Qed.

Lemma quad_linear_partition : partition_of_unity quad_linear_shape.
Proof. intros x. model. field. Qed.
Lemma quad_linear_linear x : reproduces_linear (e_dim quad_linear) quad_linear_nodes quad_linear_shape x.
Proof. intros d Hd. model_in Hd. cases d Hd; model; field. Qed.
Lemma quad_linear_nodal : nodal_basis quad_linear_nodes quad_linear_shape.
Proof. intros i j Hi Hj. model_in Hi. model_in Hj. cases i Hi; cases j Hj; model; field. Qed.
Lemma quad_linear_gradient x : gradient_at (e_dim quad_linear) quad_linear_shape quad_linear_deriv x.
Proof. split; [reflexivity|]. intros i d Hi Hd. model_in Hi. model_in Hd. cases i Hi; cases d Hd; model; derive. Qed.

Lemma quad_serendipity_partition : partition_of_unity quad_serendipity_shape.
Proof. intros x. model. field. Qed.
Lemma quad_serendipity_linear x : reproduces_linear (e_dim quad_serendipity) quad_serendipity_nodes quad_serendipity_shape x.
Proof. intros d Hd. model_in Hd. cases d Hd; model; field. Qed.
Lemma quad_serendipity_nodal : nodal_basis quad_serendipity_nodes quad_serendipity_shape.
Proof. intros i j Hi Hj. model_in Hi. model_in Hj. cases i Hi; cases j Hj; model; field. Qed.
Lemma quad_serendipity_gradient x : gradient_at (e_dim quad_serendipity) quad_serendipity_shape quad_serendipity_deriv x.
Proof. split; [reflexivity|]. intros i d Hi Hd. model_in Hi. model_in Hd. cases i Hi; cases d Hd; model; derive. Qed.

Lemma tetrahedron_linear_partition : partition_of_unity tetrahedron_linear_shape.
Proof. intros x. model. field. Qed.
Lemma tetrahedron_linear_linear x : reproduces_linear (e_dim tetrahedron_linear) tetrahedron_linear_nodes tetrahedron_linear_shape x.
Proof. intros d Hd. model_in Hd. cases d Hd; model; field. Qed.
Lemma tetrahedron_linear_nodal : nodal_basis tetrahedron_linear_nodes tetrahedron_linear_shape.
Proof. intros i j Hi Hj. model_in Hi. model_in Hj. cases i Hi; cases j Hj; model; field. Qed.
Lemma tetrahedron_linear_gradient x : gradient_at (e_dim tetrahedron_linear) tetrahedron_linear_shape tetrahedron_linear_deriv x.
Proof. split; [reflexivity|]. intros i d Hi Hd. model_in Hi. model_in Hd. cases i Hi; cases d Hd; model; derive. Qed.

Lemma tetrahedron_quadratic_partition : partition_of_unity tetrahedron_quadratic_shape.
Proof. intros x. model. field. Qed.
Lemma tetrahedron_quadratic_linear x : reproduces_linear (e_dim tetrahedron_quadratic) tetrahedron_quadratic_nodes tetrahedron_quadratic_shape x.
Proof. intros d Hd. model_in Hd. cases d Hd; model; field. Qed.
Lemma tetrahedron_quadratic_nodal : nodal_basis tetrahedron_quadratic_nodes tetrahedron_quadratic_shape.
Proof. intros i j Hi Hj. model_in Hi. model_in Hj. cases i Hi; cases j Hj; model; field. Qed.
Lemma tetrahedron_quadratic_gradient x : gradient_at (e_dim tetrahedron_quadratic) tetrahedron_quadratic_shape tetrahedron_quadratic_deriv x.
Proof. split; [reflexivity|]. intros i d Hi Hd. model_in Hi. model_in Hd. cases i Hi; cases d Hd; model; derive. Qed.

Lemma brick_linear_partition : partition_of_unity brick_linear_shape.
Proof. intros x. model. field. Qed.
Lemma brick_linear_linear x : reproduces_linear (e_dim brick_linear) brick_linear_nodes brick_linear_shape x.
Proof. intros d Hd. model_in Hd. cases d Hd; model; field. Qed.
Lemma brick_linear_nodal : nodal_basis brick_linear_nodes brick_linear_shape.
Proof. intros i j Hi Hj. model_in Hi. model_in Hj. cases i Hi; cases j Hj; model; field. Qed.
Lemma brick_linear_gradient x : gradient_at (e_dim brick_linear) brick_linear_shape brick_linear_deriv x.
Proof. split; [reflexivity|]. intros i d Hi Hd. model_in Hi. model_in Hd. cases i Hi; cases d Hd; model; derive. Qed.

Lemma brick_quadratic_partition : partition_of_unity brick_quadratic_shape.
Proof. intros x. model. field. Qed.
Lemma brick_quadratic_linear x : reproduces_linear (e_dim brick_quadratic) brick_quadratic_nodes brick_quadratic_shape x.
Proof. intros d Hd. model_in Hd. cases d Hd; model; field. Qed.
Lemma brick_quadratic_nodal : nodal_basis brick_quadratic_nodes brick_quadratic_shape.
Proof. intros i j Hi Hj. model_in Hi. model_in Hj. cases i Hi; cases j Hj; model; field. Qed.
Lemma brick_quadratic_gradient x : gradient_at (e_dim brick_quadratic) brick_quadratic_shape brick_quadratic_deriv x.
Proof. split; [reflexivity|]. intros i d Hi Hd. model_in Hi. model_in Hd. cases i Hi; cases d Hd; model; derive. Qed.

Lemma prism_linear_partition : partition_of_unity prism_linear_shape.
Proof. intros x. model. field. Qed.
Lemma prism_linear_linear x : reproduces_linear (e_dim prism_linear) prism_linear_nodes prism_linear_shape x.
Proof. intros d Hd. model_in Hd. cases d Hd; model; field. Qed.
Lemma prism_linear_nodal : nodal_basis prism_linear_nodes prism_linear_shape.
Proof. intros i j Hi Hj. model_in Hi. model_in Hj. cases i Hi; cases j Hj; model; field. Qed.
Lemma prism_linear_gradient x : gradient_at (e_dim prism_linear) prism_linear_shape prism_linear_deriv x.
Proof. split; [reflexivity|]. intros i d Hi Hd. model_in Hi. model_in Hd. cases i Hi; cases d Hd; model; derive. Qed.

Lemma prism_quadratic_partition : partition_of_unity prism_quadratic_shape.
Proof. intros x. model. field. Qed.
Lemma prism_quadratic_linear x : reproduces_linear (e_dim prism_quadratic) prism_quadratic_nodes prism_quadratic_shape x.
Proof. intros d Hd. model_in Hd. cases d Hd; model; field. Qed.
Lemma prism_quadratic_nodal : nodal_basis prism_quadratic_nodes prism_quadratic_shape.
Proof. intros i j Hi Hj. model_in Hi. model_in Hj. cases i Hi; cases j Hj; model; field. Qed.
Lemma prism_quadratic_gradient x : gradient_at (e_dim prism_quadratic) prism_quadratic_shape prism_quadratic_deriv x.
Proof. split; [reflexivity|]. intros i d Hi Hd. model_in Hi. model_in Hd. cases i Hi; cases d Hd; model; derive. Qed.
