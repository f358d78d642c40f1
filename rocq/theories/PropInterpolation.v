(** * C36 - C38: the interpolations of fixed order *)
From Coq Require Import List Arith Bool Reals Lra Lia.
From Coquelicot Require Import Coquelicot.
From Verif Require Import RSum InterpolationModel InterpolationSpec InterpolationProofs InterpolationProofs2.
Import ListNotations.
Local Open Scope R_scope.

(** the elements whose coefficients are exact decimal fractions *)
Definition exact_elements : list element :=
  [ truss_linear; truss_quadratic; truss_3rd; triangle_linear; triangle_quadratic; triangle_3rd; quad_linear; quad_serendipity;
    tetrahedron_linear; tetrahedron_quadratic; brick_linear; brick_quadratic; prism_linear; prism_quadratic ].

(** C36: the shape functions sum to one everywhere; linear fields are reproduced as well *)
Theorem C36_partition_of_unity : List.Forall (fun e => partition_of_unity (e_shape e)) (pyramid_linear :: exact_elements).
Proof.
  repeat constructor; first [apply pyramid_partition | apply truss_linear_partition | apply truss_quadratic_partition | apply truss_3rd_partition | apply triangle_linear_partition
    | apply triangle_quadratic_partition | apply triangle_3rd_partition | apply quad_linear_partition | apply quad_serendipity_partition | apply tetrahedron_linear_partition
    | apply tetrahedron_quadratic_partition | apply brick_linear_partition | apply brick_quadratic_partition | apply prism_linear_partition | apply prism_quadratic_partition].
Qed.
Print Assumptions C36_partition_of_unity.

Theorem C36_linear_fields : List.Forall (fun e => forall x, reproduces_linear (e_dim e) (e_nodes e) (e_shape e) x) (pyramid_linear :: exact_elements).
Proof.
  repeat constructor; intros x; first [apply pyramid_linear_fields | apply truss_linear_linear | apply truss_quadratic_linear | apply truss_3rd_linear | apply triangle_linear_linear
    | apply triangle_quadratic_linear | apply triangle_3rd_linear | apply quad_linear_linear | apply quad_serendipity_linear | apply tetrahedron_linear_linear
    | apply tetrahedron_quadratic_linear | apply brick_linear_linear | apply brick_quadratic_linear | apply prism_linear_linear | apply prism_quadratic_linear].
Qed.
Print Assumptions C36_linear_fields.

(** the two elements of fourth order carry coefficients with twelve digits: within the element the sum is one up to 1e-8 *)
Theorem C36_fourth_order_partial :
  (forall x, -1 <= x 0%nat <= 1 -> Rabs (rlsum (truss_4th_shape x) - 1) <= / 10 ^ 10) /\
  (forall x, 0 <= x 0%nat -> 0 <= x 1%nat -> x 0%nat + x 1%nat <= 1 -> Rabs (rlsum (triangle_4th_shape x) - 1) <= / 10 ^ 8).
Proof. split; [exact truss_4th_partition|exact triangle_4th_partition]. Qed.
Print Assumptions C36_fourth_order_partial.

(** finding: for them the sum is not one, although all other elements have exact coefficients *)
Theorem C36_fourth_order_refuted : ~ partition_of_unity truss_4th_shape /\ ~ partition_of_unity triangle_4th_shape.
Proof.
  split; intros H.
  - specialize (H (at_node [5 / 10])). revert H. model. lra.
  - specialize (H (at_node [2 / 10; 3 / 10])). revert H. model. lra.
Qed.
Print Assumptions C36_fourth_order_refuted.

(** C37: Kronecker property *)
Theorem C37_nodal_basis : List.Forall (fun e => nodal_basis (e_nodes e) (e_shape e)) (pyramid_linear :: exact_elements).
Proof.
  repeat constructor; first [apply pyramid_nodal | apply truss_linear_nodal | apply truss_quadratic_nodal | apply truss_3rd_nodal | apply triangle_linear_nodal
    | apply triangle_quadratic_nodal | apply triangle_3rd_nodal | apply quad_linear_nodal | apply quad_serendipity_nodal | apply tetrahedron_linear_nodal
    | apply tetrahedron_quadratic_nodal | apply brick_linear_nodal | apply brick_quadratic_nodal | apply prism_linear_nodal | apply prism_quadratic_nodal].
Qed.
Print Assumptions C37_nodal_basis.

Theorem C37_fourth_order_partial :
  (forall i j, (i < 5)%nat -> (j < 5)%nat -> Rabs (nth j (truss_4th_shape (at_node (nth i truss_4th_nodes []))) 0 - kronecker i j) <= / 10 ^ 10) /\
  (forall i j, (i < 15)%nat -> (j < 15)%nat -> Rabs (nth j (triangle_4th_shape (at_node (nth i triangle_4th_nodes []))) 0 - kronecker i j) <= / 10 ^ 9).
Proof. split; [exact truss_4th_nodal|exact triangle_4th_nodal]. Qed.
Print Assumptions C37_fourth_order_partial.

Theorem C37_fourth_order_refuted : ~ nodal_basis truss_4th_nodes truss_4th_shape /\ ~ nodal_basis triangle_4th_nodes triangle_4th_shape.
Proof.
  split; intros H.
  - specialize (H 1%nat 1%nat ltac:(simpl; lia) ltac:(simpl; lia)). revert H. model. lra.
  - specialize (H 1%nat 0%nat ltac:(simpl; lia) ltac:(simpl; lia)). revert H. model. lra.
Qed.
Print Assumptions C37_fourth_order_refuted.

(** C38: the derivative matrix is the gradient, everywhere *)
Theorem C38_gradient : List.Forall (fun e => forall x, gradient_at (e_dim e) (e_shape e) (e_deriv e) x) exact_elements.
Proof.
  repeat (apply List.Forall_cons; [intros x|]); [..|apply List.Forall_nil]; first [apply truss_linear_gradient | apply truss_quadratic_gradient | apply truss_3rd_gradient | apply triangle_linear_gradient
    | apply triangle_quadratic_gradient | apply triangle_3rd_gradient | apply quad_linear_gradient | apply quad_serendipity_gradient | apply tetrahedron_linear_gradient
    | apply tetrahedron_quadratic_gradient | apply brick_linear_gradient | apply brick_quadratic_gradient | apply prism_linear_gradient | apply prism_quadratic_gradient].
Qed.
Print Assumptions C38_gradient.

(** the pyramid is rational: away from the plane of the apex, and at the apex *)
Theorem C38_pyramid : forall x, x 2%nat <> 1 \/ (x 0%nat = 0 /\ x 1%nat = 0 /\ x 2%nat = 1) -> gradient_at 3 pyramid_linear_shape pyramid_linear_deriv x.
Proof. intros x [H|(H0 & H1 & H2)]; [apply pyramid_gradient; exact H|apply pyramid_gradient_apex; assumption]. Qed.
Print Assumptions C38_pyramid.

Theorem C38_fourth_order_partial :
  (forall x, -1 <= x 0%nat <= 1 -> gradient_near (/ 10 ^ 9) 1 truss_4th_shape truss_4th_deriv x) /\
  (forall x, 0 <= x 0%nat -> 0 <= x 1%nat -> x 0%nat + x 1%nat <= 1 -> gradient_near (/ 10 ^ 8) 2 triangle_4th_shape triangle_4th_deriv x).
Proof. split; [exact truss_4th_gradient|exact triangle_4th_gradient]. Qed.
Print Assumptions C38_fourth_order_partial.

(** but not exactly: the decimal constants of the derivatives do not belong to those of the shape functions *)
Theorem C38_fourth_order_refuted : exists x, -1 <= x 0%nat <= 1 /\ ~ gradient_at 1 truss_4th_shape truss_4th_deriv x.
Proof.
  exists (fun _ => 1). split; [lra|]. intros (_ & G). specialize (G 0%nat 0%nat ltac:(cbn; lia) ltac:(lia)).
  assert (D : is_derive (fun t => nth 0 (truss_4th_shape (move (fun _ => 1) 0 t)) 0) 1 (1 / 2)).
  { unfold truss_4th_shape, move. cbn [nth Nat.eqb]. auto_derive; [exact I|]. field. }
  pose proof (is_derive_unique _ _ _ G) as U1. rewrite (is_derive_unique _ _ _ D) in U1. unfold truss_4th_deriv in U1. cbn [nth] in U1. lra.
Qed.
Print Assumptions C38_fourth_order_refuted.

(** the numbers of nodes *)
Example node_counts : map (fun e => (length (e_nodes e), e_dim e)) exact_elements =
  [(2, 1); (3, 1); (4, 1); (3, 2); (6, 2); (10, 2); (4, 2); (8, 2); (4, 3); (10, 3); (8, 3); (20, 3); (6, 3); (18, 3)]%nat.
Proof. reflexivity. Qed.
(** shape function 4 of the quad with eight nodes at its own node *)
Example quad8 : nth 4 (quad_serendipity_shape (at_node [0; -1])) 0 = 1 /\ nth 4 (quad_serendipity_shape (at_node [0; 0])) 0 = 1 / 2.
Proof. split; model; field. Qed.
