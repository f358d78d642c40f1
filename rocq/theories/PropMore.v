(** * Further statements of C36, C37, C42, C51, C64, C81 and C96 *)
From Coq Require Import String Permutation Arith ZArith Bool Reals Lra Lia.
From Coq Require Import List.
From Coquelicot Require Import Coquelicot.
From Verif Require Import RSum Outcome AdaptiveModel ShapeModel InterpolationModel InterpolationSpec LobattoModel LobattoSpec PropInterpolation
  CompanionModel PropCompanion GmshModel GmshSpec GmshProofs2.
Import ListNotations.
Local Open Scope R_scope.

(** ** C36, C37: the nodes of an element have as many coordinates as the element has dimensions, there are as many shape functions and
    rows of derivatives as nodes, and every row has an entry for each dimension *)
Definition well_dimensioned (e : element) : Prop :=
  (forall node, In node (e_nodes e) -> length node = e_dim e)
  /\ (forall x, length (e_shape e x) = length (e_nodes e))
  /\ (forall x, length (e_deriv e x) = length (e_nodes e))
  /\ (forall x row, In row (e_deriv e x) -> length row = e_dim e).
Ltac rows := intros x row H; cbn in H; repeat (destruct H as [<- |H]; [reflexivity|]); contradiction.
Theorem C37_dimensions : List.Forall well_dimensioned (truss_4th :: triangle_4th :: pyramid_linear :: exact_elements).
Proof.
  repeat (apply List.Forall_cons; [split; [intros node H; cbn in H; repeat (destruct H as [<- |H]; [reflexivity|]); contradiction|]|]); [..|apply List.Forall_nil].
  all: split; [intros x; reflexivity|].
  all: split; [|].
  all: try (intros x; reflexivity).
  all: try rows.
Qed.
Print Assumptions C37_dimensions.

(** ** C51: the interpolation chosen for an element of a gmsh file is a nodal basis on its nodes that adds up to one, and its derivative
    matrix holds the gradients (for the spectral elements away from the node coordinates, see C39; for the pyramid below its apex or at it) *)
Definition regular_point (e : element) (type : Z) (x : nat -> R) : Prop :=
  match type with
  | 7%Z => x 2%nat <> 1
  | 8%Z | 10%Z | 12%Z => forall node d, In node (e_nodes e) -> (d < e_dim e)%nat -> 1 / 10 ^ 15 < Rabs (x d - nth d node 0)
  | _ => True
  end.
Lemma lobatto2_ok : NoDup ([-1] ++ [0] ++ [1]) /\ separated ([-1] ++ [0] ++ [1]).
Proof.
  split.
  - cbn [app]. repeat constructor; cbn [In]; lra.
  - intros i j Hi Hj Hij. cbn [app length] in Hi, Hj. assert (2 / 10 ^ 15 <= 1) by lra.
    destruct i as [|[|[|i]]]; [..|lia]; destruct j as [|[|[|j]]]; try lia; cbn [app nth]; unfold Rabs; destruct (Rcase_abs _); lra.
Qed.
Lemma lobatto2_created s e : match s with SLine => truss_lobatto2 | SQuadrilateral => quad_lobatto2 | _ => brick_lobatto2 end = e ->
  s = SLine \/ s = SQuadrilateral \/ s = SHexahedron -> CreateLobattoInterpolation (fun _ => [0]) s 2 = Ok e.
Proof. intros <- [->|[->| ->]]; reflexivity. Qed.

Theorem C51_interpolations : forall type e, element_interpolation type = Ok e ->
  well_dimensioned e /\ nodal_basis (e_nodes e) (e_shape e) /\ partition_of_unity (e_shape e)
  /\ forall x, regular_point e type x -> gradient_at (e_dim e) (e_shape e) (e_deriv e) x.
Proof.
  assert (A : forall e, In e exact_elements -> well_dimensioned e /\ nodal_basis (e_nodes e) (e_shape e) /\ partition_of_unity (e_shape e)
      /\ forall x, gradient_at (e_dim e) (e_shape e) (e_deriv e) x).
  { intros e He. pose proof (proj1 (List.Forall_forall _ _) C37_dimensions e) as H1. pose proof (proj1 (List.Forall_forall _ _) C37_nodal_basis e) as H2.
    pose proof (proj1 (List.Forall_forall _ _) C36_partition_of_unity e) as H3. pose proof (proj1 (List.Forall_forall _ _) C38_gradient e) as H4.
    split; [apply H1; do 3 right; exact He|]. split; [apply H2; right; exact He|]. split; [apply H3; right; exact He|apply H4; exact He]. }
  assert (L : forall s e, CreateLobattoInterpolation (fun _ => [0]) s 2 = Ok e -> nodal_basis (e_nodes e) (e_shape e) /\ partition_of_unity (e_shape e)
      /\ (forall x, length (e_shape e x) = length (e_nodes e))
      /\ forall x, (forall node d, In node (e_nodes e) -> (d < e_dim e)%nat -> 1 / 10 ^ 15 < Rabs (x d - nth d node 0)) -> gradient_at (e_dim e) (e_shape e) (e_deriv e) x).
  { intros s e E. destruct lobatto2_ok as (ND & SE). destruct (C98_lobatto_basis _ s 2 e ND SE E) as (H1 & H2 & H3 & _ & H4). auto. }
  intros type e E. unfold element_interpolation in E.
  destruct type as [|p|p]; try discriminate.
  assert (X : forall e', In e' exact_elements -> Ok e' = Ok e -> well_dimensioned e /\ nodal_basis (e_nodes e) (e_shape e) /\ partition_of_unity (e_shape e)
      /\ forall x, regular_point e (Zpos p) x -> gradient_at (e_dim e) (e_shape e) (e_deriv e) x).
  { intros e' H' E'. injection E' as <-. destruct (A e' H') as (B1 & B2 & B3 & B4). split; [exact B1|]. split; [exact B2|]. split; [exact B3|]. intros x _. apply B4. }
  destruct p as [[[[[p|p|]|[p|p|]|]|[[p|p|]|[p|p|]|]|]|[[[p|p|]|[p|p|]|]|[[p|p|]|[p|p|]|]|]|]|[[[[p|p|]|[p|p|]|]|[[p|p|]|[p|p|]|]|]|[[[p|p|]|[p|p|]|]|[[p|p|]|[p|p|]|]|]|]|]; try discriminate;
    try (apply (X _) in E; [exact E|unfold exact_elements; cbn [In]; tauto]).
  all: injection E as <-.
  - split; [apply (proj1 (List.Forall_forall _ _) C37_dimensions); do 2 right; left; reflexivity|].
    split; [apply (proj1 (List.Forall_forall _ _) C37_nodal_basis); left; reflexivity|].
    split; [apply (proj1 (List.Forall_forall _ _) C36_partition_of_unity); left; reflexivity|].
    intros x Hx. apply C38_pyramid. left. exact Hx.
  - destruct (L SQuadrilateral _ eq_refl) as (H1 & H2 & H3 & H4). split; [|split; [exact H1|split; [exact H2|exact H4]]].
    split; [intros node H; apply in_map_iff in H; destruct H as (id & <- & _); reflexivity|]. split; [exact H3|].
    split; [intros x; reflexivity|]. intros x row H. apply in_flat_map in H. destruct H as (j & _ & H). apply in_map_iff in H. destruct H as (i & <- & _). reflexivity.
  - destruct (L SHexahedron _ eq_refl) as (H1 & H2 & H3 & H4). split; [|split; [exact H1|split; [exact H2|exact H4]]].
    split; [intros node H; apply in_map_iff in H; destruct H as (id & <- & _); reflexivity|]. split; [exact H3|].
    split; [intros x; reflexivity|]. intros x row H. apply in_flat_map in H. destruct H as (k & _ & H). apply in_flat_map in H. destruct H as (j & _ & H).
    apply in_map_iff in H. destruct H as (i & <- & _). reflexivity.
  - destruct (L SLine _ eq_refl) as (H1 & H2 & H3 & H4). split; [|split; [exact H1|split; [exact H2|exact H4]]].
    split; [intros node H; apply in_map_iff in H; destruct H as (id & <- & _); reflexivity|]. split; [exact H3|].
    split; [intros x; reflexivity|]. intros x row H. apply in_map_iff in H. destruct H as (i & <- & _). reflexivity.
Qed.
Print Assumptions C51_interpolations.
