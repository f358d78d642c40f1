(** * C111: the shape an integration type reports is the element its points lie in and its weights measure *)
From Coq Require Import List Arith Bool Reals ZArith Lra Lia.
From Coquelicot Require Import Coquelicot.
From Verif Require Import RSum Outcome LegendreModel LegendreSpec PropLegendre TensorModel TensorSpec PropTensor SimplexTables SimplexModel SimplexSpec PropSimplex
  ShapeModel InterpolationModel PropShape PropPoints IpModel PropIp.
Import ListNotations.
Local Open Scope R_scope.

(** ** Specification *)
(** length, area or volume of the reference element *)
Definition measure_of (s : eshape) : R :=
  match s with SLine => 2 | STriangle => 1 / 2 | SQuadrilateral => 4 | STetrahedron => 1 / 6 | SHexahedron => 8 | SPrism => 1 | SPyramid => 4 / 3 end.
(** a loop over all points reads the rule [r], and adds up the weights *)
Definition total_weight (r : list (R * list R)) : R := rlsum (map fst r).
(** every point lies in the element of the reported shape; the weights add up to its measure *)
Definition fits (t : itype) : Prop := exists r, reads t r /\ points_inside (GetShape t) r /\ total_weight r = measure_of (GetShape t).
(** the weights add up to the measure of the reported shape except for the decimals of the tables *)
Definition measures (t : itype) : Prop := exists r, reads t r /\ Rabs (total_weight r - measure_of (GetShape t)) <= 11 / 10 ^ 15.

(** ** Proofs *)
Lemma rlsum_nth (l : list R) : rlsum l = rsum (length l) (fun i => nth i l 0).
Proof. induction l as [|x l IH]; [reflexivity|]. cbn [length]. rewrite rsum_front. cbn [rlsum nth]. rewrite IH. reflexivity. Qed.
Lemma apply_one r : apply_rule r (fun _ => 1) = total_weight r.
Proof. unfold apply_rule, total_weight. f_equal. apply map_ext. intros a. ring. Qed.
Lemma reads_weight t r i : reads t r -> (i < length r)%nat -> GetIntegrationPointWeight t (Z.of_nat i) = Ok (nth i (map fst r) 0).
Proof.
  intros (_ & H) Hi. destruct (H i Hi) as (w & x & E & -> & _). f_equal. symmetry.
  apply nth_error_nth. rewrite nth_error_map, E. reflexivity.
Qed.
Lemma product_one d : forall l, product (repeat (fun _ : R => 1) d) l = 1.
Proof. induction d as [|d IH]; intros l; [destruct l; reflexivity|]. destruct l as [|x l]; [reflexivity|]. cbn [repeat product]. rewrite IH. ring. Qed.
Lemma tensor_total d n w1 p1 : (0 < n)%nat -> rsum n (fun j => nth j w1 0) = 2 -> reads (TensorProduct d (tensor_rule d n w1 p1)) (tensor_rule d n w1 p1) ->
  total_weight (tensor_rule d n w1 p1) = 2 ^ d.
Proof.
  intros Hn S2 Hr. pose proof (C34_products n w1 p1 (repeat (fun _ => 1) d) Hn) as Q. rewrite repeat_length in Q.
  destruct (C34_number_of_points d n w1 p1) as (L & _). unfold num_ips in L. rewrite <- L in Q. destruct Q as (w & x & A & V).
  unfold total_weight. rewrite rlsum_nth, map_length. transitivity (rsum (length (tensor_rule d n w1 p1)) (fun i => w i * product (repeat (fun _ => 1) d) (x i))).
  - apply rsum_ext. intros i Hi. rewrite product_one, Rmult_1_r. pose proof (reads_weight _ _ i Hr Hi) as E. destruct (A i Hi) as (B & _).
    cbn [GetIntegrationPointWeight] in E. rewrite B in E. injection E as ->. reflexivity.
  - rewrite <- V. clear -S2. induction d as [|d IH]; [reflexivity|]. cbn [repeat map fold_right pow]. rewrite IH.
    rewrite (rsum_ext n _ (fun j => nth j w1 0)) by (intros; ring). rewrite S2. reflexivity.
Qed.
Lemma one_polynomial D : polynomial D (fun _ => 1).
Proof.
  exists (fun k => match k with O => 1 | _ => 0 end). intros x. rewrite rsum_front. rewrite (rsum_ext _ _ (fun _ => 0)) by (intros; ring).
  rewrite rsum_zero by reflexivity. cbn. ring.
Qed.
Lemma two D n w p : (forall f, polynomial D f -> is_RInt f (-1) 1 (rsum n (fun i => nth i w 0 * f (nth i p 0)))) -> rsum n (fun j => nth j w 0) = 2.
Proof.
  intros H. specialize (H _ (one_polynomial D)). pose proof (is_RInt_const (-1) 1 1) as C.
  pose proof (is_RInt_unique _ _ _ _ H) as U. rewrite (is_RInt_unique _ _ _ _ C) in U.
  rewrite (rsum_ext n _ (fun i => nth i w 0 * 1)) by (intros; ring). rewrite <- U. unfold scal. cbn. unfold mult. cbn. ring.
Qed.
Lemma fits_tensor gr lr d n m t r : (1 <= d <= 3)%nat -> make_tensor_product gr lr d n m = Ok t -> integration_type gr lr d n m = Ok r ->
  (forall w1 p1, rule_1d gr lr m n = Ok (w1, p1) -> rsum n (fun j => nth j w1 0) = 2) -> points_inside (cube d) r -> fits t.
Proof.
  intros Hd Ht Hr S2 P. destruct C111_rules as (R & _). destruct (R gr lr d n m r Hr) as (t' & E' & Hreads). rewrite Ht in E'. injection E' as <-.
  pose proof (made_points _ _ _ _ _ _ Hr) as Hn. unfold make_tensor_product in Ht. unfold integration_type in *. destruct (rule_1d gr lr m n) as [(w1 & p1)| |]; cbn in *; try discriminate.
  injection Ht as <-. injection Hr as <-. specialize (S2 _ _ eq_refl). exists (tensor_rule d n w1 p1). split; [exact Hreads|]. split.
  - destruct d as [|[|[|[|d]]]]; try lia; exact P.
  - rewrite tensor_total; auto. destruct d as [|[|[|[|d]]]]; try lia; cbn; ring.
Qed.

(** C111: lines, quadrilaterals and hexahedra with the exact zeros, any number of points *)
Theorem C111_gauss_fits : forall gr lr d n,
  (1 <= d <= 3)%nat -> (1 <= n)%nat -> length (gr n) = n -> NoDup (gr n) -> (forall x, In x (gr n) -> P n x = 0) ->
  exists t, make_tensor_product gr lr d n GAUSS = Ok t /\ coordinates_of (GetShape t) = d /\ fits t.
Proof.
  intros gr lr d n Hd Hn HL HN HZ. destruct (C88_gauss gr lr d n Hd Hn HL HN HZ) as (r & E & Hin & _).
  destruct (proj1 C111_rules gr lr d n GAUSS r E) as (t & Ht & _). exists t. split; [exact Ht|]. split.
  - destruct (tensor_of _ _ _ _ _ _ Ht) as (w1 & p1 & -> & _). destruct d as [|[|[|[|d]]]]; try lia; reflexivity.
  - apply (fits_tensor gr lr d n GAUSS t r Hd Ht E); [|exact Hin].
    intros w1 p1 H1. destruct (C73_gauss_exact gr n Hn HL HN HZ) as (w & p & E1 & _ & _ & Hx). cbn [rule_1d] in H1. rewrite E1 in H1. injection H1 as <- <-.
    apply (two (2 * n - 1) n w p Hx).
Qed.
Print Assumptions C111_gauss_fits.

Theorem C111_lobatto_fits : forall gr lr d n,
  (1 <= d <= 3)%nat -> (2 <= n)%nat -> length (lr (n - 1)%nat) = (n - 2)%nat -> NoDup (lr (n - 1)%nat) ->
  (forall x, In x (lr (n - 1)%nat) -> Derive (P (n - 1)) x = 0) ->
  exists t, make_tensor_product gr lr d n LOBATTO = Ok t /\ coordinates_of (GetShape t) = d /\ fits t.
Proof.
  intros gr lr d n Hd Hn HL HN HZ. destruct (C88_lobatto gr lr d n Hd Hn HL HN HZ) as (r & E & Hin & _).
  destruct (proj1 C111_rules gr lr d n LOBATTO r E) as (t & Ht & _). exists t. split; [exact Ht|]. split.
  - destruct (tensor_of _ _ _ _ _ _ Ht) as (w1 & p1 & -> & _). destruct d as [|[|[|[|d]]]]; try lia; reflexivity.
  - apply (fits_tensor gr lr d n LOBATTO t r Hd Ht E); [|exact Hin].
    intros w1 p1 H1. destruct (C74_lobatto_exact lr n Hn HL HN HZ) as (w & p & E1 & _ & _ & _ & _ & Hx). cbn [rule_1d] in H1. rewrite E1 in H1. injection H1 as <- <-.
    apply (two (2 * n - 3) n w p Hx).
Qed.
Print Assumptions C111_lobatto_fits.

(** C111: triangles and tetrahedra of every order, and the two prisms *)
Theorem C111_tables_measure :
  (forall order, (1 <= order <= 20)%Z -> exists t, make_triangle order = Ok t /\ measures t) /\
  (forall order, (1 <= order <= 20)%Z -> exists t, make_tetrahedron order = Ok t /\ measures t) /\
  fits Prism1Ip /\ fits Prism2x3Ip.
Proof.
  destruct C111_rules as (_ & RT & RE & R1 & R2). split; [|split; [|split]].
  - intros order Ho. destruct (C35_volume_partial order Ho) as ((r & Hr & V) & _). destruct (RT order r Hr) as (t & Ht & Hreads).
    exists t. split; [exact Ht|]. exists r. split; [exact Hreads|]. injection Ht as <-. rewrite apply_one in V. cbn [GetShape measure_of]. lra.
  - intros order Ho. destruct (C35_volume_partial order Ho) as (_ & (r & Hr & V)). destruct (RE order r Hr) as (t & Ht & Hreads).
    exists t. split; [exact Ht|]. exists r. split; [exact Hreads|]. unfold make_tetrahedron in Ht.
    destruct (order <? 0)%Z; [discriminate|]. destruct (nth_error order_to_index (Z.to_nat order)); [|discriminate]. injection Ht as <-.
    rewrite apply_one in V. cbn [GetShape measure_of]. exact V.
  - exists prism1. split; [apply R1; reflexivity|]. split; [apply (C88_prism 1 prism1 eq_refl)|]. unfold total_weight. cbn. ring.
  - exists prism2. split; [apply R2; reflexivity|]. split; [apply (C88_prism 2 prism2 eq_refl)|]. unfold total_weight. cbn. field.
Qed.
Print Assumptions C111_tables_measure.

(** no two shapes with the same number of coordinates have measures within the error of the tables, so the shape is determined *)
Theorem C111_shape_determined : forall s s', coordinates_of s = coordinates_of s' -> s <> s' -> Rabs (measure_of s - measure_of s') > 22 / 10 ^ 15.
Proof.
  intros s s' C N. destruct s, s'; try discriminate; try congruence; cbn [measure_of]; unfold Rabs; destruct (Rcase_abs _); lra.
Qed.
Print Assumptions C111_shape_determined.

(** four points on the quadrilateral *)
Example C111_fits_case : exists t, make_tensor_product roots2 (fun _ => []) 2 2 GAUSS = Ok t /\ coordinates_of (GetShape t) = 2%nat /\ fits t.
Proof. destruct C73_hypotheses as (A & B & C). apply C111_gauss_fits; auto; lia. Qed.
