(** * C111: integration types answer for exactly the integration points they report *)
From Coq Require Import List Arith Bool Reals ZArith Lra Lia.
From Verif Require Import Outcome LegendreModel TensorModel TensorSpec SimplexTables SimplexModel ShapeModel IpModel PropTensor.
Import ListNotations.
Local Open Scope R_scope.

(** ** Specification *)
(** the objects a program can make *)
Inductive created : itype -> Prop :=
  | created_tensor gr lr dim n m t : (1 <= dim <= 3)%nat -> make_tensor_product gr lr dim n m = Ok t -> created t
  | created_triangle order t : make_triangle order = Ok t -> created t
  | created_tetrahedron order t : make_tetrahedron order = Ok t -> created t
  | created_prism1 : created Prism1Ip
  | created_prism2x3 : created Prism2x3Ip.
(** the number of coordinates of a point in an element of this shape *)
Definition coordinates_of (s : eshape) : nat :=
  match s with SLine => 1 | STriangle | SQuadrilateral => 2 | STetrahedron | SHexahedron | SPrism | SPyramid => 3 end.
(** what a loop over all integration points reads *)
Definition reads (t : itype) (r : list (R * list R)) : Prop :=
  GetNumIntegrationPoints t = Ok (Z.of_nat (length r)) /\
  forall i, (i < length r)%nat -> exists w x, nth_error r i = Some (w, x) /\
    GetIntegrationPointWeight t (Z.of_nat i) = Ok w /\ GetLocalIntegrationPointCoordinates t (Z.of_nat i) = Ok x.

(** ** Proofs *)
Lemma at_ok {A} (l : list A) i : (0 <= i < Z.of_nat (length l))%Z -> exists x, at_ l i = Ok x /\ nth_error l (Z.to_nat i) = Some x.
Proof.
  intros H. unfold at_. destruct (Z.ltb_spec i 0); [lia|]. destruct (nth_error l (Z.to_nat i)) eqn:E; [eauto|].
  apply nth_error_None in E. lia.
Qed.
Lemma at_nat {A} (l : list A) i : at_ l (Z.of_nat i) = match nth_error l i with Some x => Ok x | None => UB end.
Proof. unfold at_. destruct (Z.ltb_spec (Z.of_nat i) 0); [lia|]. rewrite Nat2Z.id. reflexivity. Qed.
Lemma at_out {A} (l : list A) i : (i < 0 \/ Z.of_nat (length l) <= i)%Z -> at_ l i = UB.
Proof.
  intros H. unfold at_. destruct (Z.ltb_spec i 0); [reflexivity|]. destruct (nth_error l (Z.to_nat i)) eqn:E; [|reflexivity].
  assert (nth_error l (Z.to_nat i) <> None) as N by congruence. apply nth_error_Some in N. lia.
Qed.
Lemma tensor_of gr lr dim n m t : make_tensor_product gr lr dim n m = Ok t ->
  exists w1 p1, t = TensorProduct dim (tensor_rule dim n w1 p1) /\ integration_type gr lr dim n m = Ok (tensor_rule dim n w1 p1).
Proof.
  unfold make_tensor_product, integration_type, omap. destruct (rule_1d gr lr m n) as [[w1 p1]| |]; cbn [obind fst snd]; intros H; try discriminate.
  injection H as <-. exists w1, p1. split; reflexivity.
Qed.

Lemma made_points gr lr dim n m r : integration_type gr lr dim n m = Ok r -> (1 <= n)%nat.
Proof.
  unfold integration_type, rule_1d. destruct m.
  - destruct n; [discriminate|lia].
  - unfold lobatto_rule. destruct (Nat.leb_spec n 1); [discriminate|lia].
Qed.
Lemma triangle_tables : forallb (fun l => (1 <=? length l)%nat) triangle_data = true.
Proof. vm_compute. reflexivity. Qed.
Lemma tetrahedron_tables : forallb (fun l => (1 <=? length l)%nat) tetrahedron_data = true.
Proof. vm_compute. reflexivity. Qed.
Lemma at_in {A} (l : list A) i x : at_ l i = Ok x -> In x l.
Proof.
  unfold at_. destruct (Z.ltb i 0); [discriminate|]. destruct (nth_error l (Z.to_nat i)) eqn:E; [|discriminate].
  intros H. injection H as <-. eapply nth_error_In, E.
Qed.

(** C111: every object answers for each of its points with a weight and as many coordinates as its shape has *)
Theorem C111_points : forall t n, created t -> GetNumIntegrationPoints t = Ok n ->
  (1 <= n)%Z /\ forall i, (0 <= i < n)%Z -> exists w x, GetIntegrationPointWeight t i = Ok w /\
    GetLocalIntegrationPointCoordinates t i = Ok x /\ length x = coordinates_of (GetShape t).
Proof.
  intros t n C Hn. destruct C as [gr lr dim k m t Hd H|order t H|order t H| |].
  - apply tensor_of in H. destruct H as (w1 & p1 & -> & H). apply made_points in H. cbn [GetNumIntegrationPoints] in Hn. injection Hn as <-.
    destruct (C34_number_of_points dim k w1 p1) as (L & I & _). unfold num_ips in L. rewrite L. split.
    + assert (1 <= k ^ dim)%nat; [|lia]. apply Nat.neq_0_lt_0, Nat.pow_nonzero. lia.
    + intros i Hi. destruct (I (Z.to_nat i) ltac:(lia)) as (w & x & A & B & X). rewrite Z2Nat.id in A, B by lia.
      exists w, x. cbn [GetIntegrationPointWeight GetLocalIntegrationPointCoordinates GetShape]. split; [exact A|]. split; [exact B|].
      rewrite X. destruct dim as [|[|[|[|dim]]]]; try reflexivity; lia.
  - injection H as <-. cbn [GetNumIntegrationPoints] in Hn. unfold omap in Hn.
    cbn [GetIntegrationPointWeight GetLocalIntegrationPointCoordinates GetShape]. unfold omap.
    destruct (at_ triangle_data (order - 1)) as [l| |] eqn:E; cbn [obind] in *; try discriminate. injection Hn as <-. split.
    + apply at_in in E. pose proof triangle_tables as T. rewrite forallb_forall in T. apply T, Nat.leb_le in E. lia.
    + intros i Hi. destruct (at_ok l i Hi) as (((x & y) & w) & -> & _). cbn [obind]. exists (weight2 w), [coord x; coord y]. repeat split.
  - unfold make_tetrahedron in H. destruct (order <? 0)%Z; [discriminate|]. destruct (nth_error order_to_index (Z.to_nat order)) as [index|]; [|discriminate].
    injection H as <-. cbn [GetNumIntegrationPoints] in Hn. unfold omap in Hn.
    cbn [GetIntegrationPointWeight GetLocalIntegrationPointCoordinates GetShape]. unfold omap.
    destruct (at_ tetrahedron_data (Z.of_nat index)) as [l| |] eqn:E; cbn [obind] in *; try discriminate. injection Hn as <-. split.
    + apply at_in in E. pose proof tetrahedron_tables as T. rewrite forallb_forall in T. apply T, Nat.leb_le in E. lia.
    + intros i Hi. destruct (at_ok l i Hi) as ((((x & y) & z) & w) & -> & _). cbn [obind]. exists (weight3 w), [coord x; coord y; coord z]. repeat split.
  - injection Hn as <-. split; [lia|]. intros i Hi. exists 1, [1 / 3; 1 / 3; 0]. repeat split.
  - injection Hn as <-. split; [lia|]. intros i Hi. exists (1 / 6).
    assert (i = 0 \/ i = 1 \/ i = 2 \/ i = 3 \/ i = 4 \/ i = 5)%Z as [ -> |[ -> |[ -> |[ -> |[ -> | -> ]]]]] by lia; eexists; repeat split.
Qed.
Print Assumptions C111_points.

(** C111: the number of points is known for every order that has a rule: triangles 1 - 20, tetrahedra 0 - 21, and every object
    of the other types *)
Theorem C111_number : forall t, created t ->
  (exists n, GetNumIntegrationPoints t = Ok n) \/ (exists order, t = Triangle order /\ (order < 1 \/ 20 < order)%Z).
Proof.
  intros t C. destruct C as [gr lr dim k m t Hd H|order t H|order t H| |].
  - apply tensor_of in H. destruct H as (w1 & p1 & -> & H). left. eexists. reflexivity.
  - injection H as <-. destruct (Z_lt_le_dec order 1) as [L|L]; [right; eauto|]. destruct (Z_lt_le_dec 20 order) as [U|U]; [right; eauto|]. left.
    cbn [GetNumIntegrationPoints]. destruct (at_ok triangle_data (order - 1)) as (l & -> & _); [change (length triangle_data) with 20%nat; lia|].
    eexists. reflexivity.
  - left. unfold make_tetrahedron in H. destruct (order <? 0)%Z; [discriminate|]. destruct (nth_error order_to_index (Z.to_nat order)) as [index|] eqn:E; [|discriminate].
    injection H as <-. apply nth_error_In in E. cbn [GetNumIntegrationPoints].
    assert (B : forallb (fun i => (i <? length tetrahedron_data)%nat) order_to_index = true) by reflexivity.
    rewrite forallb_forall in B. apply B, Nat.ltb_lt in E.
    destruct (at_ok tetrahedron_data (Z.of_nat index)) as (l & -> & _); [lia|]. eexists. reflexivity.
  - left. eexists. reflexivity.
  - left. eexists. reflexivity.
Qed.
Print Assumptions C111_number.

(** C111: a loop over the points reads the rule whose exactness C34 and C35 state *)
Theorem C111_rules :
  (forall gr lr dim n m r, integration_type gr lr dim n m = Ok r -> exists t, make_tensor_product gr lr dim n m = Ok t /\ reads t r) /\
  (forall order r, gauss_triangle order = Ok r -> exists t, make_triangle order = Ok t /\ reads t r) /\
  (forall order r, gauss_tetrahedron order = Ok r -> exists t, make_tetrahedron order = Ok t /\ reads t r) /\
  (forall r, gauss_prism 1 = Ok r -> reads Prism1Ip r) /\ (forall r, gauss_prism 2 = Ok r -> reads Prism2x3Ip r).
Proof.
  split; [|split; [|split; [|split]]].
  - intros gr lr dim n m r H. exists (TensorProduct dim r). split; [unfold make_tensor_product; rewrite H; reflexivity|]. split; [reflexivity|].
    intros i Hi. destruct (nth_error r i) as [(w & x)|] eqn:E; [|apply nth_error_None in E; lia]. exists w, x. split; [reflexivity|].
    cbn [GetIntegrationPointWeight GetLocalIntegrationPointCoordinates]. unfold ip_weight, ip_coords.
    destruct (Z.leb_spec 0 (Z.of_nat i)); [|lia]. destruct (Z.ltb_spec (Z.of_nat i) (Z.of_nat (length r))); [|lia]. cbn [andb].
    rewrite Nat2Z.id. rewrite (nth_error_nth r i (0, []) E). split; reflexivity.
  - intros order r H. exists (Triangle order). split; [reflexivity|]. unfold gauss_triangle in H. destruct (_ && _)%bool; [|discriminate].
    unfold triangle_type in H. unfold reads. cbn [GetNumIntegrationPoints GetIntegrationPointWeight GetLocalIntegrationPointCoordinates]. unfold at_ at 1 2 4.
    destruct (order - 1 <? 0)%Z; [discriminate|]. destruct (nth_error triangle_data (Z.to_nat (order - 1))) as [l|]; [|discriminate].
    injection H as <-. rewrite map_length. split; [reflexivity|]. intros i Hi. cbn [obind]. rewrite at_nat, nth_error_map.
    destruct (nth_error l i) as [((x & y) & w)|] eqn:E; [|apply nth_error_None in E; lia]. eexists. eexists. repeat split.
  - intros order r H. unfold gauss_tetrahedron in H. destruct (_ && _)%bool; [|discriminate].
    unfold tetrahedron_type in H. unfold make_tetrahedron. destruct (order <? 0)%Z; [discriminate|].
    destruct (nth_error order_to_index (Z.to_nat order)) as [index|]; [|discriminate]. exists (Tetrahedron index). split; [reflexivity|].
    unfold reads. cbn [GetNumIntegrationPoints GetIntegrationPointWeight GetLocalIntegrationPointCoordinates]. rewrite !(at_nat tetrahedron_data).
    destruct (nth_error tetrahedron_data index) as [l|]; [|discriminate].
    injection H as <-. rewrite map_length. split; [reflexivity|]. intros i Hi. cbn [obind]. rewrite at_nat, nth_error_map.
    destruct (nth_error l i) as [(((x & y) & z) & w)|] eqn:E; [|apply nth_error_None in E; lia]. eexists. eexists. repeat split.
  - intros r H. injection H as <-. split; [reflexivity|]. intros i Hi. cbn [prism1 length] in Hi. destruct i; [|lia]. exists 1, [1 / 3; 1 / 3; 0]. repeat split.
  - intros r H. injection H as <-. split; [reflexivity|]. intros i Hi. cbn [prism2 length] in Hi.
    do 6 (destruct i as [|i]; [eexists; eexists; repeat split|]). lia.
Qed.
Print Assumptions C111_rules.

(** C111: other indices are refused by the tensor product types, and by the prism with six points when it is asked for
    coordinates.  The full statement (every type refuses them) is false, see below *)
Theorem C111_refuses_partial : forall t n i, created t -> GetNumIntegrationPoints t = Ok n -> (i < 0 \/ n <= i)%Z ->
  (In (GetShape t) [SLine; SQuadrilateral; SHexahedron] -> GetIntegrationPointWeight t i = Throw /\ GetLocalIntegrationPointCoordinates t i = Throw) /\
  (t = Prism2x3Ip -> GetLocalIntegrationPointCoordinates t i = Throw).
Proof.
  intros t n i C Hn Hi. split.
  - intros S. destruct C as [gr lr dim k m t Hd H|order t H|order t H| |].
    + apply tensor_of in H. destruct H as (w1 & p1 & -> & H). cbn [GetNumIntegrationPoints] in Hn. injection Hn as <-.
      destruct (C34_number_of_points dim k w1 p1) as (L & _ & O). unfold num_ips in L. rewrite L in Hi. exact (O i Hi).
    + injection H as <-. exfalso. cbn in S. intuition discriminate.
    + exfalso. unfold make_tetrahedron in H. destruct (order <? 0)%Z; [discriminate|]. destruct (nth_error order_to_index (Z.to_nat order)); [|discriminate].
      injection H as <-. cbn in S. intuition discriminate.
    + exfalso. cbn in S. intuition discriminate.
    + exfalso. cbn in S. intuition discriminate.
  - intros ->. injection Hn as <-. cbn [GetLocalIntegrationPointCoordinates].
    destruct i as [|p|p]; [lia| |reflexivity]. do 3 (destruct p; try reflexivity; try lia).
Qed.
Print Assumptions C111_refuses_partial.

(** ** finding: the simplex types read behind their tables, the prism types invent points *)
Theorem C111_unchecked_refuted :
  (forall order n i, GetNumIntegrationPoints (Triangle order) = Ok n -> (i < 0 \/ n <= i)%Z ->
     GetIntegrationPointWeight (Triangle order) i = UB /\ GetLocalIntegrationPointCoordinates (Triangle order) i = UB) /\
  (forall order t n i, make_tetrahedron order = Ok t -> GetNumIntegrationPoints t = Ok n -> (i < 0 \/ n <= i)%Z ->
     GetIntegrationPointWeight t i = UB /\ GetLocalIntegrationPointCoordinates t i = UB) /\
  (forall i, GetIntegrationPointWeight Prism1Ip i = Ok 1 /\ GetLocalIntegrationPointCoordinates Prism1Ip i = Ok [1 / 3; 1 / 3; 0]) /\
  (forall i, GetIntegrationPointWeight Prism2x3Ip i = Ok (1 / 6)).
Proof.
  split; [|split; [|split]].
  - intros order n i Hn Hi. cbn [GetNumIntegrationPoints GetIntegrationPointWeight GetLocalIntegrationPointCoordinates] in *. unfold omap in *.
    destruct (at_ triangle_data (order - 1)) as [l| |]; cbn [obind] in *; try discriminate. injection Hn as <-. rewrite at_out by exact Hi. split; reflexivity.
  - intros order t n i H Hn Hi. unfold make_tetrahedron in H. destruct (order <? 0)%Z; [discriminate|]. destruct (nth_error order_to_index (Z.to_nat order)) as [index|]; [|discriminate].
    injection H as <-. cbn [GetNumIntegrationPoints GetIntegrationPointWeight GetLocalIntegrationPointCoordinates] in *. unfold omap in *.
    destruct (at_ tetrahedron_data (Z.of_nat index)) as [l| |]; cbn [obind] in *; try discriminate. injection Hn as <-. rewrite at_out by exact Hi. split; reflexivity.
  - intros i. split; reflexivity.
  - intros i. reflexivity.
Qed.
Print Assumptions C111_unchecked_refuted.

(** ** finding: the constructors do not check the order.  A triangle type of order 0 or above 20 is made, but has no answer; the
    constructor of a tetrahedron type of order above 21 reads behind its table *)
Theorem C111_orders_refuted :
  (forall order, (order < 1 \/ 20 < order)%Z -> exists t, make_triangle order = Ok t /\ GetNumIntegrationPoints t = UB) /\
  (forall order, (order < 0 \/ 21 < order)%Z -> make_tetrahedron order = UB).
Proof.
  split.
  - intros order H. exists (Triangle order). split; [reflexivity|]. cbn [GetNumIntegrationPoints]. unfold omap.
    rewrite at_out; [reflexivity|]. change (length triangle_data) with 20%nat. lia.
  - intros order H. unfold make_tetrahedron. destruct (Z.ltb_spec order 0); [reflexivity|].
    destruct (nth_error order_to_index (Z.to_nat order)) eqn:E; [|reflexivity].
    assert (nth_error order_to_index (Z.to_nat order) <> None) as N by congruence. apply nth_error_Some in N.
    change (length order_to_index) with 22%nat in N. lia.
Qed.
Print Assumptions C111_orders_refuted.

(** the triangle rule of order 2 has three points; the tetrahedron type of order 11 has 126 *)
Example C111_case : (exists t, make_triangle 2 = Ok t /\ created t /\ GetNumIntegrationPoints t = Ok 3%Z) /\
  (exists t, make_tetrahedron 11 = Ok t /\ created t /\ GetNumIntegrationPoints t = Ok 126%Z) /\
  (forall x w, gauss_rule (fun _ => [x]) 1 = Ok w -> exists t, make_tensor_product (fun _ => [x]) (fun _ => []) 3 1 GAUSS = Ok t /\ created t /\ GetShape t = SHexahedron).
Proof.
  split; [|split].
  - eexists. split; [reflexivity|]. split; [eapply created_triangle; reflexivity|reflexivity].
  - eexists. split; [reflexivity|]. split; [apply (created_tetrahedron 11); reflexivity|reflexivity].
  - intros x w H. unfold make_tensor_product, integration_type, rule_1d. rewrite H. eexists. split; [reflexivity|]. split; [|reflexivity].
    apply (created_tensor (fun _ => [x]) (fun _ => []) 3 1 GAUSS); [lia|]. unfold make_tensor_product, integration_type, rule_1d. rewrite H. reflexivity.
Qed.
