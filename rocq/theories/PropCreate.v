(** * C115: integration types created for a shape and an order *)
From Coq Require Import List Arith Bool Reals ZArith Lra Lia.
From Coquelicot Require Import Coquelicot.
From Verif Require Import RSum Outcome LegendreModel LegendreSpec LegendreProofs PropLegendre TensorModel TensorSpec PropTensor SimplexTables SimplexModel SimplexSpec PropSimplex PropSimplex2
  ShapeModel IpModel PropIp PropIp2 IntegrationCompanionModel.
Import ListNotations.
Local Open Scope R_scope.

(** ** Specification *)
(** the integral over the reference element *)
Definition shape_integral (s : eshape) (g : list R -> R) (v : R) : Prop :=
  match s with
  | SLine | SQuadrilateral | SHexahedron => cube_integral (coordinates_of s) g v
  | STriangle | STetrahedron => simplex_integral (coordinates_of s) 1 g v
  | SPrism => prism_integral g v
  | SPyramid => False
  end.
(** what a loop over the points computes is the integral of every polynomial of this total degree, up to [tol] for coefficients of size one *)
Definition integrates (t : itype) (s : eshape) (degree : nat) (tol : R) : Prop :=
  exists r, reads t r /\ forall p, degree_at_most (coordinates_of s) degree p ->
    exists v, shape_integral s (evaluate p) v /\ Rabs (apply_rule r (evaluate p) - v) <= tol * coefficient_sum p.
(** the computed zeros are those of the Legendre polynomial, or of its derivative *)
Definition exact_zeros (gr : nat -> list R) (n : nat) : Prop := length (gr n) = n /\ NoDup (gr n) /\ forall x, In x (gr n) -> P n x = 0.
Definition exact_derivative_zeros (lr : nat -> list R) (n : nat) : Prop :=
  length (lr n) = (n - 1)%nat /\ NoDup (lr n) /\ forall x, In x (lr n) -> Derive (P n) x = 0.
(** the orders that exist *)
Definition gauss_order (s : eshape) (order : Z) : Prop :=
  match s with
  | SLine | SQuadrilateral | SHexahedron => (1 <= order)%Z
  | STriangle | STetrahedron => (1 <= order <= 20)%Z
  | SPrism => (1 <= order <= 2)%Z
  | SPyramid => False
  end.
Definition lobatto_order (s : eshape) (order : Z) : Prop := In s [SLine; SQuadrilateral; SHexahedron] /\ (2 <= order)%Z.

(** ** Proofs *)
Lemma multi_plus d D : forall f g, multi_polynomial d D f -> multi_polynomial d D g -> multi_polynomial d D (fun l => f l + g l).
Proof.
  induction d as [|d IH]; intros f g Hf Hg; [exact I|]. destruct Hf as (c & Hc & Ef). destruct Hg as (c' & Hc' & Eg).
  exists (fun k l => c k l + c' k l). split; [intros k Hk; apply IH; auto|]. intros x l. rewrite Ef, Eg, <- rsum_plus. apply rsum_ext. intros; ring.
Qed.
Lemma multi_zero d D : forall g, (forall l, g l = 0) -> multi_polynomial d D g.
Proof.
  induction d as [|d IH]; intros g Hg; [exact I|]. exists (fun _ _ => 0). split; [intros; apply IH; reflexivity|].
  intros x l. rewrite Hg. symmetry. apply rsum_zero. intros; ring.
Qed.
Lemma multi_monomial D a : forall e, (list_sum e <= D)%nat -> multi_polynomial (length e) D (fun l => a * monomial e l).
Proof.
  induction e as [|k e IH]; intros He; [exact I|]. cbn [list_sum fold_right] in He. change (fold_right Init.Nat.add 0%nat e) with (list_sum e) in He. cbn [length].
  exists (fun j l => if Nat.eqb j k then a * monomial e l else 0). split.
  - intros j Hj. destruct (Nat.eqb j k); [apply IH; lia|apply multi_zero; reflexivity].
  - intros x l. rewrite (rsum_single (S D) k); [|lia|intros i Hi Hk; apply Nat.eqb_neq in Hk; rewrite Hk; ring].
    rewrite Nat.eqb_refl. cbn [monomial]. ring.
Qed.
Lemma multi_ext d D : forall f g, (forall l, f l = g l) -> multi_polynomial d D f -> multi_polynomial d D g.
Proof.
  destruct d as [|d]; intros f g E H; [exact I|]. destruct H as (c & Hc & Ef). exists c. split; [exact Hc|]. intros x l. rewrite <- E. apply Ef.
Qed.
Lemma multi_evaluate d D p : degree_at_most d D p -> multi_polynomial d D (evaluate p).
Proof.
  induction 1 as [|(a & e) p (Hl & Hs) _ IH]; [apply multi_zero; reflexivity|]. cbn [snd] in *.
  apply (multi_ext d D (fun l => a * monomial e l + evaluate p l)); [reflexivity|]. apply multi_plus; [|exact IH]. subst d. apply multi_monomial. exact Hs.
Qed.
Lemma degree_mono d m n p : (m <= n)%nat -> degree_at_most d m p -> degree_at_most d n p.
Proof. intros L H. eapply Forall_impl; [|exact H]. intros a (A & B). split; [exact A|lia]. Qed.
Lemma coefficient_nonneg p : 0 <= coefficient_sum p.
Proof. induction p as [|(a & e) p IH]; [apply Rle_refl|]. unfold coefficient_sum in *. cbn [map rlsum fst]. pose proof (Rabs_pos a). lra. Qed.
Lemma quadrature_rule r g v : quadrature (num_ips r) (ip_weight r) (ip_coords r) g v -> apply_rule r g = v.
Proof.
  intros (w & x & A & ->). unfold apply_rule, num_ips in *. rewrite rlsum_nth, map_length. apply rsum_ext. intros i Hi. destruct (A i Hi) as (B & C).
  unfold ip_weight, ip_coords in B, C. assert (G : (0 <=? Z.of_nat i)%Z && (Z.of_nat i <? Z.of_nat (length r))%Z = true).
  { apply andb_true_iff. split; [apply Z.leb_le; lia|apply Z.ltb_lt; lia]. }
  rewrite G, Nat2Z.id in B, C. injection B as <-. injection C as <-.
  rewrite (nth_indep _ 0 (fst (0, @nil R) * g (snd (0, @nil R)))) by (rewrite map_length; exact Hi). rewrite (map_nth (fun wx : R * list R => fst wx * g (snd wx))). reflexivity.
Qed.
Definition cube_shape (d : nat) : eshape := match d with 1%nat => SLine | 2%nat => SQuadrilateral | _ => SHexahedron end.
Lemma tensor_integrates gr lr d n m t degree D r : (1 <= d <= 3)%nat -> make_tensor_product gr lr d n m = Ok t -> (degree <= D)%nat ->
  integration_type gr lr d n m = Ok r ->
  (forall g, multi_polynomial d D g -> exists v, quadrature (num_ips r) (ip_weight r) (ip_coords r) g v /\ cube_integral d g v) ->
  integrates t (cube_shape d) degree 0.
Proof.
  intros Hd Ht HD Hr Hx. destruct (proj1 C111_rules gr lr d n m r Hr) as (t' & Et & R). rewrite Ht in Et. injection Et as <-.
  exists r. split; [exact R|]. assert (Ed : coordinates_of (cube_shape d) = d) by (destruct d as [|[|[|[|d]]]]; try lia; reflexivity). rewrite Ed.
  intros p Hp. destruct (Hx (evaluate p)) as (v & Q & C); [apply multi_evaluate, (degree_mono d degree D); auto|].
  exists v. split.
  - destruct d as [|[|[|[|d]]]]; try lia; exact C.
  - rewrite (quadrature_rule _ _ _ Q). replace (v - v) with 0 by ring. rewrite Rabs_R0, Rmult_0_l. apply Rle_refl.
Qed.
Lemma tensor_shape gr lr d n m t : (1 <= d <= 3)%nat -> make_tensor_product gr lr d n m = Ok t -> GetShape t = cube_shape d.
Proof. intros Hd H. apply tensor_of in H. destruct H as (w & p & -> & _). destruct d as [|[|[|[|d]]]]; try lia; reflexivity. Qed.
Lemma integrates_tol t s degree tol tol' : tol <= tol' -> integrates t s degree tol -> integrates t s degree tol'.
Proof.
  intros L (r & R & H). exists r. split; [exact R|]. intros p Hp. destruct (H p Hp) as (v & I1 & I2). exists v. split; [exact I1|].
  eapply Rle_trans; [exact I2|]. apply Rmult_le_compat_r; [apply coefficient_nonneg|exact L].
Qed.
Lemma gauss_defined gr n : (1 <= n)%nat -> exists wp, gauss_rule gr n = Ok wp.
Proof.
  intros Hn. destruct n as [|n]; [lia|]. unfold gauss_rule. cbv zeta. match goal with |- context [osequence ?l] => destruct (osequence_ok l) as (ws & Ew) end.
  { intros o Ho. apply in_map_iff in Ho. destruct Ho as (i & <- & _). destruct (legendre_defined (S n) (nth i (gr (S n)) 0) 1) as (v & ->); [lia|]. simpl. eauto. }
  rewrite Ew. eexists. reflexivity.
Qed.
Lemma lobatto_defined lr n : (2 <= n)%nat -> exists wp, lobatto_rule lr n = Ok wp.
Proof.
  intros Hn. unfold lobatto_rule. destruct (Nat.leb_spec n 1); [lia|]. cbv zeta. match goal with |- context [osequence ?l] => destruct (osequence_ok l) as (ws & Ew) end.
  { intros o Ho. apply in_map_iff in Ho. destruct Ho as (i & <- & _).
    match goal with |- context [legendre ?a ?b ?c] => destruct (legendre_defined a b c) as (v & ->) end; [lia|]. simpl. eauto. }
  rewrite Ew. eexists. reflexivity.
Qed.
Lemma tensor_order gr lr d order m : (match m with GAUSS => 1 | LOBATTO => 2 end <= order)%Z -> exists t, tensor_of_order gr lr d order m = Ok t.
Proof.
  intros H. unfold tensor_of_order, make_tensor_product, integration_type, rule_1d. destruct m.
  - destruct (gauss_defined gr (Z.to_nat order)) as (wp & ->); [lia|]. eexists. reflexivity.
  - destruct (lobatto_defined lr (Z.to_nat order)) as (wp & ->); [lia|]. eexists. reflexivity.
Qed.
Lemma tensor_refused gr lr d order m : (order < match m with GAUSS => 1 | LOBATTO => 2 end)%Z -> tensor_of_order gr lr d order m = Throw.
Proof.
  intros H. unfold tensor_of_order, make_tensor_product, integration_type, rule_1d. destruct m.
  - replace (Z.to_nat order) with 0%nat by lia. reflexivity.
  - unfold lobatto_rule. destruct (Nat.leb_spec (Z.to_nat order) 1); [reflexivity|lia].
Qed.

(** C115: an object is created exactly for the orders that exist, any other shape and order is refused with an exception *)
Theorem C115_available : forall gr lr s order,
  ((gauss_order s order /\ exists t, CreateGaussIntegrationType gr lr s order = Ok t /\ GetShape t = s) \/
   (~ gauss_order s order /\ CreateGaussIntegrationType gr lr s order = Throw)) /\
  ((lobatto_order s order /\ exists t, CreateLobattoIntegrationType gr lr s order = Ok t /\ GetShape t = s) \/
   (~ lobatto_order s order /\ CreateLobattoIntegrationType gr lr s order = Throw)).
Proof.
  intros gr lr s order.
  assert (G : forall d, (1 <= d <= 3)%nat -> ((1 <= order)%Z /\ exists t, tensor_of_order gr lr d order GAUSS = Ok t /\ GetShape t = cube_shape d) \/
                        (~ (1 <= order)%Z /\ tensor_of_order gr lr d order GAUSS = Throw)).
  { intros d Hd. destruct (Z_le_gt_dec 1 order) as [L|L].
    - left. split; [exact L|]. destruct (tensor_order gr lr d order GAUSS L) as (t & E). exists t. split; [exact E|]. exact (tensor_shape _ _ _ _ _ _ Hd E).
    - right. split; [lia|]. apply tensor_refused. lia. }
  assert (L : forall d, (1 <= d <= 3)%nat -> ((2 <= order)%Z /\ exists t, tensor_of_order gr lr d order LOBATTO = Ok t /\ GetShape t = cube_shape d) \/
                        (~ (2 <= order)%Z /\ tensor_of_order gr lr d order LOBATTO = Throw)).
  { intros d Hd. destruct (Z_le_gt_dec 2 order) as [L|L].
    - left. split; [exact L|]. destruct (tensor_order gr lr d order LOBATTO L) as (t & E). exists t. split; [exact E|]. exact (tensor_shape _ _ _ _ _ _ Hd E).
    - right. split; [lia|]. apply tensor_refused. lia. }
  split.
  - destruct s; cbn [gauss_order CreateGaussIntegrationType].
    + exact (G 1%nat ltac:(lia)).
    + unfold GaussTriangle. destruct (Z.ltb_spec 0 order); destruct (Z.ltb_spec order 21); cbn [andb]; try (right; split; [lia|reflexivity]).
      left. split; [lia|]. eexists. split; reflexivity.
    + exact (G 2%nat ltac:(lia)).
    + unfold GaussTetrahedron. destruct (Z.ltb_spec 0 order); destruct (Z.ltb_spec order 21); cbn [andb]; try (right; split; [lia|reflexivity]).
      left. split; [lia|]. unfold make_tetrahedron. destruct (Z.ltb_spec order 0); [lia|].
      destruct (nth_error order_to_index (Z.to_nat order)) as [index|] eqn:E; [eexists; split; reflexivity|].
      apply nth_error_None in E. change (length order_to_index) with 22%nat in E. lia.
    + exact (G 3%nat ltac:(lia)).
    + unfold GaussPrism. destruct (Z.eq_dec order 1) as [->|N1]; [left; split; [lia|eexists; split; reflexivity]|].
      destruct (Z.eq_dec order 2) as [->|N2]; [left; split; [lia|eexists; split; reflexivity]|].
      right. split; [lia|]. destruct order as [|[|[]|]|]; try reflexivity; lia.
    + right. split; [tauto|reflexivity].
  - destruct s; unfold lobatto_order; cbn [CreateLobattoIntegrationType]; try (right; split; [intros (I & _); cbn in I; intuition discriminate|reflexivity]).
    + destruct (L 1%nat ltac:(lia)) as [(A & B)|(A & B)]; [left; split; [split; [cbn; tauto|exact A]|exact B]|right; split; [tauto|exact B]].
    + destruct (L 2%nat ltac:(lia)) as [(A & B)|(A & B)]; [left; split; [split; [cbn; tauto|exact A]|exact B]|right; split; [tauto|exact B]].
    + destruct (L 3%nat ltac:(lia)) as [(A & B)|(A & B)]; [left; split; [split; [cbn; tauto|exact A]|exact B]|right; split; [tauto|exact B]].
Qed.
Print Assumptions C115_available.

(** C115: a Gauss type of this order integrates polynomials of this total degree; missing: triangles of order 20, where it is false *)
Theorem C115_gauss_partial : forall gr lr s order t, exact_zeros gr (Z.to_nat order) -> (s = STriangle -> order <> 20%Z) ->
  CreateGaussIntegrationType gr lr s order = Ok t -> integrates t s (Z.to_nat order) (3 / 10 ^ 12).
Proof.
  intros gr lr s order t (HL & HN & HZ) H20 H.
  assert (G : forall d, (1 <= d <= 3)%nat -> tensor_of_order gr lr d order GAUSS = Ok t -> integrates t (cube_shape d) (Z.to_nat order) (3 / 10 ^ 12)).
  { intros d Hd E. apply (integrates_tol t _ _ 0); [lra|]. assert (Hn : (1 <= Z.to_nat order)%nat).
    { destruct (Nat.eq_dec (Z.to_nat order) 0) as [Z0|]; [|lia]. unfold tensor_of_order, make_tensor_product, integration_type, rule_1d in E. rewrite Z0 in E. discriminate. }
    destruct (C34_gauss gr lr d (Z.to_nat order) Hn HL HN HZ) as (r & Er & _ & Hx).
    apply (tensor_integrates gr lr d (Z.to_nat order) GAUSS t (Z.to_nat order) (2 * Z.to_nat order - 1) r Hd E); [lia|exact Er|exact Hx]. }
  destruct s; cbn [CreateGaussIntegrationType] in H.
  - exact (G 1%nat ltac:(lia) H).
  - unfold GaussTriangle in H. destruct (Z.ltb_spec 0 order); destruct (Z.ltb_spec order 21); cbn [andb] in H; try discriminate. specialize (H20 eq_refl).
    destruct (C35_triangle (Z.to_nat order)) as (r & Er & Hx); [lia|]. rewrite Z2Nat.id in Er by lia.
    destruct (proj1 (proj2 C111_rules) order r Er) as (t' & Et & R). rewrite H in Et. injection Et as <-.
    apply (integrates_tol t _ _ (5 / 10 ^ 15)); [lra|]. exists r. split; [exact R|exact Hx].
  - exact (G 2%nat ltac:(lia) H).
  - unfold GaussTetrahedron in H. destruct (Z.ltb_spec 0 order); destruct (Z.ltb_spec order 21); cbn [andb] in H; try discriminate.
    destruct (C35_tetrahedron (Z.to_nat order)) as (r & Er & Hx); [lia|]. rewrite Z2Nat.id in Er by lia.
    destruct (proj1 (proj2 (proj2 C111_rules)) order r Er) as (t' & Et & R). rewrite H in Et. injection Et as <-.
    eapply integrates_tol; [|exists r; split; [exact R|exact Hx]]. destruct (_ <=? _)%nat; lra.
  - exact (G 3%nat ltac:(lia) H).
  - assert (X : exists r, gauss_prism order = Ok r /\ reads t r).
    { destruct C111_rules as (_ & _ & _ & R1 & R2). unfold GaussPrism in H. destruct order as [|[|[]|]|]; try discriminate; injection H as <-; eexists; (split; [reflexivity|]);
        [apply R2; reflexivity|apply R1; reflexivity]. }
    destruct X as (r & Er & R). destruct (C35_prism order (ex_intro _ r Er)) as (r' & Er' & _ & Hx). rewrite Er in Er'. injection Er' as <-.
    apply (integrates_tol t _ _ (1 / 10 ^ 15)); [lra|]. exists r. split; [exact R|exact Hx].
  - discriminate.
Qed.
Print Assumptions C115_gauss_partial.

(** C115: a Lobatto type of order three and above integrates polynomials of this total degree, without error; order two is refuted below *)
Theorem C115_lobatto_partial : forall gr lr s order t, exact_derivative_zeros lr (Z.to_nat order - 1) -> (3 <= order)%Z ->
  CreateLobattoIntegrationType gr lr s order = Ok t -> integrates t s (Z.to_nat order) 0.
Proof.
  intros gr lr s order t (HL & HN & HZ) H3 H.
  assert (G : forall d, (1 <= d <= 3)%nat -> tensor_of_order gr lr d order LOBATTO = Ok t -> integrates t (cube_shape d) (Z.to_nat order) 0).
  { intros d Hd E. destruct (C34_lobatto gr lr d (Z.to_nat order)) as (r & Er & _ & Hx); auto; try lia.
    apply (tensor_integrates gr lr d (Z.to_nat order) LOBATTO t (Z.to_nat order) (2 * Z.to_nat order - 3) r Hd E); [lia|exact Er|exact Hx]. }
  destruct s; cbn [CreateLobattoIntegrationType] in H; try discriminate.
  - exact (G 1%nat ltac:(lia) H).
  - exact (G 2%nat ltac:(lia) H).
  - exact (G 3%nat ltac:(lia) H).
Qed.
Print Assumptions C115_lobatto_partial.

(** finding: the Lobatto type of order two for the line gives 2 for the integral of x^2, which is 2/3, whatever zeros are computed *)
Theorem C115_lobatto_order2_refuted : forall gr lr, lr 1%nat = [] -> exists t r v, CreateLobattoIntegrationType gr lr SLine 2 = Ok t /\ reads t r /\
  shape_integral SLine (evaluate [(1, [2%nat])]) v /\ v = 2 / 3 /\ apply_rule r (evaluate [(1, [2%nat])]) = 2.
Proof.
  intros gr lr H1. assert (E : integration_type gr lr 1 2 LOBATTO = Ok (tensor_rule 1 2 [2 / (INR 2 * (INR 2 - 1)); 2 / (INR 2 * (INR 2 - 1))] [-1; 1])).
  { unfold integration_type, rule_1d, lobatto_rule. cbn [Nat.leb Nat.sub]. rewrite H1. reflexivity. }
  destruct (proj1 C111_rules gr lr 1%nat 2%nat LOBATTO _ E) as (t & Et & R). exists t. eexists. exists (2 / 3). split; [exact Et|]. split; [exact R|]. split; [|split; [reflexivity|]].
  - exists (fun x => evaluate [(1, [2%nat])] [x]). split; [intros x; reflexivity|].
    apply (is_RInt_ext (fun x => x ^ 2)); [intros x _; unfold evaluate; cbn; ring|].
    replace (2 / 3) with (minus (1 ^ 3 / 3) ((-1) ^ 3 / 3)) by (unfold minus, plus, opp; cbn; field).
    apply (is_RInt_derive (fun x => x ^ 3 / 3) (fun x => x ^ 2)).
    + intros x _. auto_derive; [trivial|]. field.
    + intros x _. apply (ex_derive_continuous (fun x => x ^ 2)). auto_derive. trivial.
  - unfold apply_rule, evaluate. cbn. field.
Qed.
Print Assumptions C115_lobatto_order2_refuted.

(** finding: the triangle type of order 20 misses the integral of y by more than 1e-10 *)
Theorem C115_triangle20_refuted : forall gr lr, exists t r v, CreateGaussIntegrationType gr lr STriangle 20 = Ok t /\ reads t r /\
  shape_integral STriangle (evaluate [(1, [0; 1]%nat)]) v /\ Rabs (apply_rule r (evaluate [(1, [0; 1]%nat)]) - v) > 1 / 10 ^ 10.
Proof.
  intros gr lr. destruct C35_order20_refuted as (r & Er & v & Hv & Hd). destruct (proj1 (proj2 C111_rules) 20%Z r Er) as (t & Et & R).
  exists t, r, v. split; [exact Et|]. split; [exact R|]. split; [exact Hv|exact Hd].
Qed.
Print Assumptions C115_triangle20_refuted.

(** two Gauss points per direction on the quadrilateral, three points on the triangle *)
Example C115_case : exact_zeros roots2 2 /\
  (exists t, CreateGaussIntegrationType roots2 (fun _ => []) SQuadrilateral 2 = Ok t /\ integrates t SQuadrilateral 2 (3 / 10 ^ 12)) /\
  (exists t, CreateLobattoIntegrationType roots2 (fun _ => [0]) SHexahedron 3 = Ok t /\ integrates t SHexahedron 3 0).
Proof.
  assert (Z2 : exact_zeros roots2 2) by exact C73_hypotheses. split; [exact Z2|]. split.
  - destruct (C115_available roots2 (fun _ => []) SQuadrilateral 2) as ([(_ & t & E & _)|(N & _)] & _); [|cbn in N; lia].
    exists t. split; [exact E|]. apply (C115_gauss_partial roots2 (fun _ => []) SQuadrilateral 2 t); auto. discriminate.
  - destruct (C115_available roots2 (fun _ => [0]) SHexahedron 3) as (_ & [(_ & t & E & _)|(N & _)]); [|exfalso; apply N; split; [cbn; auto|lia]].
    exists t. split; [exact E|]. apply (C115_lobatto_partial roots2 (fun _ => [0]) SHexahedron 3 t); auto; [|lia].
    split; [reflexivity|]. split; [repeat constructor; intros []|]. intros x [<-|[]].
    apply is_derive_unique. pose proof (D_derive 2 0) as X. replace 0 with (D 2 0) at 2; [exact X|]. cbn. lra.
Qed.
