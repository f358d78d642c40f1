(** * C88: integration points lie in the element and have positive weights *)
From Coq Require Import List Arith Bool Reals Lra Lia ZArith.
From Coquelicot Require Import Coquelicot.
From Verif Require Import RSum Outcome AdaptiveModel LegendreModel LegendreSpec LegendreProofs PolyProofs QuadratureProofs PropLegendre TensorModel
  SimplexTables SimplexModel ShapeModel InterpolationModel PropShape PointsProofs.
Import ListNotations.
Local Open Scope R_scope.

(** the specification: every point of the rule is a convex combination of the corner nodes; the coordinates are complete *)
Definition points_inside (s : eshape) (r : list (R * list R)) : Prop :=
  forall w x, In (w, x) r -> length x = dim s /\ in_element s (fun k => nth k x 0).
Definition weights_positive (r : list (R * list R)) : Prop := forall w x, In (w, x) r -> 0 < w.
Definition cube (d : nat) : eshape := match d with 1%nat => SLine | 2%nat => SQuadrilateral | _ => SHexahedron end.

(** ** tensor products *)
Lemma tensor_point_in w1 p1 n (B : R -> Prop) : (1 <= n)%nat -> (forall j, (j < n)%nat -> 0 < nth j w1 0) -> (forall j, (j < n)%nat -> B (nth j p1 0)) ->
  forall d i power acc, 0 < acc -> let t := tensor_point w1 p1 n d i power acc in 0 < fst t /\ length (snd t) = d /\ forall k, (k < d)%nat -> B (nth k (snd t) 0).
Proof.
  intros Hn Hw Hp. induction d as [|d IH]; intros i power acc Ha t; unfold t; cbn [tensor_point]; [repeat split; auto; intros; lia|].
  set (index := ((i / power) mod n)%nat). assert (Hi: (index < n)%nat) by (apply Nat.mod_upper_bound; lia).
  specialize (IH i (power * n)%nat (acc * nth index w1 0) ltac:(apply Rmult_lt_0_compat; auto)).
  destruct (tensor_point w1 p1 n d i (power * n) (acc * nth index w1 0)) as (wt & cs). cbn [fst snd] in *. destruct IH as (A & L & C).
  repeat split; auto; [cbn; lia|]. intros [|k] Hk; [apply Hp; exact Hi|apply C; lia].
Qed.
Lemma cube_inside d (x : list R) : (1 <= d <= 3)%nat -> (forall k, (k < d)%nat -> -1 <= nth k x 0 <= 1) -> in_element (cube d) (fun k => nth k x 0).
Proof.
  intros Hd Hx. apply C87_rejects_partial; [destruct d as [|[|[|[|d]]]]; try discriminate; lia|]. intros e He.
  destruct d as [|[|[|[|d]]]]; try lia; pose proof (Hx 0%nat ltac:(lia)); try pose proof (Hx 1%nat ltac:(lia)); try pose proof (Hx 2%nat ltac:(lia));
    cbn [cube]; unfold IsWithinShape; rewrite !andb_true_iff, !rltb_true; lra.
Qed.
Lemma tensor_inside d n w1 p1 : (1 <= d <= 3)%nat -> (1 <= n)%nat -> (forall j, (j < n)%nat -> 0 < nth j w1 0) -> (forall j, (j < n)%nat -> -1 <= nth j p1 0 <= 1) ->
  points_inside (cube d) (tensor_rule d n w1 p1) /\ weights_positive (tensor_rule d n w1 p1).
Proof.
  intros Hd Hn Hw Hp. assert (T : forall w x, In (w, x) (tensor_rule d n w1 p1) -> 0 < w /\ length x = d /\ forall k, (k < d)%nat -> -1 <= nth k x 0 <= 1).
  { intros w x Hin. apply in_map_iff in Hin. destruct Hin as (i & E & _).
    pose proof (tensor_point_in w1 p1 n (fun t => -1 <= t <= 1) Hn Hw Hp d i 1%nat 1 ltac:(lra)) as H. cbv zeta in H. rewrite E in H. exact H. }
  split; [intros w x Hin|intros w x Hin; apply T in Hin; tauto]. apply T in Hin. destruct Hin as (_ & L & X). split.
  - rewrite L. destruct d as [|[|[|[|d]]]]; try lia; reflexivity.
  - apply cube_inside; auto.
Qed.

(** C88: with the exact zeros of the Legendre polynomial, every Gauss rule for lines, quadrilaterals and hexahedra *)
Theorem C88_gauss : forall gr lr d n,
  (1 <= d <= 3)%nat -> (1 <= n)%nat -> length (gr n) = n -> NoDup (gr n) -> (forall x, In x (gr n) -> P n x = 0) ->
  exists r, integration_type gr lr d n GAUSS = Ok r /\ points_inside (cube d) r /\ weights_positive r.
Proof.
  intros gr lr d n Hd Hn HL HN HZ. destruct (C73_gauss_exact gr n Hn HL HN HZ) as (w & p & E & Lw & Lp & Hx).
  assert (Ep : p = gr n). { unfold gauss_rule in E. destruct n as [|n]; [lia|]. cbv zeta in E. destruct (osequence _) in E; try discriminate. cbn [obind] in E. injection E as _ E; auto. }
  exists (tensor_rule d n w p). unfold integration_type, rule_1d. rewrite E. split; [reflexivity|]. subst p.
  pose proof (gauss_inside (fun i => nth i w 0) (gr n) HN) as G. rewrite HL in G.
  specialize (G ltac:(intros f Hf; apply Hx; apply polynomial_polylt; revert Hf; apply polylt_mono; lia)).
  apply tensor_inside; auto; intros j Hj; specialize (G j Hj); cbv beta in G; [tauto|lra].
Qed.
Print Assumptions C88_gauss.

(** C88: in fact the Gauss points are in the interior *)
Theorem C88_gauss_interior : forall roots n,
  (1 <= n)%nat -> length (roots n) = n -> NoDup (roots n) -> (forall x, In x (roots n) -> P n x = 0) ->
  exists weights points, gauss_rule roots n = Ok (weights, points) /\ forall j, (j < n)%nat -> 0 < nth j weights 0 /\ -1 < nth j points 0 < 1.
Proof.
  intros gr n Hn HL HN HZ. destruct (C73_gauss_exact gr n Hn HL HN HZ) as (w & p & E & Lw & Lp & Hx).
  assert (Ep : p = gr n). { unfold gauss_rule in E. destruct n as [|n]; [lia|]. cbv zeta in E. destruct (osequence _) in E; try discriminate. cbn [obind] in E. injection E as _ E; auto. }
  exists w, p. split; [exact E|]. subst p.
  pose proof (gauss_inside (fun i => nth i w 0) (gr n) HN) as G. rewrite HL in G.
  apply G. intros f Hf; apply Hx; apply polynomial_polylt; revert Hf; apply polylt_mono; lia.
Qed.
Print Assumptions C88_gauss_interior.

(** C88: Lobatto rules *)
Theorem C88_lobatto : forall gr lr d n,
  (1 <= d <= 3)%nat -> (2 <= n)%nat -> length (lr (n - 1)%nat) = (n - 2)%nat -> NoDup (lr (n - 1)%nat) ->
  (forall x, In x (lr (n - 1)%nat) -> Derive (P (n - 1)) x = 0) ->
  exists r, integration_type gr lr d n LOBATTO = Ok r /\ points_inside (cube d) r /\ weights_positive r.
Proof.
  intros gr lr d n Hd Hn HL HN HZ. destruct (C74_lobatto_exact lr n Hn HL HN HZ) as (w & p & E & Lw & Lp & _ & _ & Hx).
  set (l := lr (n - 1)%nat) in *.
  assert (Ep : p = [-1] ++ l ++ [1]).
  { unfold lobatto_rule in E. destruct (Nat.leb n 1) in E; try discriminate. fold l in E. cbv zeta in E. destruct (osequence _) in E; try discriminate. cbn [obind] in E. injection E as _ E; auto. }
  exists (tensor_rule d n w p). unfold integration_type, rule_1d. rewrite E. split; [reflexivity|].
  assert (En : n = S (S (length l))) by lia. set (m := length l) in *. clearbody l. clear E HZ.
  assert (pi : forall i, (i < m)%nat -> nth (S i) p 0 = nth i l 0) by (intros i Hi; subst p; cbn [app nth]; rewrite app_nth1 by exact Hi; reflexivity).
  assert (pl : nth (S m) p 0 = 1) by (subst p; cbn [app nth]; rewrite app_nth2 by (unfold m; lia); unfold m; rewrite Nat.sub_diag; reflexivity).
  assert (p0 : nth 0 p 0 = -1) by (subst p; reflexivity).
  destruct (lobatto_inside (fun i => nth i w 0) l HN) as (G & G0 & G1).
  { intros f Hf. fold m. specialize (Hx f). rewrite En in Hx at 2. rewrite rsum_front in Hx. cbn [rsum] in Hx. cbv beta in Hx. fold m in Hf.
    rewrite p0, pl in Hx. rewrite (rsum_ext m _ (fun i => nth (S i) w 0 * f (nth i l 0))) in Hx by (intros i Hi; rewrite pi by exact Hi; reflexivity).
    rewrite Rplus_assoc. apply Hx. apply polynomial_polylt. revert Hf. apply polylt_mono. lia. }
  fold m in G, G1. cbv beta in G, G0, G1.
  apply tensor_inside; auto; try lia; intros j Hj; (destruct (Nat.eq_dec j 0) as [->|J0]; [|destruct (Nat.eq_dec j (S m)) as [->|J1]]).
  - exact G0.
  - exact G1.
  - destruct j as [|j]; [lia|]. apply (G j ltac:(lia)).
  - rewrite p0; lra.
  - rewrite pl; lra.
  - destruct j as [|j]; [lia|]. rewrite pi by lia. specialize (G j ltac:(lia)). lra.
Qed.
Print Assumptions C88_lobatto.

(** ** tables *)
Definition tri_in (p : Z * Z * Z) : bool := let '(x, y, w) := p in Z.leb 0 x && Z.leb 0 y && Z.leb (x + y) (10 ^ 19).
Definition tri_w (p : Z * Z * Z) : bool := let '(x, y, w) := p in Z.ltb 0 w.
Definition tet_in (p : Z * Z * Z * Z) : bool := let '(x, y, z, w) := p in Z.leb 0 x && Z.leb 0 y && Z.leb 0 z && Z.leb (x + y + z) (10 ^ 19).
Definition tet_w (p : Z * Z * Z * Z) : bool := let '(x, y, z, w) := p in Z.ltb 0 w.
Lemma p19 : 10 ^ 19 = IZR (10 ^ 19).
Proof. rewrite (pow_IZR 10 19). reflexivity. Qed.
Lemma coord_nonneg x : (0 <= x)%Z -> 0 <= coord x.
Proof. intros H. unfold coord. apply Rle_mult_inv_pos; [apply IZR_le; exact H|apply pow_lt; lra]. Qed.
Lemma coord_plus x y : coord x + coord y = coord (x + y).
Proof. unfold coord. rewrite plus_IZR. field. Qed.
Lemma coord_le1 x : (x <= 10 ^ 19)%Z -> coord x <= 1.
Proof. intros H. unfold coord. apply (Rmult_le_reg_r (10 ^ 19)); [apply pow_lt; lra|]. unfold Rdiv. rewrite Rmult_assoc, Rinv_l, Rmult_1_r, Rmult_1_l by (apply pow_nonzero; lra). rewrite p19. apply IZR_le. exact H. Qed.
Lemma coord_gt1 x : (10 ^ 19 < x)%Z -> 1 < coord x.
Proof. intros H. unfold coord. apply (Rmult_lt_reg_r (10 ^ 19)); [apply pow_lt; lra|]. unfold Rdiv. rewrite Rmult_assoc, Rinv_l, Rmult_1_r, Rmult_1_l by (apply pow_nonzero; lra). rewrite p19. apply IZR_lt. exact H. Qed.
Lemma coord_neg x : (x < 0)%Z -> coord x < 0.
Proof. intros H. unfold coord, Rdiv. assert (P := Rinv_0_lt_compat _ (pow_lt 10 19 ltac:(lra))). apply IZR_lt in H. set (q := / 10 ^ 19) in *. nra. Qed.
Lemma scaled_sign (z : Z) k : ((0 < z)%Z <-> 0 < IZR z / 10 ^ k).
Proof.
  assert (H := Rinv_0_lt_compat _ (pow_lt 10 k ltac:(lra))). unfold Rdiv. split; intros E; [apply Rmult_lt_0_compat; auto; apply IZR_lt; exact E|].
  apply lt_IZR. apply (Rmult_lt_reg_r (/ 10 ^ k)); lra.
Qed.

Lemma tri_element x y : in_element STriangle (fun k => nth k [x; y] 0) <-> 0 <= x /\ 0 <= y /\ x + y <= 1.
Proof.
  split.
  - intros (w & Hw & Hs & Hx). pose proof (Hx 0%nat ltac:(cbn; lia)) as X. pose proof (Hx 1%nat ltac:(cbn; lia)) as Y.
    pose proof (Hw 0%nat ltac:(cbn; lia)). pose proof (Hw 1%nat ltac:(cbn; lia)). pose proof (Hw 2%nat ltac:(cbn; lia)). cbn in X, Y, Hs. lra.
  - intros (A & B & C). apply C87_rejects_partial; [discriminate|]. intros e He. unfold IsWithinShape. cbn [nth]. rewrite !andb_true_iff, !rltb_true. lra.
Qed.
Lemma tet_element x y z : in_element STetrahedron (fun k => nth k [x; y; z] 0) <-> 0 <= x /\ 0 <= y /\ 0 <= z /\ x + y + z <= 1.
Proof.
  split.
  - intros (w & Hw & Hs & Hx). pose proof (Hx 0%nat ltac:(cbn; lia)) as X. pose proof (Hx 1%nat ltac:(cbn; lia)) as Y. pose proof (Hx 2%nat ltac:(cbn; lia)) as Z.
    pose proof (Hw 0%nat ltac:(cbn; lia)). pose proof (Hw 1%nat ltac:(cbn; lia)). pose proof (Hw 2%nat ltac:(cbn; lia)). pose proof (Hw 3%nat ltac:(cbn; lia)). cbn in X, Y, Z, Hs. lra.
  - intros (A & B & C & D). apply C87_rejects_partial; [discriminate|]. intros e He. unfold IsWithinShape. cbn [nth]. rewrite !andb_true_iff, !rltb_true. lra.
Qed.
Lemma tri_in_spec x y w : tri_in (x, y, w) = true <-> in_element STriangle (fun k => nth k [coord x; coord y] 0).
Proof.
  unfold tri_in. rewrite tri_element, !andb_true_iff, !Z.leb_le, coord_plus. split.
  - intros ((A & B) & C). auto using coord_nonneg, coord_le1.
  - intros (A & B & C). destruct (Z.le_gt_cases 0 x) as [|N]; [|apply coord_neg in N; lra]. destruct (Z.le_gt_cases 0 y) as [|N]; [|apply coord_neg in N; lra].
    destruct (Z.le_gt_cases (x + y) (10 ^ 19)) as [|N]; [auto|apply coord_gt1 in N; lra].
Qed.
Lemma tet_in_spec x y z w : tet_in (x, y, z, w) = true <-> in_element STetrahedron (fun k => nth k [coord x; coord y; coord z] 0).
Proof.
  unfold tet_in. rewrite tet_element, !andb_true_iff, !Z.leb_le, !coord_plus. split.
  - intros (((A & B) & C) & D). auto using coord_nonneg, coord_le1.
  - intros (A & B & C & D). destruct (Z.le_gt_cases 0 x) as [|N]; [|apply coord_neg in N; lra]. destruct (Z.le_gt_cases 0 y) as [|N]; [|apply coord_neg in N; lra].
    destruct (Z.le_gt_cases 0 z) as [|N]; [|apply coord_neg in N; lra].
    destruct (Z.le_gt_cases (x + y + z) (10 ^ 19)) as [|N]; [auto|apply coord_gt1 in N; lra].
Qed.

Lemma forallb_not {A} (f : A -> bool) l : forallb f l = false -> exists a, In a l /\ f a = false.
Proof. induction l as [|a l IH]; cbn; [discriminate|]. destruct (f a) eqn:E; [intros H; destruct (IH H) as (b & Hb & Fb); eauto|eauto]. Qed.

Lemma triangle_type_ok order : (1 <= order <= 20)%Z -> gauss_triangle order = Ok (map (fun '(x, y, w) => (weight2 w, [coord x; coord y])) (nth (Z.to_nat (order - 1)) triangle_data [])).
Proof.
  intros Ho. unfold gauss_triangle, triangle_type. destruct (Z.ltb_spec 0 order); [|lia]. destruct (Z.ltb_spec order 21); [|lia]. cbn [andb].
  destruct (Z.ltb_spec (order - 1) 0); [lia|]. rewrite (nth_error_nth' triangle_data []); [reflexivity|]. change (length triangle_data) with 20%nat. lia.
Qed.
Lemma tetrahedron_type_ok order : (1 <= order <= 20)%Z ->
  gauss_tetrahedron order = Ok (map (fun '(x, y, z, w) => (weight3 w, [coord x; coord y; coord z])) (nth (nth (Z.to_nat order) order_to_index 0%nat) tetrahedron_data [])).
Proof.
  intros Ho. unfold gauss_tetrahedron, tetrahedron_type. destruct (Z.ltb_spec 0 order); [|lia]. destruct (Z.ltb_spec order 21); [|lia]. cbn [andb].
  destruct (Z.ltb_spec order 0); [lia|]. rewrite (nth_error_nth' order_to_index 0%nat) by (change (length order_to_index) with 22%nat; lia).
  rewrite (nth_error_nth' tetrahedron_data []); [reflexivity|]. change (length tetrahedron_data) with 15%nat.
  assert (F : forallb (fun i => Nat.ltb i 15) order_to_index = true) by reflexivity. rewrite forallb_forall in F. apply Nat.ltb_lt. apply F. apply nth_In.
  change (length order_to_index) with 22%nat. lia.
Qed.
Definition memb (l : list Z) (o : Z) : bool := existsb (Z.eqb o) l.
Lemma memb_spec l o : memb l o = true <-> In o l.
Proof. unfold memb. rewrite existsb_exists. split; [intros (a & H & E); apply Z.eqb_eq in E; subst; auto|intros H; exists o; split; auto; apply Z.eqb_refl]. Qed.
Definition orders : list Z := [1;2;3;4;5;6;7;8;9;10;11;12;13;14;15;16;17;18;19;20]%Z.
Lemma orders_spec o : (1 <= o <= 20)%Z -> In o orders.
Proof. intros H. unfold orders. cbn. lia. Qed.
Lemma tri_checks : forallb (fun o => let l := nth (Z.to_nat (o - 1)) triangle_data [] in
  Bool.eqb (forallb tri_in l) (negb (memb [11; 15; 16; 18; 20] o)) && Bool.eqb (forallb tri_w l) (negb (memb [3; 7; 18; 20] o)))%Z orders = true.
Proof. vm_compute. reflexivity. Qed.
Lemma tet_checks : forallb (fun o => let l := nth (nth (Z.to_nat o) order_to_index 0%nat) tetrahedron_data [] in
  Bool.eqb (forallb tet_in l) (negb (memb [9] o)) && Bool.eqb (forallb tet_w l) (memb [1; 2; 5; 6] o))%Z orders = true.
Proof. vm_compute. reflexivity. Qed.

(** C88: for which orders all points of the triangle rule lie in the triangle and all weights are positive: the full
    statement (every order) is false, the exceptions are listed *)
Theorem C88_triangle_partial : forall order, (1 <= order <= 20)%Z ->
  exists r, gauss_triangle order = Ok r /\
    (points_inside STriangle r <-> ~ In order [11; 15; 16; 18; 20]%Z) /\ (weights_positive r <-> ~ In order [3; 7; 18; 20]%Z).
Proof.
  intros order Ho. eexists. split; [apply triangle_type_ok; exact Ho|]. pose proof tri_checks as C. rewrite forallb_forall in C. specialize (C _ (orders_spec _ Ho)). cbv zeta in C.
  set (l := nth (Z.to_nat (order - 1)) triangle_data []) in *. clearbody l. apply andb_true_iff in C. destruct C as (C1 & C2). apply eqb_prop in C1, C2.
  rewrite <- !memb_spec. split.
  - destruct (memb [11; 15; 16; 18; 20]%Z order); cbn [negb] in C1; split; intros H; try congruence.
    + exfalso. apply forallb_not in C1. destruct C1 as (((x & y) & w) & Hin & F). specialize (H (weight2 w) [coord x; coord y]).
      destruct H as (_ & H); [apply in_map_iff; exists (x, y, w); auto|]. apply (tri_in_spec x y w) in H. congruence.
    + intros w v Hin. apply in_map_iff in Hin. destruct Hin as (((x & y) & w') & E & Hin). injection E as <- <-. rewrite forallb_forall in C1. specialize (C1 _ Hin).
      split; [reflexivity|apply (tri_in_spec x y w'); exact C1].
  - destruct (memb [3; 7; 18; 20]%Z order); cbn [negb] in C2; split; intros H; try congruence.
    + exfalso. apply forallb_not in C2. destruct C2 as (((x & y) & w) & Hin & F). specialize (H (weight2 w) [coord x; coord y] ltac:(apply in_map_iff; exists (x, y, w); auto)).
      apply scaled_sign in H. unfold tri_w in F. apply Z.ltb_ge in F. lia.
    + intros w v Hin. apply in_map_iff in Hin. destruct Hin as (((x & y) & w') & E & Hin). injection E as <- <-. rewrite forallb_forall in C2. specialize (C2 _ Hin).
      apply scaled_sign. unfold tri_w in C2. apply Z.ltb_lt in C2. exact C2.
Qed.
Print Assumptions C88_triangle_partial.

Theorem C88_tetrahedron_partial : forall order, (1 <= order <= 20)%Z ->
  exists r, gauss_tetrahedron order = Ok r /\
    (points_inside STetrahedron r <-> order <> 9%Z) /\ (weights_positive r <-> In order [1; 2; 5; 6]%Z).
Proof.
  intros order Ho. eexists. split; [apply tetrahedron_type_ok; exact Ho|]. pose proof tet_checks as C. rewrite forallb_forall in C. specialize (C _ (orders_spec _ Ho)). cbv zeta in C.
  set (l := nth (nth (Z.to_nat order) order_to_index 0%nat) tetrahedron_data []) in *. clearbody l. apply andb_true_iff in C. destruct C as (C1 & C2). apply eqb_prop in C1, C2.
  rewrite <- !memb_spec. split.
  - assert (E9 : memb [9]%Z order = true <-> order = 9%Z) by (rewrite memb_spec; cbn; intuition). transitivity (~ memb [9]%Z order = true); [|rewrite E9; reflexivity].
    destruct (memb [9]%Z order); cbn [negb] in C1; split; intros H; try congruence.
    + exfalso. apply forallb_not in C1. destruct C1 as ((((x & y) & z) & w) & Hin & F). specialize (H (weight3 w) [coord x; coord y; coord z]).
      destruct H as (_ & H); [apply in_map_iff; exists (x, y, z, w); auto|]. apply (tet_in_spec x y z w) in H. congruence.
    + intros w v Hin. apply in_map_iff in Hin. destruct Hin as ((((x & y) & z) & w') & E & Hin). injection E as <- <-. rewrite forallb_forall in C1. specialize (C1 _ Hin).
      split; [reflexivity|apply (tet_in_spec x y z w'); exact C1].
  - destruct (memb [1; 2; 5; 6]%Z order); split; intros H; try congruence.
    + intros w v Hin. apply in_map_iff in Hin. destruct Hin as ((((x & y) & z) & w') & E & Hin). injection E as <- <-. rewrite forallb_forall in C2. specialize (C2 _ Hin).
      apply scaled_sign. unfold tet_w in C2. apply Z.ltb_lt in C2. exact C2.
    + exfalso. apply forallb_not in C2. destruct C2 as ((((x & y) & z) & w) & Hin & F). specialize (H (weight3 w) [coord x; coord y; coord z] ltac:(apply in_map_iff; exists (x, y, z, w); auto)).
      apply scaled_sign in H. unfold tet_w in F. apply Z.ltb_ge in F. lia.
Qed.
Print Assumptions C88_tetrahedron_partial.

(** C88: both prism rules *)
Theorem C88_prism : forall order r, gauss_prism order = Ok r -> points_inside SPrism r /\ weights_positive r.
Proof.
  intros order r H. assert (G : -1 <= g6 <= 1) by (unfold g6; lra).
  assert (E : forall x y z, 0 <= x -> 0 <= y -> x + y <= 1 -> -1 <= z <= 1 -> in_element SPrism (fun k => nth k [x; y; z] 0)).
  { intros x y z X Y XY Z. apply C87_rejects_partial; [discriminate|]. intros e He. unfold IsWithinShape. cbn [nth]. rewrite !andb_true_iff, !rltb_true. lra. }
  unfold gauss_prism in H. assert (R12 : r = prism1 \/ r = prism2) by (destruct order as [|[|[]|]|]; try discriminate; inversion H; auto). clear H.
  destruct R12 as [-> | ->]; split; intros w x Hin; cbn in Hin; repeat (destruct Hin as [Hin|Hin]; [injection Hin as <- <-|]); try contradiction; try lra;
    (split; [reflexivity|apply E; lra]).
Qed.
Print Assumptions C88_prism.

(** ** finding: the rules of orders 11, 15, 16, 18 and 20 of the triangle and of order 9 of the tetrahedron evaluate the integrand outside of the element *)
Theorem C88_outside_refuted : forall order, In order [11; 15; 16; 18; 20]%Z ->
  exists r w x, gauss_triangle order = Ok r /\ In (w, x) r /\ ~ in_element STriangle (fun k => nth k x 0).
Proof.
  intros order Ho. assert (H : (1 <= order <= 20)%Z) by (cbn in Ho; lia).
  rewrite (triangle_type_ok order H). pose proof tri_checks as C. rewrite forallb_forall in C. specialize (C _ (orders_spec _ H)). cbv zeta in C.
  set (l := nth (Z.to_nat (order - 1)) triangle_data []) in *. clearbody l. apply andb_true_iff in C. destruct C as (C1 & _). apply eqb_prop in C1.
  rewrite (proj2 (memb_spec _ _) Ho) in C1. cbn [negb] in C1. apply forallb_not in C1. destruct C1 as (((x & y) & w) & Hin & F).
  eexists _, (weight2 w), [coord x; coord y]. split; [reflexivity|]. split; [apply in_map_iff; exists (x, y, w); auto|]. intros E. apply (tri_in_spec x y w) in E. congruence.
Qed.
Print Assumptions C88_outside_refuted.

(** finding: with the negative weights a nonnegative function gets a negative integral, e.g. the third order rules *)
Definition bump (l : list R) : R := Rmax 0 (1 / 10 - Rabs (nth 0 l 0 - 1 / 3)).
Theorem C88_negative_integral_refuted : (forall l, 0 <= bump l) /\ exists r, gauss_triangle 3 = Ok r /\
  fold_right Rplus 0 (map (fun wx => fst wx * bump (snd wx)) r) < 0.
Proof.
  split; [intros l; apply Rmax_l|]. eexists. split; [apply triangle_type_ok; lia|]. change (nth (Z.to_nat (3 - 1)) triangle_data []) with tri3.
  unfold tri3. cbn [map fold_right fst snd]. unfold bump. cbn [nth]. unfold coord, weight2.
  assert (B : forall t, 1 / 10 <= Rabs (t - 1 / 3) -> Rmax 0 (1 / 10 - Rabs (t - 1 / 3)) = 0) by (intros t Ht; apply Rmax_left; lra).
  rewrite (B (2000000000000000100 / 10 ^ 19)) by (rewrite Rabs_left; lra).
  rewrite (B (5999999999999999800 / 10 ^ 19)) by (rewrite Rabs_right; lra).
  rewrite Rmax_right by (rewrite Rabs_right; lra). rewrite Rabs_right by lra. lra.
Qed.
Print Assumptions C88_negative_integral_refuted.

(** a case: the two point rule *)
Example C88_example : exists r, integration_type (fun _ => [- sqrt (1 / 3); sqrt (1 / 3)]) (fun _ => []) 2 2 GAUSS = Ok r /\ points_inside SQuadrilateral r /\ weights_positive r.
Proof.
  assert (S : sqrt (1 / 3) * sqrt (1 / 3) = 1 / 3) by (apply sqrt_def; lra). assert (0 < sqrt (1 / 3)) by (apply sqrt_lt_R0; lra).
  apply (C88_gauss (fun _ => [- sqrt (1 / 3); sqrt (1 / 3)]) (fun _ => []) 2 2); auto; try lia.
  - constructor; [intros [E|[]]; lra|]. constructor; [intros []|constructor].
  - assert (P2 : forall t, P 2 t = (3 * (t * t) - 1) / 2) by (intros t; pose proof (bonnet 0 t) as Bo; rewrite P0, P1 in Bo; cbn [INR] in Bo; lra).
    intros x [<-|[<-|[]]]; rewrite P2; [replace (- sqrt (1 / 3) * - sqrt (1 / 3)) with (sqrt (1 / 3) * sqrt (1 / 3)) by ring|]; rewrite S; lra.
Qed.
