(** * C48 node selection and C49 unit meshes *)
From Coq Require Import List ZArith Arith Reals Lra Lia.
From Verif Require Import Outcome RSum GroupModel GroupProofs CellModel InterpolationModel MeshModel MeshSpec MeshProofs UnitMeshProofs.
Import ListNotations.
Local Open Scope R_scope.

(** ** C48 *)

(** NodeAtCoordinate(coords, tol) returns a coordinate node within [tol], and throws exactly if there is none *)
Theorem C48_node_at_coordinate values dim elements coords tol :
  mesh_ok values dim elements -> length coords = dim -> 0 <= tol ->
  (exists n, node_at_coordinate values elements coords tol = Ok n /\ coordinate_node elements n
     /\ distance dim (comp (values n)) (comp coords) <= tol)
  \/ (node_at_coordinate values elements coords tol = Throw
     /\ forall n, coordinate_node elements n -> tol < distance dim (comp (values n)) (comp coords)).
Proof. exact (node_at_coordinate_spec values dim elements coords tol). Qed.
Print Assumptions C48_node_at_coordinate.

(** the same for the nodes of a dof type, whose position is interpolated from the coordinate element *)
Theorem C48_dof_node_at_coordinate garbage values dim elements coords dof tol :
  mesh_ok values dim elements -> length coords = dim -> 0 <= tol ->
  (exists n p, dof_node_at_coordinate garbage values elements coords dof tol = Ok n
     /\ dof_node_at values elements dof n p /\ distance dim p (comp coords) <= tol)
  \/ (dof_node_at_coordinate garbage values elements coords dof tol = Throw
     /\ forall n p, dof_node_at values elements dof n p -> tol < distance dim p (comp coords)).
Proof. exact (dof_node_at_coordinate_spec garbage values dim elements coords dof tol). Qed.
Print Assumptions C48_dof_node_at_coordinate.

(** NodesAtAxis returns a group (no duplicates) of exactly the nodes closer than [tol] to the plane *)
Theorem C48_nodes_at_axis values dim elements d offset tol : mesh_ok values dim elements -> (d < dim)%nat ->
  exists g, nodes_at_axis values elements d offset tol = Ok g /\ group_ok g
    /\ forall n, In n (mData g) <-> coordinate_node elements n /\ Rabs (comp (values n) d - offset) < tol.
Proof. exact (nodes_at_axis_spec values dim elements d offset tol). Qed.
Print Assumptions C48_nodes_at_axis.

Theorem C48_dof_nodes_at_axis garbage values dim elements d dof offset tol : mesh_ok values dim elements -> (d < dim)%nat ->
  exists g, dof_nodes_at_axis garbage values elements d dof offset tol = Ok g /\ group_ok g
    /\ forall n, In n (mData g) <-> exists p, dof_node_at values elements dof n p /\ Rabs (p d - offset) < tol.
Proof. exact (dof_nodes_at_axis_spec garbage values dim elements d dof offset tol). Qed.
Print Assumptions C48_dof_nodes_at_axis.

(** NodesTotal() returns every coordinate node once *)
Theorem C48_nodes_total values dim elements : mesh_ok values dim elements ->
  exists g, nodes_total elements = Ok g /\ group_ok g /\ forall n, In n (mData g) <-> coordinate_node elements n.
Proof. exact (nodes_total_spec values dim elements). Qed.
Print Assumptions C48_nodes_total.

(** ** C49 *)

Theorem C49_lines nx : (0 < nx)%nat -> exists m, create_lines nx = Ok m
  /\ length (unodes m) = (nx + 1)%nat /\ length (uelements m) = nx
  /\ (forall i, (i <= nx)%nat -> nth_error (unodes m) i = Some [INR i / INR nx])
  /\ mesh_ok (unit_values m) 1 (uelements m) /\ nodes_distinct m
  /\ forall i, (i < nx)%nat -> exists c, nth_error (uelements m) i = Some c
       /\ forall garbage x, interpolate garbage (unit_values m) (ecoord c) x = Ok [(INR i + (1 + x 0%nat) / 2) / INR nx]
       /\ exists J, make_jacobian (node_values (unit_values m) 1 (ecoord c)) 2 1 (deriv_of truss_linear x) = Ok J
            /\ jDet J = / (2 * INR nx).
Proof.
  intros Hn. eexists. split; [apply create_lines_eq|]. cbn [unodes uelements].
  split; [apply length_nodes_1d|]. split; [rewrite map_length, seq_length; reflexivity|]. split; [apply nodes_1d|].
  split.
  { intros c Hc. apply in_map_iff in Hc. destruct Hc as (i & <- & Hi). apply in_seq in Hi.
    split; [apply line_ok; lia|]. intros d de E. discriminate. }
  split.
  { assert (W : forall a, coordinate_node (map line_cell (seq 0 nx)) a -> exists i, (i <= nx)%nat /\ a = Z.of_nat i).
    { intros a (c & Hc & Ha). apply in_map_iff in Hc. destruct Hc as (i & <- & Hi). apply in_seq in Hi.
      simpl in Ha. destruct Ha as [<- |[<- |[]]]; eexists; (split; [|reflexivity]); lia. }
    intros a b Ha Hb E. cbn [uelements] in *. destruct (W a Ha) as (i & Hi & ->), (W b Hb) as (j & Hj & ->).
    rewrite !value_1d in E by assumption. injection E as E. f_equal. apply (grid_inj nx); assumption. }
  intros i Hi. exists (line_cell i). split; [apply nth_error_map_seq; exact Hi|]. intros garbage x. split.
  - rewrite (interpolate_eq _ _ 1) by (apply line_ok; exact Hi). rewrite line_position by exact Hi. reflexivity.
  - apply line_jacobian. exact Hi.
Qed.
Print Assumptions C49_lines.

Lemma coordinate_node_2d nx ny l a :
  (forall c, In c l -> forall n, In n (enodes (ecoord c)) -> exists i j, (i <= nx)%nat /\ (j <= ny)%nat /\ n = Z.of_nat (corner2 nx i j)) ->
  coordinate_node l a -> exists i j, (i <= nx)%nat /\ (j <= ny)%nat /\ a = Z.of_nat (corner2 nx i j).
Proof. intros H (c & Hc & Ha). exact (H c Hc a Ha). Qed.
Ltac grid2 := let n := fresh in let H := fresh in intros n H; simpl in H;
  repeat (destruct H as [<- |H]); try contradiction;
  match goal with |- context [corner2 _ ?i ?j] => exists i, j; repeat split; lia end.
Lemma distinct_2d nx ny l : (0 < nx)%nat -> (0 < ny)%nat ->
  (forall c, In c l -> forall n, In n (enodes (ecoord c)) -> exists i j, (i <= nx)%nat /\ (j <= ny)%nat /\ n = Z.of_nat (corner2 nx i j)) ->
  nodes_distinct (mkUnitMesh (create_nodes_2d nx ny) l).
Proof.
  intros Hx Hy W a b Ha Hb E. cbn [uelements] in *.
  destruct (coordinate_node_2d nx ny l a W Ha) as (i & j & Hi & Hj & ->).
  destruct (coordinate_node_2d nx ny l b W Hb) as (i' & j' & Hi' & Hj' & ->).
  rewrite !value_2d in E by assumption. injection E as E1 E2.
  rewrite (grid_inj nx i i'), (grid_inj ny j j') by assumption. reflexivity.
Qed.

Theorem C49_quads nx ny : (0 < nx)%nat -> (0 < ny)%nat -> exists m, create_quads nx ny = Ok m
  /\ length (unodes m) = ((ny + 1) * (nx + 1))%nat /\ length (uelements m) = (ny * nx)%nat
  /\ (forall i j, (i <= nx)%nat -> (j <= ny)%nat ->
        nth_error (unodes m) (i + j * (nx + 1)) = Some [INR i / INR nx; INR j / INR ny])
  /\ mesh_ok (unit_values m) 2 (uelements m) /\ nodes_distinct m
  /\ forall i j, (i < nx)%nat -> (j < ny)%nat -> exists c, nth_error (uelements m) (j * nx + i) = Some c
       /\ forall garbage x, interpolate garbage (unit_values m) (ecoord c) x
            = Ok [(INR i + (1 + x 0%nat) / 2) / INR nx; (INR j + (1 + x 1%nat) / 2) / INR ny]
       /\ exists J, make_jacobian (node_values (unit_values m) 2 (ecoord c)) 4 2 (deriv_of quad_linear x) = Ok J
            /\ jDet J = / (4 * INR nx * INR ny).
Proof.
  intros Hx Hy. eexists. split; [apply create_quads_eq|]. cbn [unodes uelements].
  split; [apply length_nodes_2d|]. split; [apply length_blocks; intros; rewrite map_length, seq_length; reflexivity|].
  split; [apply nodes_2d|]. split.
  { intros c Hc. apply in_nth_blocks in Hc. destruct Hc as (i & j & Hi & Hj & ->).
    split; [apply quad_ok; assumption|]. intros d de E. discriminate. }
  split.
  { apply distinct_2d; [exact Hx|exact Hy|]. intros c Hc. apply in_nth_blocks in Hc.
    destruct Hc as (i & j & Hi & Hj & ->). grid2. }
  intros i j Hi Hj. exists (quad_cell nx i j). split.
  { rewrite nth_error_blocks by (auto; intros; rewrite map_length, seq_length; reflexivity). simpl.
    apply (nth_error_map_seq (fun i => quad_cell nx i j)). exact Hi. }
  intros garbage x. split.
  - rewrite (interpolate_eq _ _ 2) by (apply quad_ok; assumption). rewrite quad_position by assumption. reflexivity.
  - apply quad_jacobian; assumption.
Qed.
Print Assumptions C49_quads.

(** element 2(i + nx j) is the triangle below, element 2(i + nx j) + 1 the one above the diagonal of grid cell (i, j) *)
Theorem C49_triangles nx ny : (0 < nx)%nat -> (0 < ny)%nat -> exists m, create_triangles nx ny = Ok m
  /\ length (unodes m) = ((ny + 1) * (nx + 1))%nat /\ length (uelements m) = (ny * (nx * 2))%nat
  /\ (forall i j, (i <= nx)%nat -> (j <= ny)%nat ->
        nth_error (unodes m) (i + j * (nx + 1)) = Some [INR i / INR nx; INR j / INR ny])
  /\ mesh_ok (unit_values m) 2 (uelements m) /\ nodes_distinct m
  /\ forall i j, (i < nx)%nat -> (j < ny)%nat -> exists c c',
       nth_error (uelements m) (j * (nx * 2) + (i * 2 + 0)) = Some c /\ nth_error (uelements m) (j * (nx * 2) + (i * 2 + 1)) = Some c'
       /\ forall garbage x,
            interpolate garbage (unit_values m) (ecoord c) x
            = Ok [(INR i + (x 0%nat + x 1%nat)) / INR nx; (INR j + x 1%nat) / INR ny]
         /\ interpolate garbage (unit_values m) (ecoord c') x
            = Ok [(INR i + x 0%nat) / INR nx; (INR j + (x 0%nat + x 1%nat)) / INR ny]
       /\ exists J J', make_jacobian (node_values (unit_values m) 2 (ecoord c)) 3 2 (deriv_of triangle_linear x) = Ok J
            /\ jDet J = / (INR nx * INR ny)
            /\ make_jacobian (node_values (unit_values m) 2 (ecoord c')) 3 2 (deriv_of triangle_linear x) = Ok J'
            /\ jDet J' = / (INR nx * INR ny).
Proof.
  intros Hx Hy. eexists. split; [apply create_triangles_eq|]. cbn [unodes uelements].
  assert (L : forall j, length (flat_map (fun i => [lower_cell nx i j; upper_cell nx i j]) (seq 0 nx)) = (nx * 2)%nat)
    by (intros; apply length_blocks; reflexivity).
  assert (C : forall c, In c (flat_map (fun j => flat_map (fun i => [lower_cell nx i j; upper_cell nx i j]) (seq 0 nx)) (seq 0 ny)) ->
    exists i j, (i < nx)%nat /\ (j < ny)%nat /\ (c = lower_cell nx i j \/ c = upper_cell nx i j)).
  { intros c Hc. apply in_flat_map in Hc. destruct Hc as (j & Hj & Hc). apply in_flat_map in Hc. destruct Hc as (i & Hi & Hc).
    apply in_seq in Hj. apply in_seq in Hi. exists i, j. split; [lia|]. split; [lia|]. destruct Hc as [<- |[<- |[]]]; auto. }
  split; [apply length_nodes_2d|]. split; [apply length_blocks; exact L|].
  split; [apply nodes_2d|]. split.
  { intros c Hc. destruct (C c Hc) as (i & j & Hi & Hj & [-> | ->]).
    - split; [apply lower_ok; assumption|]. intros d de E. discriminate.
    - split; [apply upper_ok; assumption|]. intros d de E. discriminate. }
  split.
  { apply distinct_2d; [exact Hx|exact Hy|]. intros c Hc.
    destruct (C c Hc) as (i & j & Hi & Hj & [-> | ->]); grid2. }
  intros i j Hi Hj. exists (lower_cell nx i j), (upper_cell nx i j). split; [|split].
  { rewrite nth_error_blocks by (auto; lia). simpl.
    rewrite nth_error_blocks by (auto; lia). reflexivity. }
  { rewrite nth_error_blocks by (auto; lia). simpl.
    rewrite nth_error_blocks by (auto; lia). reflexivity. }
  intros garbage x. split; [|split].
  - rewrite (interpolate_eq _ _ 2) by (apply lower_ok; assumption). rewrite lower_position by assumption. reflexivity.
  - rewrite (interpolate_eq _ _ 2) by (apply upper_ok; assumption). rewrite upper_position by assumption. reflexivity.
  - destruct (lower_jacobian nx ny (flat_map (fun j => flat_map (fun i => [lower_cell nx i j; upper_cell nx i j]) (seq 0 nx)) (seq 0 ny)) i j x Hi Hj) as (J & E & D).
    destruct (upper_jacobian nx ny (flat_map (fun j => flat_map (fun i => [lower_cell nx i j; upper_cell nx i j]) (seq 0 nx)) (seq 0 ny)) i j x Hi Hj) as (J' & E' & D').
    exists J, J'. auto.
Qed.
Print Assumptions C49_triangles.

Theorem C49_bricks nx ny nz : (0 < nx)%nat -> (0 < ny)%nat -> (0 < nz)%nat -> exists m, create_bricks nx ny nz = Ok m
  /\ length (unodes m) = ((nz + 1) * ((ny + 1) * (nx + 1)))%nat /\ length (uelements m) = (nz * (ny * nx))%nat
  /\ (forall i j k, (i <= nx)%nat -> (j <= ny)%nat -> (k <= nz)%nat ->
        nth_error (unodes m) (i + j * (nx + 1) + k * (nx + 1) * (ny + 1)) = Some [INR i / INR nx; INR j / INR ny; INR k / INR nz])
  /\ mesh_ok (unit_values m) 3 (uelements m) /\ nodes_distinct m
  /\ forall i j k, (i < nx)%nat -> (j < ny)%nat -> (k < nz)%nat ->
       exists c, nth_error (uelements m) (k * (ny * nx) + (j * nx + i)) = Some c
       /\ forall garbage x, interpolate garbage (unit_values m) (ecoord c) x
            = Ok [(INR i + (1 + x 0%nat) / 2) / INR nx; (INR j + (1 + x 1%nat) / 2) / INR ny; (INR k + (1 + x 2%nat) / 2) / INR nz]
       /\ exists J, make_jacobian (node_values (unit_values m) 3 (ecoord c)) 8 3 (deriv_of brick_linear x) = Ok J
            /\ jDet J = / (8 * INR nx * INR ny * INR nz).
Proof.
  intros Hx Hy Hz. eexists. split; [apply create_bricks_eq|]. cbn [unodes uelements].
  assert (L : forall k, length (flat_map (fun j => map (fun i => brick_cell nx ny i j k) (seq 0 nx)) (seq 0 ny)) = (ny * nx)%nat)
    by (intros; apply length_blocks; intros; rewrite map_length, seq_length; reflexivity).
  assert (C : forall c, In c (flat_map (fun k => flat_map (fun j => map (fun i => brick_cell nx ny i j k) (seq 0 nx)) (seq 0 ny)) (seq 0 nz)) ->
    exists i j k, (i < nx)%nat /\ (j < ny)%nat /\ (k < nz)%nat /\ c = brick_cell nx ny i j k).
  { intros c Hc. apply in_flat_map in Hc. destruct Hc as (k & Hk & Hc). apply in_nth_blocks in Hc.
    destruct Hc as (i & j & Hi & Hj & ->). apply in_seq in Hk. exists i, j, k. repeat split; auto; lia. }
  split; [apply length_nodes_3d|]. split; [apply length_blocks; exact L|].
  split; [apply nodes_3d|]. split.
  { intros c Hc. destruct (C c Hc) as (i & j & k & Hi & Hj & Hk & ->).
    split; [apply brick_ok; assumption|]. intros d de E. discriminate. }
  split.
  { assert (W : forall a, coordinate_node (flat_map (fun k => flat_map (fun j => map (fun i => brick_cell nx ny i j k) (seq 0 nx)) (seq 0 ny)) (seq 0 nz)) a ->
      exists i j k, (i <= nx)%nat /\ (j <= ny)%nat /\ (k <= nz)%nat /\ a = Z.of_nat (corner3 nx ny i j k)).
    { intros a (c & Hc & Ha). destruct (C c Hc) as (i & j & k & Hi & Hj & Hk & ->). simpl in Ha.
      repeat (destruct Ha as [<- |Ha]); try contradiction;
        match goal with |- context [corner3 _ _ ?i ?j ?k] => exists i, j, k; repeat split; lia end. }
    intros a b Ha Hb E. cbn [uelements] in *.
    destruct (W a Ha) as (i & j & k & Hi & Hj & Hk & ->), (W b Hb) as (i' & j' & k' & Hi' & Hj' & Hk' & ->).
    rewrite !value_3d in E by assumption. injection E as E1 E2 E3.
    rewrite (grid_inj nx i i'), (grid_inj ny j j'), (grid_inj nz k k') by assumption. reflexivity. }
  intros i j k Hi Hj Hk. exists (brick_cell nx ny i j k). split.
  { rewrite nth_error_blocks by (auto; nia). simpl.
    rewrite nth_error_blocks by (auto; intros; rewrite map_length, seq_length; reflexivity). simpl.
    apply (nth_error_map_seq (fun i => brick_cell nx ny i j k)). exact Hi. }
  intros garbage x. split.
  - rewrite (interpolate_eq _ _ 3) by (apply brick_ok; assumption). rewrite brick_position by assumption. reflexivity.
  - apply brick_jacobian; assumption.
Qed.
Print Assumptions C49_bricks.

(** with these maps the cells tile the unit interval, square and cube: in each direction a coordinate of [0,1] lies in a
    cell at a local coordinate of the reference element, and interior local coordinates of different cells never meet *)
Theorem C49_tiling n : (0 < n)%nat ->
  (forall x, 0 <= x <= 1 -> exists i s, (i < n)%nat /\ -1 <= s <= 1 /\ x = (INR i + (1 + s) / 2) / INR n)
  /\ (forall i s, (i < n)%nat -> -1 <= s <= 1 -> 0 <= (INR i + (1 + s) / 2) / INR n <= 1)
  /\ (forall i j s t, -1 < s < 1 -> -1 < t < 1 -> (INR i + (1 + s) / 2) / INR n = (INR j + (1 + t) / 2) / INR n -> i = j).
Proof.
  intros Hn. pose proof (INR_pos n Hn) as Hp. split; [|split].
  - intros x Hx. destruct (grid_cover n x Hn Hx) as (i & s & Hi & Hs & ->). exists i, (2 * s - 1). split; [exact Hi|].
    split; [lra|]. field. lra.
  - intros i s Hi Hs. apply le_INR in Hi. rewrite S_INR in Hi. pose proof (pos_INR i). split.
    + apply Rmult_le_pos; [lra|]. left. apply Rinv_0_lt_compat. exact Hp.
    + apply (Rmult_le_reg_r (INR n)); [exact Hp|]. unfold Rdiv. rewrite Rmult_assoc, Rinv_l by lra. lra.
  - intros i j s t Hs Ht E. apply (grid_disjoint n i j ((1 + s) / 2) ((1 + t) / 2)); [exact Hn|lra|lra|exact E].
Qed.
Print Assumptions C49_tiling.

(** Transform applies the function exactly once to each coordinate node, and to nothing else *)
Theorem C49_transform values dim elements f : mesh_ok values dim elements ->
  exists vs, transform values elements f = Ok vs
    /\ forall n, (coordinate_node elements n -> vs n = f (values n)) /\ (~ coordinate_node elements n -> vs n = values n).
Proof. exact (transform_spec values dim elements f). Qed.
Print Assumptions C49_transform.

(** examples: the theorems apply to a 2 x 3 quad mesh; the node at (1/2, 1/3) has index 4 *)
Example C48_C49_example : exists m, create_quads 2 3 = Ok m /\ mesh_ok (unit_values m) 2 (uelements m)
  /\ length (unodes m) = 12%nat /\ length (uelements m) = 6%nat
  /\ node_at_coordinate (unit_values m) (uelements m) [1 / 2; 1 / 3] (1 / 100) = Ok 4%Z.
Proof.
  destruct (C49_quads 2 3) as (m & E & Hn & He & Hnode & Hok & Hd & Hc); [lia|lia|].
  exists m. split; [exact E|]. split; [exact Hok|]. split; [exact Hn|]. split; [exact He|].
  destruct (C48_node_at_coordinate (unit_values m) 2 (uelements m) [1 / 2; 1 / 3] (1 / 100) Hok eq_refl ltac:(lra))
    as [(n & Hr & Hcn & Hdist)|(Hr & Hno)].
  - rewrite Hr. f_equal. apply Hd; [exact Hcn| |].
    { rewrite create_quads_eq in E. injection E as <-. exists (quad_cell 2 0 0). cbn. auto 10. }
    rewrite create_quads_eq in E. injection E as <-. cbn [uelements] in Hcn.
    pose proof (fun W => coordinate_node_2d 2 3 (flat_map (fun j => map (fun i => quad_cell 2 i j) (seq 0 2)) (seq 0 3)) n W Hcn) as W.
    destruct W as (i & j & Hi & Hj & ->).
    { intros c Hin. apply in_nth_blocks in Hin. destruct Hin as (i & j & Hi & Hj & ->). grid2. }
    rewrite value_2d in * by lia. change 4%Z with (Z.of_nat (corner2 2 1 1)). rewrite value_2d by lia.
    assert (B : forall a b, 0 <= b -> sqrt (a ^ 2 + b) <= 1 / 100 -> - (1 / 100) <= a <= 1 / 100).
    { intros a b Hb H. assert (a ^ 2 + b <= (1 / 100) ^ 2).
      { rewrite <- (sqrt_sqrt (a ^ 2 + b)) by nra. pose proof (sqrt_pos (a ^ 2 + b)). nra. }
      split; nra. }
    unfold distance, comp in Hdist. cbn [rsum nth] in Hdist.
    pose proof (pow2_ge_0 (INR i / INR 2 - 1 / 2)). pose proof (pow2_ge_0 (INR j / INR 3 - 1 / 3)).
    assert (H1 : - (1 / 100) <= INR i / INR 2 - 1 / 2 <= 1 / 100).
    { apply (B _ ((INR j / INR 3 - 1 / 3) ^ 2)); [assumption|]. replace (_ + _) with (0 + (INR i / INR 2 - 1 / 2) ^ 2 + (INR j / INR 3 - 1 / 3) ^ 2) by ring. exact Hdist. }
    assert (H2 : - (1 / 100) <= INR j / INR 3 - 1 / 3 <= 1 / 100).
    { apply (B _ ((INR i / INR 2 - 1 / 2) ^ 2)); [assumption|]. replace (_ + _) with (0 + (INR i / INR 2 - 1 / 2) ^ 2 + (INR j / INR 3 - 1 / 3) ^ 2) by ring. exact Hdist. }
    destruct i as [|[|[|i]]]; [simpl in H1; lra| |simpl in H1; lra|lia].
    destruct j as [|[|[|[|j]]]]; [simpl in H2; lra| |simpl in H2; lra|simpl in H2; lra|lia]. reflexivity.
  - exfalso. rewrite create_quads_eq in E. injection E as <-.
    specialize (Hno (Z.of_nat (corner2 2 1 1))). rewrite value_2d in Hno by lia.
    assert (Hcn : coordinate_node (uelements (mkUnitMesh (create_nodes_2d 2 3)
       (flat_map (fun j => map (fun i => quad_cell 2 i j) (seq 0 2)) (seq 0 3)))) (Z.of_nat (corner2 2 1 1))).
    { exists (quad_cell 2 0 0). cbn. auto 10. }
    specialize (Hno Hcn). unfold distance, comp in Hno. cbn [rsum nth] in Hno. simpl INR in Hno.
    replace (_ + _ + _) with 0 in Hno by field. rewrite sqrt_0 in Hno. lra.
Qed.
