(** * Proofs for C49: the meshes of UnitMeshFem *)
From Coq Require Import List ZArith Arith Reals Lra Lia.
From Verif Require Import Outcome RSum CellModel CellProofs InterpolationModel MeshModel MeshSpec MeshProofs.
Import ListNotations.
Local Open Scope R_scope.

Lemma nth_error_blocks {A} (g : nat -> list A) d n : forall s k i, (forall j, length (g j) = d) -> (k < n)%nat -> (i < d)%nat ->
  nth_error (flat_map g (seq s n)) (k * d + i) = nth_error (g (s + k)%nat) i.
Proof.
  induction n as [|n IH]; intros s k i Hg Hk Hi; [lia|]. simpl. destruct k as [|k].
  - rewrite nth_error_app1 by (rewrite Hg; simpl; exact Hi). rewrite Nat.add_0_r. reflexivity.
  - rewrite nth_error_app2 by (rewrite Hg; nia). rewrite Hg.
    replace (S k * d + i - d)%nat with (k * d + i)%nat by nia. rewrite IH by (auto; lia). f_equal. f_equal. lia.
Qed.
Lemma length_blocks {A} (g : nat -> list A) d n : forall s, (forall j, length (g j) = d) ->
  length (flat_map g (seq s n)) = (n * d)%nat.
Proof. induction n as [|n IH]; intros s H; simpl; [reflexivity|]. rewrite app_length, H, IH by exact H. reflexivity. Qed.
Lemma nth_error_map_seq {A} (f : nat -> A) n i : (i < n)%nat -> nth_error (map f (seq 0 n)) i = Some (f i).
Proof.
  intros H. rewrite nth_error_map. rewrite (nth_error_nth' (seq 0 n) 0%nat) by (rewrite seq_length; exact H).
  rewrite seq_nth by exact H. reflexivity.
Qed.

Lemma for_each_append {A B} (h : A -> list B) (f : list B -> A -> outcome (list B)) l : forall s,
  (forall a s, In a l -> f s a = Ok (s ++ h a)) -> for_each l f s = Ok (s ++ flat_map h l).
Proof.
  induction l as [|a l IH]; intros s H; simpl; [rewrite app_nil_r; reflexivity|].
  rewrite H by (left; reflexivity). cbn [obind]. rewrite IH by (intros; apply H; right; assumption).
  rewrite <- app_assoc. reflexivity.
Qed.

Lemma flat_map_single {A B} (f : A -> B) l : flat_map (fun i => [f i]) l = map f l.
Proof. induction l as [|a l IH]; simpl; [reflexivity|]. rewrite IH. reflexivity. Qed.

(** ** nodes *)
Lemma nodes_1d nx i : (i <= nx)%nat -> nth_error (create_nodes_1d nx) i = Some [INR i / INR nx].
Proof. intros H. apply (nth_error_map_seq (fun iX => [INR iX / INR nx])). lia. Qed.
Lemma length_nodes_1d nx : length (create_nodes_1d nx) = (nx + 1)%nat.
Proof. unfold create_nodes_1d. rewrite map_length, seq_length. reflexivity. Qed.
Lemma nodes_2d nx ny i j : (i <= nx)%nat -> (j <= ny)%nat ->
  nth_error (create_nodes_2d nx ny) (i + j * (nx + 1)) = Some [INR i / INR nx; INR j / INR ny].
Proof.
  intros Hi Hj. unfold create_nodes_2d. rewrite (Nat.add_comm i (j * (nx + 1))%nat).
  rewrite (nth_error_blocks _ (nx + 1)); [|intros; rewrite map_length, seq_length; reflexivity|lia|lia].
  simpl. rewrite (nth_error_map_seq (fun iX => [INR iX / INR nx; INR j / INR ny])) by lia. reflexivity.
Qed.
Lemma length_nodes_2d nx ny : length (create_nodes_2d nx ny) = ((ny + 1) * (nx + 1))%nat.
Proof. apply length_blocks. intros. rewrite map_length, seq_length. reflexivity. Qed.
Lemma nodes_3d nx ny nz i j k : (i <= nx)%nat -> (j <= ny)%nat -> (k <= nz)%nat ->
  nth_error (create_nodes_3d nx ny nz) (i + j * (nx + 1) + k * (nx + 1) * (ny + 1))
  = Some [INR i / INR nx; INR j / INR ny; INR k / INR nz].
Proof.
  intros Hi Hj Hk. unfold create_nodes_3d.
  replace (i + j * (nx + 1) + k * (nx + 1) * (ny + 1))%nat with (k * ((ny + 1) * (nx + 1)) + (j * (nx + 1) + i))%nat by lia.
  rewrite (nth_error_blocks _ ((ny + 1) * (nx + 1))); [|intros; apply length_blocks; intros; rewrite map_length, seq_length; reflexivity|lia|nia].
  simpl. rewrite (nth_error_blocks _ (nx + 1)); [|intros; rewrite map_length, seq_length; reflexivity|lia|lia].
  simpl. rewrite (nth_error_map_seq (fun iX => [INR iX / INR nx; INR j / INR ny; INR k / INR nz])) by lia. reflexivity.
Qed.
Lemma length_nodes_3d nx ny nz : length (create_nodes_3d nx ny nz) = ((nz + 1) * ((ny + 1) * (nx + 1)))%nat.
Proof. apply length_blocks. intros. apply length_blocks. intros. rewrite map_length, seq_length. reflexivity. Qed.

Definition cell_of (ip : interp) (l : list nat) : collection := mkCollection (mkElement (map Z.of_nat l) ip) (fun _ => None).

Lemma add_element_ok nodes ip es l : (forall i, In i l -> (i < length nodes)%nat) ->
  add_element nodes ip es l = Ok (es ++ [cell_of ip l]).
Proof.
  intros H. unfold add_element. replace (forallb _ l) with true; [reflexivity|]. symmetry. apply forallb_forall.
  intros i Hi. apply Nat.ltb_lt, H, Hi.
Qed.

Ltac in_range := let i := fresh "i" in let H := fresh "H" in
  intros i H; simpl in H; rewrite ?length_nodes_1d, ?length_nodes_2d, ?length_nodes_3d;
  repeat (destruct H as [<- |H]); try contradiction.

(** ** the element lists *)
Definition line_cell (i : nat) := cell_of (of_table truss_linear 0) [i; i + 1]%nat.
Definition corner2 nx i j := (i + j * (nx + 1))%nat.
Definition quad_cell nx i j :=
  cell_of (of_table quad_linear 2) [corner2 nx i j; corner2 nx (i + 1) j; corner2 nx (i + 1) (j + 1); corner2 nx i (j + 1)].
Definition lower_cell nx i j :=
  cell_of (of_table triangle_linear 1) [corner2 nx i j; corner2 nx (i + 1) j; corner2 nx (i + 1) (j + 1)].
Definition upper_cell nx i j :=
  cell_of (of_table triangle_linear 1) [corner2 nx i j; corner2 nx (i + 1) (j + 1); corner2 nx i (j + 1)].
Definition corner3 nx ny i j k := (i + j * (nx + 1) + k * (nx + 1) * (ny + 1))%nat.
Definition brick_cell nx ny i j k :=
  cell_of (of_table brick_linear 3) [corner3 nx ny i j k; corner3 nx ny (i + 1) j k;
    corner3 nx ny (i + 1) (j + 1) k; corner3 nx ny i (j + 1) k; corner3 nx ny i j (k + 1);
    corner3 nx ny (i + 1) j (k + 1); corner3 nx ny (i + 1) (j + 1) (k + 1); corner3 nx ny i (j + 1) (k + 1)].

Lemma create_lines_eq nx : create_lines nx = Ok (mkUnitMesh (create_nodes_1d nx) (map line_cell (seq 0 nx))).
Proof.
  unfold create_lines. rewrite (for_each_append (fun i => [line_cell i])).
  - rewrite flat_map_single. reflexivity.
  - intros i s Hi. apply in_seq in Hi. apply add_element_ok. in_range; lia.
Qed.
Lemma create_quads_eq nx ny : create_quads nx ny
  = Ok (mkUnitMesh (create_nodes_2d nx ny) (flat_map (fun j => map (fun i => quad_cell nx i j) (seq 0 nx)) (seq 0 ny))).
Proof.
  unfold create_quads. rewrite (for_each_append (fun j => map (fun i => quad_cell nx i j) (seq 0 nx))); [reflexivity|].
  intros j s Hj. apply in_seq in Hj. rewrite (for_each_append (fun i => [quad_cell nx i j])).
  - rewrite flat_map_single. reflexivity.
  - intros i s' Hi. apply in_seq in Hi. cbv zeta. apply add_element_ok. in_range; nia.
Qed.
Lemma create_triangles_eq nx ny : create_triangles nx ny
  = Ok (mkUnitMesh (create_nodes_2d nx ny)
      (flat_map (fun j => flat_map (fun i => [lower_cell nx i j; upper_cell nx i j]) (seq 0 nx)) (seq 0 ny))).
Proof.
  unfold create_triangles.
  rewrite (for_each_append (fun j => flat_map (fun i => [lower_cell nx i j; upper_cell nx i j]) (seq 0 nx))); [reflexivity|].
  intros j s Hj. apply in_seq in Hj. rewrite (for_each_append (fun i => [lower_cell nx i j; upper_cell nx i j])); [reflexivity|].
  intros i s' Hi. apply in_seq in Hi. cbv zeta. rewrite add_element_ok by (in_range; nia). cbn [obind].
  rewrite add_element_ok by (in_range; nia). rewrite <- app_assoc. reflexivity.
Qed.
Lemma create_bricks_eq nx ny nz : create_bricks nx ny nz
  = Ok (mkUnitMesh (create_nodes_3d nx ny nz)
      (flat_map (fun k => flat_map (fun j => map (fun i => brick_cell nx ny i j k) (seq 0 nx)) (seq 0 ny)) (seq 0 nz))).
Proof.
  unfold create_bricks.
  rewrite (for_each_append (fun k => flat_map (fun j => map (fun i => brick_cell nx ny i j k) (seq 0 nx)) (seq 0 ny))); [reflexivity|].
  intros k s0 Hk. apply in_seq in Hk.
  rewrite (for_each_append (fun j => map (fun i => brick_cell nx ny i j k) (seq 0 nx))); [reflexivity|].
  intros j s Hj. apply in_seq in Hj. rewrite (for_each_append (fun i => [brick_cell nx ny i j k])).
  - rewrite flat_map_single. reflexivity.
  - intros i s' Hi. apply in_seq in Hi. cbv zeta. apply add_element_ok.
    assert (B : forall a b c, (a <= nx)%nat -> (b <= ny)%nat -> (c <= nz)%nat ->
       (a + b * (nx + 1) + c * (nx + 1) * (ny + 1) < (nz + 1) * ((ny + 1) * (nx + 1)))%nat).
    { intros a b c Ha Hb Hc. assert (a + b * (nx + 1) < (ny + 1) * (nx + 1))%nat by nia.
      assert (c * ((ny + 1) * (nx + 1)) <= nz * ((ny + 1) * (nx + 1)))%nat by (apply Nat.mul_le_mono_r; exact Hc). lia. }
    in_range; apply B; lia.
Qed.

(** ** values of the nodes *)
Lemma value_1d nx es i : (i <= nx)%nat ->
  unit_values (mkUnitMesh (create_nodes_1d nx) es) (Z.of_nat i) = [INR i / INR nx].
Proof. intros H. unfold unit_values. rewrite Nat2Z.id. simpl. apply nth_error_nth, nodes_1d, H. Qed.
Lemma value_2d nx ny es i j : (i <= nx)%nat -> (j <= ny)%nat ->
  unit_values (mkUnitMesh (create_nodes_2d nx ny) es) (Z.of_nat (corner2 nx i j)) = [INR i / INR nx; INR j / INR ny].
Proof. intros H1 H2. unfold unit_values, corner2. rewrite Nat2Z.id. simpl. apply nth_error_nth, nodes_2d; assumption. Qed.
Lemma value_3d nx ny nz es i j k : (i <= nx)%nat -> (j <= ny)%nat -> (k <= nz)%nat ->
  unit_values (mkUnitMesh (create_nodes_3d nx ny nz) es) (Z.of_nat (corner3 nx ny i j k))
  = [INR i / INR nx; INR j / INR ny; INR k / INR nz].
Proof. intros H1 H2 H3. unfold unit_values, corner3. rewrite Nat2Z.id. simpl. apply nth_error_nth, nodes_3d; assumption. Qed.

Lemma INR_pos n : (0 < n)%nat -> 0 < INR n.
Proof. intros H. apply lt_0_INR. exact H. Qed.
Lemma INR_p1 n : INR (n + 1) = INR n + 1.
Proof. rewrite plus_INR. reflexivity. Qed.

(** different grid points have different coordinates *)
Lemma grid_inj n i j : (0 < n)%nat -> INR i / INR n = INR j / INR n -> i = j.
Proof.
  intros Hn H. pose proof (INR_pos n Hn). apply INR_eq. apply (Rmult_eq_reg_r (/ INR n)); [exact H|].
  apply Rinv_neq_0_compat. lra.
Qed.

(** every point of [0,1] lies in a cell *)
Lemma grid_cover n x : (0 < n)%nat -> 0 <= x <= 1 -> exists i s, (i < n)%nat /\ 0 <= s <= 1 /\ x = (INR i + s) / INR n.
Proof.
  intros Hn (H0 & H1). pose proof (INR_pos n Hn) as Hp.
  assert (G : forall m, (0 < m)%nat -> x * INR n <= INR m -> exists i, (i < m)%nat /\ INR i <= x * INR n <= INR i + 1).
  { induction m as [|m IH]; [lia|]. intros _ Hm. rewrite S_INR in Hm. destruct (Rle_dec (INR m) (x * INR n)) as [Hl|Hl].
    - exists m. split; [lia|lra].
    - destruct m as [|m]; [simpl in Hl; exfalso; apply Hl; apply Rmult_le_pos; lra|].
      destruct IH as (i & Hi & Hb); [lia|lra|]. exists i. split; [lia|exact Hb]. }
  destruct (G n Hn) as (i & Hi & Hb); [nra|]. exists i, (x * INR n - INR i). split; [exact Hi|]. split; [lra|].
  field. lra.
Qed.
(** interior points of different cells differ *)
Lemma grid_disjoint n i j s t : (0 < n)%nat -> 0 < s < 1 -> 0 < t < 1 -> (INR i + s) / INR n = (INR j + t) / INR n -> i = j.
Proof.
  intros Hn Hs Ht H. pose proof (INR_pos n Hn). assert (E : INR i + s = INR j + t).
  { apply (Rmult_eq_reg_r (/ INR n)); [exact H|]. apply Rinv_neq_0_compat. lra. }
  destruct (Nat.lt_trichotomy i j) as [L|[L|L]]; [|exact L|].
  - apply le_INR in L. rewrite S_INR in L. lra.
  - apply le_INR in L. rewrite S_INR in L. lra.
Qed.

Lemma in_nth_blocks {A} (f : nat -> nat -> A) nx ny c :
  In c (flat_map (fun j => map (fun i => f i j) (seq 0 nx)) (seq 0 ny)) <-> exists i j, (i < nx)%nat /\ (j < ny)%nat /\ c = f i j.
Proof.
  rewrite in_flat_map. split.
  - intros (j & Hj & H). apply in_map_iff in H. destruct H as (i & <- & Hi). apply in_seq in Hj. apply in_seq in Hi.
    exists i, j. repeat split; lia.
  - intros (i & j & Hi & Hj & ->). exists j. split; [apply in_seq; lia|]. apply in_map_iff. exists i. split; [reflexivity|].
    apply in_seq. lia.
Qed.

(** ** geometry of the cells *)
Ltac open_cell := unfold interpolate, get_node; cbn [ecoord enodes einterp cell_of quad_cell lower_cell upper_cell line_cell brick_cell map nth_error obind].

Section Position.
  Variables (values : Z -> list R) (ip : interp) (l : list nat) (dim : nat).
  Lemma cell_ok : l <> [] -> length l = inum ip -> (forall i, In i l -> length (values (Z.of_nat i)) = dim) ->
    element_ok values dim (ecoord (cell_of ip l)).
  Proof.
    intros H1 H2 H3. unfold element_ok, cell_of; cbn [ecoord enodes einterp]. split; [destruct l; discriminate || congruence|].
    split; [rewrite map_length; exact H2|]. intros n Hn. apply in_map_iff in Hn. destruct Hn as (i & <- & Hi). auto.
  Qed.
End Position.

Lemma list_ext_eq (dim : nat) (p : list R) (f : nat -> R) : length p = dim -> (forall i, (i < dim)%nat -> nth i p 0 = f i) ->
  p = map f (seq 0 dim).
Proof.
  intros Hl H. apply (nth_ext _ _ 0 0); [rewrite map_length, seq_length; exact Hl|]. intros i Hi. rewrite H by lia.
  rewrite (nth_indep _ 0 (f 0%nat)) by (rewrite map_length, seq_length; lia). rewrite map_nth, seq_nth by lia. reflexivity.
Qed.
Lemma interpolate_eq garbage values dim e x : element_ok values dim e ->
  interpolate garbage values e x = Ok (map (position values e x) (seq 0 dim)).
Proof.
  intros H. destruct (interpolate_spec garbage values dim e x H) as (p & -> & Hl & Hp). f_equal. apply list_ext_eq; assumption.
Qed.

Ltac geometry := unfold position; cbn [rsum length map ecoord enodes einterp cell_of nth ishape of_table].

Lemma line_ok nx es i : (i < nx)%nat ->
  element_ok (unit_values (mkUnitMesh (create_nodes_1d nx) es)) 1 (ecoord (line_cell i)).
Proof.
  intros Hi. apply cell_ok; [discriminate|reflexivity|]. intros n Hn. simpl in Hn.
  destruct Hn as [<- |[<- |[]]]; rewrite value_1d by lia; reflexivity.
Qed.
Lemma line_position nx es i x : (i < nx)%nat ->
  map (position (unit_values (mkUnitMesh (create_nodes_1d nx) es)) (ecoord (line_cell i)) x) (seq 0 1)
  = [(INR i + (1 + x 0%nat) / 2) / INR nx].
Proof.
  intros Hi. pose proof (INR_pos nx ltac:(lia)) as Hp. cbn [seq map]. f_equal. unfold line_cell. geometry.
  rewrite !value_1d by lia. simpl. rewrite INR_p1. field. lra.
Qed.
Lemma line_jacobian nx es i x : (i < nx)%nat -> exists J,
  make_jacobian (node_values (unit_values (mkUnitMesh (create_nodes_1d nx) es)) 1 (ecoord (line_cell i))) 2 1
    (deriv_of truss_linear x) = Ok J /\ jDet J = / (2 * INR nx).
Proof.
  intros Hi. pose proof (INR_pos nx ltac:(lia)) as Hp. unfold node_values, extract_node_values, line_cell.
  cbn [length map ecoord enodes einterp cell_of nth seq flat_map app]. rewrite !value_1d by lia. cbn [nth].
  unfold make_jacobian. cbn [length Nat.eqb Nat.div Nat.divmod fst Nat.add].
  eexists. split; [reflexivity|]. unfold jDet, jacobian_matrix, deriv_of. simpl. rewrite INR_p1. field. lra.
Qed.

Lemma corner2_ok nx ny es l : (forall n, In n l -> exists i j, (i <= nx)%nat /\ (j <= ny)%nat /\ n = corner2 nx i j) ->
  forall n, In n l -> length (unit_values (mkUnitMesh (create_nodes_2d nx ny) es) (Z.of_nat n)) = 2%nat.
Proof. intros H n Hn. destruct (H n Hn) as (i & j & Hi & Hj & ->). rewrite value_2d by assumption. reflexivity. Qed.
Ltac corners := let n := fresh in let H := fresh in intros n H; simpl in H;
  repeat (destruct H as [<- |H]); try contradiction;
  match goal with
  | |- context [corner2 _ ?i ?j] => exists i, j; repeat split; lia
  | |- context [corner3 _ _ ?i ?j ?k] => exists i, j, k; repeat split; lia
  end.
Lemma quad_ok nx ny es i j : (i < nx)%nat -> (j < ny)%nat ->
  element_ok (unit_values (mkUnitMesh (create_nodes_2d nx ny) es)) 2 (ecoord (quad_cell nx i j)).
Proof. intros Hi Hj. apply cell_ok; [discriminate|reflexivity|]. apply corner2_ok. corners. Qed.
Lemma lower_ok nx ny es i j : (i < nx)%nat -> (j < ny)%nat ->
  element_ok (unit_values (mkUnitMesh (create_nodes_2d nx ny) es)) 2 (ecoord (lower_cell nx i j)).
Proof. intros Hi Hj. apply cell_ok; [discriminate|reflexivity|]. apply corner2_ok. corners. Qed.
Lemma upper_ok nx ny es i j : (i < nx)%nat -> (j < ny)%nat ->
  element_ok (unit_values (mkUnitMesh (create_nodes_2d nx ny) es)) 2 (ecoord (upper_cell nx i j)).
Proof. intros Hi Hj. apply cell_ok; [discriminate|reflexivity|]. apply corner2_ok. corners. Qed.

Lemma quad_position nx ny es i j x : (i < nx)%nat -> (j < ny)%nat ->
  map (position (unit_values (mkUnitMesh (create_nodes_2d nx ny) es)) (ecoord (quad_cell nx i j)) x) (seq 0 2)
  = [(INR i + (1 + x 0%nat) / 2) / INR nx; (INR j + (1 + x 1%nat) / 2) / INR ny].
Proof.
  intros Hi Hj. pose proof (INR_pos nx ltac:(lia)) as Hp. pose proof (INR_pos ny ltac:(lia)) as Hq.
  cbn [seq map]. unfold quad_cell. f_equal; [|f_equal]; geometry; rewrite !(value_2d nx ny) by lia; simpl;
    rewrite ?INR_p1; field; lra.
Qed.
Lemma lower_position nx ny es i j x : (i < nx)%nat -> (j < ny)%nat ->
  map (position (unit_values (mkUnitMesh (create_nodes_2d nx ny) es)) (ecoord (lower_cell nx i j)) x) (seq 0 2)
  = [(INR i + (x 0%nat + x 1%nat)) / INR nx; (INR j + x 1%nat) / INR ny].
Proof.
  intros Hi Hj. pose proof (INR_pos nx ltac:(lia)) as Hp. pose proof (INR_pos ny ltac:(lia)) as Hq.
  cbn [seq map]. unfold lower_cell. f_equal; [|f_equal]; geometry; rewrite !(value_2d nx ny) by lia; simpl;
    rewrite ?INR_p1; field; lra.
Qed.
Lemma upper_position nx ny es i j x : (i < nx)%nat -> (j < ny)%nat ->
  map (position (unit_values (mkUnitMesh (create_nodes_2d nx ny) es)) (ecoord (upper_cell nx i j)) x) (seq 0 2)
  = [(INR i + x 0%nat) / INR nx; (INR j + (x 0%nat + x 1%nat)) / INR ny].
Proof.
  intros Hi Hj. pose proof (INR_pos nx ltac:(lia)) as Hp. pose proof (INR_pos ny ltac:(lia)) as Hq.
  cbn [seq map]. unfold upper_cell. f_equal; [|f_equal]; geometry; rewrite !(value_2d nx ny) by lia; simpl;
    rewrite ?INR_p1; field; lra.
Qed.
Ltac jac2 c := unfold node_values, extract_node_values, c;
  cbn [length map ecoord enodes einterp cell_of nth seq flat_map app];
  rewrite !value_2d by lia; cbn [nth]; unfold make_jacobian; cbn [length Nat.eqb Nat.div Nat.divmod fst Nat.add];
  eexists; split; [reflexivity|]; unfold jDet, det2, jacobian_matrix, deriv_of; simpl; rewrite ?INR_p1; field; lra.
Lemma quad_jacobian nx ny es i j x : (i < nx)%nat -> (j < ny)%nat -> exists J,
  make_jacobian (node_values (unit_values (mkUnitMesh (create_nodes_2d nx ny) es)) 2 (ecoord (quad_cell nx i j))) 4 2
    (deriv_of quad_linear x) = Ok J /\ jDet J = / (4 * INR nx * INR ny).
Proof.
  intros Hi Hj. pose proof (INR_pos nx ltac:(lia)) as Hp. pose proof (INR_pos ny ltac:(lia)) as Hq. jac2 quad_cell.
Qed.
Lemma lower_jacobian nx ny es i j x : (i < nx)%nat -> (j < ny)%nat -> exists J,
  make_jacobian (node_values (unit_values (mkUnitMesh (create_nodes_2d nx ny) es)) 2 (ecoord (lower_cell nx i j))) 3 2
    (deriv_of triangle_linear x) = Ok J /\ jDet J = / (INR nx * INR ny).
Proof.
  intros Hi Hj. pose proof (INR_pos nx ltac:(lia)) as Hp. pose proof (INR_pos ny ltac:(lia)) as Hq. jac2 lower_cell.
Qed.
Lemma upper_jacobian nx ny es i j x : (i < nx)%nat -> (j < ny)%nat -> exists J,
  make_jacobian (node_values (unit_values (mkUnitMesh (create_nodes_2d nx ny) es)) 2 (ecoord (upper_cell nx i j))) 3 2
    (deriv_of triangle_linear x) = Ok J /\ jDet J = / (INR nx * INR ny).
Proof.
  intros Hi Hj. pose proof (INR_pos nx ltac:(lia)) as Hp. pose proof (INR_pos ny ltac:(lia)) as Hq. jac2 upper_cell.
Qed.

Lemma brick_ok nx ny nz es i j k : (i < nx)%nat -> (j < ny)%nat -> (k < nz)%nat ->
  element_ok (unit_values (mkUnitMesh (create_nodes_3d nx ny nz) es)) 3 (ecoord (brick_cell nx ny i j k)).
Proof.
  intros Hi Hj Hk. apply cell_ok; [discriminate|reflexivity|].
  assert (H : forall n, In n [corner3 nx ny i j k; corner3 nx ny (i + 1) j k;
    corner3 nx ny (i + 1) (j + 1) k; corner3 nx ny i (j + 1) k; corner3 nx ny i j (k + 1);
    corner3 nx ny (i + 1) j (k + 1); corner3 nx ny (i + 1) (j + 1) (k + 1); corner3 nx ny i (j + 1) (k + 1)]
    -> exists a b c, (a <= nx)%nat /\ (b <= ny)%nat /\ (c <= nz)%nat /\ n = corner3 nx ny a b c) by corners.
  intros n Hn. destruct (H n Hn) as (a & b & c & Ha & Hb & Hc & ->). rewrite value_3d by assumption. reflexivity.
Qed.
Lemma brick_position nx ny nz es i j k x : (i < nx)%nat -> (j < ny)%nat -> (k < nz)%nat ->
  map (position (unit_values (mkUnitMesh (create_nodes_3d nx ny nz) es)) (ecoord (brick_cell nx ny i j k)) x) (seq 0 3)
  = [(INR i + (1 + x 0%nat) / 2) / INR nx; (INR j + (1 + x 1%nat) / 2) / INR ny; (INR k + (1 + x 2%nat) / 2) / INR nz].
Proof.
  intros Hi Hj Hk. pose proof (INR_pos nx ltac:(lia)) as Hp. pose proof (INR_pos ny ltac:(lia)) as Hq.
  pose proof (INR_pos nz ltac:(lia)) as Hr.
  cbn [seq map]. unfold brick_cell. f_equal; [|f_equal; [|f_equal]]; geometry; rewrite !(value_3d nx ny nz) by lia; simpl;
    rewrite ?INR_p1; field; lra.
Qed.
Lemma brick_jacobian nx ny nz es i j k x : (i < nx)%nat -> (j < ny)%nat -> (k < nz)%nat -> exists J,
  make_jacobian (node_values (unit_values (mkUnitMesh (create_nodes_3d nx ny nz) es)) 3 (ecoord (brick_cell nx ny i j k))) 8 3
    (deriv_of brick_linear x) = Ok J /\ jDet J = / (8 * INR nx * INR ny * INR nz).
Proof.
  intros Hi Hj Hk. pose proof (INR_pos nx ltac:(lia)) as Hp. pose proof (INR_pos ny ltac:(lia)) as Hq.
  pose proof (INR_pos nz ltac:(lia)) as Hr.
  unfold node_values, extract_node_values, brick_cell;
  cbn [length map ecoord enodes einterp cell_of nth seq flat_map app];
  rewrite !(value_3d nx ny nz) by lia; cbn [nth]; unfold make_jacobian; cbn [length Nat.eqb Nat.div Nat.divmod fst Nat.add];
  eexists; split; [reflexivity|].
  cbn [jDet]. set (J := jacobian_matrix _ _ _ _).
  assert (E : forall a b, J a b = match a, b with 0%nat, 0%nat => / (2 * INR nx) | 1%nat, 1%nat => / (2 * INR ny)
     | 2%nat, 2%nat => / (2 * INR nz) | S (S (S _)), _ => J a b | _, S (S (S _)) => J a b | _, _ => 0 end).
  { intros [|[|[|a]]] [|[|[|b]]]; try reflexivity; unfold J, jacobian_matrix, deriv_of; simpl; rewrite ?INR_p1; field; lra. }
  unfold det3, cof3. cbn [Nat.modulo Nat.divmod Nat.add Nat.sub fst snd]. rewrite !E. field. lra.
Qed.
