(** * C50: AddDofInterpolation

    Every element of the group gets one dof node per interpolation point; two of them are the same node exactly if the
    points coincide up to the tolerance.  [P] are the positions of the points of that dof type, existing and new.
    Necessary assumptions: the points lie in the bounding box of the coordinate nodes, the box is at least 298 tolerances
    wide in each direction, and coinciding is an equivalence on the points (otherwise no sharing can respect it). *)
From Coq Require Import List ZArith Arith Reals Lra Lia.
From Verif Require Import Outcome RSum CellModel InterpolationModel MeshModel MeshSpec UnitMeshProofs DofMeshModel
  DofMeshProofs3 DofMeshProofs4.
Import ListNotations.
Local Open Scope R_scope.

Theorem C50_shared_nodes_partial garbage values dim elements next dof group optIp :
  let eps := / 10 ^ 10 in
  let P := fun p => (exists n, dof_node_at values elements dof n p) \/ new_point values elements group optIp p in
  (dim <= 3)%nat -> elements <> [] -> mesh_ok values dim elements -> node_box_wide values dim elements (298 * eps) ->
  NoDup group ->
  (forall idx, In idx group -> exists c, nth_error elements idx = Some c /\ edof c dof = None
     /\ itype (einterp (ecoord c)) = itype (new_interp optIp c)) ->
  (forall p, P p -> in_node_box values dim elements p) ->
  (forall p q r, P p -> P q -> P r -> distance dim p q < eps -> distance dim q r < eps -> distance dim p r < eps) ->
  nodes_shared values dim elements dof eps ->
  (forall n p, dof_node_at values elements dof n p -> (n < next)%Z) ->
  exists s, add_dof_interpolation garbage values elements next dof group optIp = Ok s
    /\ nodes_shared values dim (delems s) dof eps
    /\ (next <= dnext s)%Z /\ (forall n p, dof_node_at values (delems s) dof n p -> (n < dnext s)%Z)
    /\ length (delems s) = length elements
    /\ forall idx c, nth_error elements idx = Some c -> exists c', nth_error (delems s) idx = Some c'
         /\ ecoord c' = ecoord c /\ (forall d', d' <> dof -> edof c' d' = edof c d')
         /\ (~ In idx group -> edof c' dof = edof c dof)
         /\ (In idx group -> exists de, edof c' dof = Some de /\ einterp de = new_interp optIp c
               /\ length (enodes de) = inum (new_interp optIp c)).
Proof. exact (add_dof_interpolation_spec garbage values dim elements next dof group optIp). Qed.
Print Assumptions C50_shared_nodes_partial.

(** the width is needed: a mesh that is narrower than 298 tolerances in some direction (a line along the x axis of the
    plane, a plate in space) is always refused *)
Theorem C50_flat_mesh_refuted garbage values dim elements next dof group optIp : (dim <= 3)%nat -> elements <> [] ->
  mesh_ok values dim elements ->
  (exists i, (i < dim)%nat /\ forall n m, coordinate_node elements n -> coordinate_node elements m ->
     comp (values n) i - comp (values m) i < 298 * / 10 ^ 10) ->
  add_dof_interpolation garbage values elements next dof group optIp = Throw.
Proof. intros H1 H2 H3. exact (narrow_throws garbage values dim elements H1 H2 H3 next dof group optIp). Qed.
Print Assumptions C50_flat_mesh_refuted.

(** the bounding box is needed: two elements with a common interpolation point that lies outside the bounding box of the
    nodes by more than a 300th of its width never share a node there *)
Theorem C50_outside_refuted garbage values dim elements next dof optIp i1 i2 c1 c2 k1 k2 s p :
  (dim <= 3)%nat -> elements <> [] -> mesh_ok values dim elements -> i1 <> i2 ->
  nth_error elements i1 = Some c1 -> nth_error elements i2 = Some c2 ->
  (k1 < inum (new_interp optIp c1))%nat -> (k2 < inum (new_interp optIp c2))%nat ->
  p = position values (ecoord c1) (ilocal (new_interp optIp c1) k1) ->
  p = position values (ecoord c2) (ilocal (new_interp optIp c2) k2) ->
  outside_node_box values dim elements (/ 10 ^ 10) p ->
  add_dof_interpolation garbage values elements next dof [i1; i2] optIp = Ok s ->
  exists n1 n2, dof_node_at values (delems s) dof n1 p /\ dof_node_at values (delems s) dof n2 p /\ n1 <> n2.
Proof. intros H1 H2 H3. exact (outside_not_shared garbage values dim elements H1 H2 H3 next dof optIp i1 i2 c1 c2 k1 k2 s p). Qed.
Print Assumptions C50_outside_refuted.

(** ** A mesh on which C50 holds: two linear line elements with quadratic dof elements *)
Definition two_lines : list collection :=
  [mkCollection (mkElement [0; 1]%Z (of_table truss_linear 0)) (fun _ => None);
   mkCollection (mkElement [1; 2]%Z (of_table truss_linear 0)) (fun _ => None)].
Definition two_lines_values (n : Z) : list R := [IZR n].

Example C50_example garbage : exists s,
  add_dof_interpolation garbage two_lines_values two_lines 10 7 [0; 1]%nat (Some (of_table truss_quadratic 0)) = Ok s
  /\ exists c0 c1 d0 d1, delems s = [c0; c1] /\ edof c0 7 = Some d0 /\ edof c1 7 = Some d1
     /\ nth_error (enodes d0) 2 = nth_error (enodes d1) 0 /\ nth_error (enodes d0) 1 <> nth_error (enodes d1) 1.
Proof.
  set (eps := / 10 ^ 10). assert (He : 0 < eps < 1 / 1000000000) by (unfold eps; simpl; lra).
  assert (Pt : forall p, (exists n, dof_node_at two_lines_values two_lines 7 n p)
       \/ new_point two_lines_values two_lines [0; 1]%nat (Some (of_table truss_quadratic 0)) p ->
     p 0%nat = 0 \/ p 0%nat = 1 / 2 \/ p 0%nat = 1 \/ p 0%nat = 3 / 2 \/ p 0%nat = 2).
  { intros p [(n & c & de & k & [<- |[<- |[]]] & Hde & _)|(idx & c & k & Hin & Hc & Hk & ->)]; try discriminate.
    simpl in Hk. destruct Hin as [<- |[<- |[]]]; injection Hc as <-;
      (destruct k as [|[|[|k]]]; [| | |lia]); unfold position, two_lines_values; cbn; lra. }
  assert (Dist : forall p q, distance 1 p q < eps <-> Rabs (p 0%nat - q 0%nat) < eps).
  { intros p q. unfold distance. cbn [rsum]. replace (0 + (p 0%nat - q 0%nat) ^ 2) with (Rsqr (p 0%nat - q 0%nat)) by (unfold Rsqr; ring).
    rewrite sqrt_Rsqr_abs. reflexivity. }
  assert (Node : forall n, coordinate_node two_lines n -> (n = 0 \/ n = 1 \/ n = 2)%Z).
  { intros n (c & [<- |[<- |[]]] & Hn); simpl in Hn; intuition. }
  assert (N0 : coordinate_node two_lines 0) by (eexists; split; [left; reflexivity|simpl; auto]).
  assert (N2 : coordinate_node two_lines 2) by (eexists; split; [right; left; reflexivity|simpl; auto]).
  assert (Box : forall p, (exists n, dof_node_at two_lines_values two_lines 7 n p)
       \/ new_point two_lines_values two_lines [0; 1]%nat (Some (of_table truss_quadratic 0)) p -> in_node_box two_lines_values 1 two_lines p).
  { intros p Hp. specialize (Pt p Hp). intros i Hi. replace i with 0%nat by lia. split; [exists 0%Z|exists 2%Z];
      (split; [assumption|unfold comp, two_lines_values; cbn; lra]). }
  assert (C : forall u, Rabs u < eps -> - (1 / 1000000000) < u < 1 / 1000000000).
  { intros u Hu. apply Rabs_def2 in Hu. lra. }
  destruct (C50_shared_nodes_partial garbage two_lines_values 1 two_lines 10 7 [0; 1]%nat (Some (of_table truss_quadratic 0)))
    as (s & E & Hs & _ & _ & Hlen & Hel).
  - lia.
  - discriminate.
  - intros c [<- |[<- |[]]]; (split; [split; [discriminate|split; [reflexivity|reflexivity]]|intros d de Hd; discriminate]).
  - intros i Hi. replace i with 0%nat by lia. exists 0%Z, 2%Z.
    split; [exact N0|]. split; [exact N2|].
    unfold comp, two_lines_values. cbn [nth]. fold eps. lra.
  - repeat constructor; simpl; intuition discriminate.
  - intros idx [<- |[<- |[]]]; eexists; (split; [reflexivity|split; reflexivity]).
  - exact Box.
  - fold eps. intros p q r Hp Hq Hr H1 H2. apply Dist in H1, H2. apply Dist. apply C in H1, H2.
    specialize (Pt p Hp) as Hp'. specialize (Pt q Hq) as Hq'. specialize (Pt r Hr) as Hr'.
    assert (EE : p 0%nat = r 0%nat).
    { assert (p 0%nat = q 0%nat) by (destruct Hp' as [A|[A|[A|[A|A]]]], Hq' as [B|[B|[B|[B|B]]]]; lra).
      assert (q 0%nat = r 0%nat) by (destruct Hr' as [A|[A|[A|[A|A]]]], Hq' as [B|[B|[B|[B|B]]]]; lra). lra. }
    rewrite EE. unfold Rminus. rewrite Rplus_opp_r, Rabs_R0. lra.
  - intros n p n' p' (c & de & k & [<- |[<- |[]]] & Hde & _); discriminate.
  - intros n p (c & de & k & [<- |[<- |[]]] & Hde & _); discriminate.
  - exists s. split; [exact E|].
    destruct (Hel 0%nat _ eq_refl) as (c0 & M0 & Ec0 & _ & _ & D0). destruct (D0 (or_introl eq_refl)) as (d0 & Ed0 & Ei0 & L0).
    destruct (Hel 1%nat _ eq_refl) as (c1 & M1 & Ec1 & _ & _ & D1). destruct (D1 (or_intror (or_introl eq_refl))) as (d1 & Ed1 & Ei1 & L1).
    exists c0, c1, d0, d1. destruct (delems s) as [|a [|b [|? ?]]] eqn:Edl; try discriminate Hlen.
    injection M0 as ->. injection M1 as ->. split; [reflexivity|]. split; [exact Ed0|]. split; [exact Ed1|].
    destruct (enodes d0) as [|x0 [|x1 [|x2 [|]]]] eqn:En0; try discriminate L0.
    destruct (enodes d1) as [|y0 [|y1 [|y2 [|]]]] eqn:En1; try discriminate L1.
    assert (At0 : forall k n, nth_error (enodes d0) k = Some n ->
       dof_node_at two_lines_values [c0; c1] 7 n (position two_lines_values (ecoord c0) (ilocal (einterp d0) k))).
    { intros k n Hn. exists c0, d0, k. simpl. auto. }
    assert (At1 : forall k n, nth_error (enodes d1) k = Some n ->
       dof_node_at two_lines_values [c0; c1] 7 n (position two_lines_values (ecoord c1) (ilocal (einterp d1) k))).
    { intros k n Hn. exists c1, d1, k. simpl. auto. }
    rewrite En0 in At0. rewrite En1 in At1. cbn [nth_error] in *. split.
    + f_equal. apply (Hs _ _ _ _ (At0 2%nat x2 eq_refl) (At1 0%nat y0 eq_refl)). apply Dist. apply Rabs_def1;
        rewrite Ei0, Ei1, Ec0, Ec1; unfold position, two_lines_values; cbn [length rsum nth enodes einterp ishape of_table ecoord ilocal new_interp]; cbn [e_nodes e_shape truss_quadratic truss_quadratic_nodes truss_linear truss_linear_shape nth]; fold eps; lra.
    + intros EE. injection EE as EE. apply (Hs _ _ _ _ (At0 1%nat x1 eq_refl) (At1 1%nat y1 eq_refl)) in EE.
      apply Dist in EE. apply C in EE. rewrite Ei0, Ei1, Ec0, Ec1 in EE. unfold position, two_lines_values in EE.
      cbn [length rsum nth enodes einterp ishape of_table ecoord ilocal new_interp] in EE. cbn [e_nodes e_shape truss_quadratic truss_quadratic_nodes truss_linear truss_linear_shape nth] in EE.
      lra.
Qed.

(** ** A mesh on which C50 fails: two elements on the same curved quadratic line x = 1 + r/2 - r^2/2, y = (1 + r)/2 through
    (0,0), (1,1/2), (1,1), which bulges to x = 9/8; the third order dof elements have a point at x = 10/9 *)
Definition curved_lines : list collection :=
  let c := mkCollection (mkElement [0; 1; 2]%Z (of_table truss_quadratic 0)) (fun _ => None) in [c; c].
Definition curved_values (n : Z) : list R := if Z.eqb n 0 then [0; 0] else if Z.eqb n 1 then [1; 1 / 2] else [1; 1].

Theorem C50_curved_lines_refuted garbage s :
  add_dof_interpolation garbage curved_values curved_lines 10 7 [0; 1]%nat (Some (of_table truss_3rd 0)) = Ok s ->
  ~ nodes_shared curved_values 2 (delems s) 7 (/ 10 ^ 10).
Proof.
  intros E Hs.
  set (p := position curved_values (mkElement [0; 1; 2]%Z (of_table truss_quadratic 0)) (ilocal (of_table truss_3rd 0) 2)).
  set (c := mkCollection (mkElement [0; 1; 2]%Z (of_table truss_quadratic 0)) (fun _ => None)).
  destruct (C50_outside_refuted garbage curved_values 2 curved_lines 10 7 (Some (of_table truss_3rd 0)) 0 1 c c 2 2 s p)
    as (n1 & n2 & H1 & H2 & Hne); try reflexivity; try discriminate; try (simpl; lia); try exact E.
  - intros c' [<- |[<- |[]]]; (split; [split; [discriminate|split; [reflexivity|]]|intros d de Hd; discriminate]);
      intros n [<- |[<- |[<- |[]]]]; reflexivity.
  - exists 0%nat. split; [lia|]. 
    assert (X : p 0%nat = 10 / 9) by (unfold p, position; cbn; lra). rewrite X.
    assert (N : forall n, 0 <= comp (curved_values n) 0 <= 1).
    { intros n. unfold curved_values, comp. destruct (Z.eqb n 0), (Z.eqb n 1); cbn; lra. }
    intros n m _ _. pose proof (N n). pose proof (N m). simpl. lra.
  - apply Hne. apply (Hs n1 p n2 p H1 H2). unfold distance. cbn [rsum].
    replace (0 + (p 0%nat - p 0%nat) ^ 2 + (p 1%nat - p 1%nat) ^ 2) with 0 by ring. rewrite sqrt_0.
    apply Rinv_0_lt_compat, pow_lt. lra.
Qed.
Print Assumptions C50_curved_lines_refuted.

(** ** A mesh that is refused: a line along the x axis of the plane *)
Example C50_flat_example garbage :
  add_dof_interpolation garbage (fun n => [IZR n; 0])
    [mkCollection (mkElement [0; 1]%Z (of_table truss_linear 0)) (fun _ => None)] 10 7 [0]%nat None = Throw.
Proof.
  apply (C50_flat_mesh_refuted _ _ 2); [lia|discriminate| |].
  - intros c [<- |[]]. split; [split; [discriminate|split; reflexivity]|intros d de Hd; discriminate].
  - exists 1%nat. split; [lia|]. intros n m _ _. unfold comp; cbn. simpl. lra.
Qed.
