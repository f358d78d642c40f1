(** * C51: MeshGmsh reads exactly the nodes and elements of the file *)
From Coq Require Import String Ascii List ZArith Arith Reals Lra Lia.
From Verif Require Import Outcome AdaptiveModel AdaptiveProofs RSum CellModel InterpolationModel GroupModel GroupProofs
  GmshModel GmshSpec GmshProofs GmshProofs2.
Import ListNotations.
Local Open Scope R_scope.

(** An ASCII file, or a binary file with one element per block: every node, and every element once, in the order of the
    file, with its nodes in the order of its interpolation, in the group of its first tag.  The points (type 15) of the file
    are not elements.  Not covered: pyramids and larger binary blocks, where the reader fails, see below. *)
Theorem C51_reads_file_partial names nodes elems file :
  file = ascii_file names nodes elems \/ file = binary_file names nodes (map (fun e => [e]) elems) ->
  (forall n, In n names -> no_quotes (gp_name n)) -> NoDup (map gn_id nodes) ->
  (forall e, In e elems -> node_count_ok e /\ (ge_type e = 15%Z \/ creatable nodes (find_dimension nodes) e)) ->
  exists m, read_gmsh file = Ok m
    /\ gm_values m = map (node_coords (find_dimension nodes)) nodes
    /\ Forall2 (elem_rel nodes) (mesh_elems elems) (gm_elems m)
    /\ forall id, match members id (mesh_elems elems) with
         | [] => group_by_id m id = Throw
         | l => exists g, group_by_id m id = Ok g /\ mData g = l
         end.
Proof.
  intros Hf Hn Hnd He.
  assert (Hok : forall e, In e elems -> elem_ok e).
  { intros e Hin. destruct (He e Hin) as (Hc & Ht). apply count_elem_ok; [|exact Hc].
    destruct Ht as [-> |(Ht & _)]; [left; reflexivity|right; exact Ht]. }
  assert (E : read_content file = Ok (mkContent (find_dimension nodes) nodes elems names)).
  { destruct Hf as [-> | ->]; [apply read_ascii|apply read_binary]; assumption. }
  destruct (create_mesh_spec names nodes elems Hnd (fun e H => proj2 (He e H))) as (m & Em & (Hv & Hel & Hg & _)).
  exists m. split; [unfold read_gmsh; rewrite E; exact Em|]. split; [exact Hv|]. split; [exact Hel|].
  intros id. specialize (Hg id). unfold group_by_id, group_of in *. destruct (gm_groups m id) as [g|].
  - destruct Hg as (_ & Hd & Hne). destruct (members id (mesh_elems elems)) as [|a l]; [congruence|]. exists g. auto.
  - rewrite Hg. reflexivity.
Qed.
Print Assumptions C51_reads_file_partial.

(** if every id has one name and no two names are equal up to case, the group of a name is the group of its id, and a name
    that is not in the file is refused *)
Theorem C51_named_groups names nodes elems file :
  file = ascii_file names nodes elems \/ file = binary_file names nodes (map (fun e => [e]) elems) ->
  (forall n, In n names -> no_quotes (gp_name n) /\ gp_name n <> EmptyString) -> NoDup (map gn_id nodes) ->
  (forall e, In e elems -> node_count_ok e /\ (ge_type e = 15%Z \/ creatable nodes (find_dimension nodes) e)) ->
  NoDup (map gp_id names) -> NoDup (map (fun n => upper (gp_name n)) names) ->
  exists m, read_gmsh file = Ok m
    /\ (forall n w, In n names -> upper w = upper (gp_name n) -> group_by_name m w = group_by_id m (gp_id n))
    /\ (forall w, (forall n, In n names -> upper (gp_name n) <> upper w) -> group_by_name m w = Throw).
Proof.
  intros Hf Hn Hnd He Hid Hup.
  assert (Hok : forall e, In e elems -> elem_ok e).
  { intros e Hin. destruct (He e Hin) as (Hc & Ht). apply count_elem_ok; [|exact Hc].
    destruct Ht as [-> |(Ht & _)]; [left; reflexivity|right; exact Ht]. }
  assert (E : read_content file = Ok (mkContent (find_dimension nodes) nodes elems names)).
  { destruct Hf as [-> | ->]; [apply read_ascii|apply read_binary]; auto; intros n H; apply Hn; exact H. }
  destruct (create_mesh_spec names nodes elems Hnd (fun e H => proj2 (He e H))) as (m & Em & (Hv & Hel & Hg & (N1 & N2))).
  exists m. split; [unfold read_gmsh; rewrite E; exact Em|].
  assert (Name : forall n, In n names -> group_name names (gp_id n) = gp_name n).
  { clear - Hid. unfold group_name. induction names as [|n0 l IH]; intros n Hin; [contradiction|]. cbn [find].
    inversion Hid as [|? ? H1 H2]; subst. destruct Hin as [<- |Hin]; [rewrite Z.eqb_refl; reflexivity|].
    destruct (Z.eqb_spec (gp_id n0) (gp_id n)) as [Ee|_]; [exfalso; apply H1; rewrite Ee; apply in_map; exact Hin|]. apply IH; assumption. }
  assert (Back : forall id, upper (group_name names id) <> EmptyString -> exists n, In n names /\ gp_id n = id).
  { intros id Hne. unfold group_name in Hne. destruct (find (fun n => Z.eqb (gp_id n) id) names) as [n|] eqn:Ef; [|contradiction].
    apply find_some in Ef. destruct Ef as (Hin & Ee). apply Z.eqb_eq in Ee. eauto. }
  split.
  - intros n w Hin Hw. unfold group_by_name, group_by_id. rewrite Hw.
    destruct (gm_named m (upper (gp_name n))) as [id|] eqn:Ev.
    + destruct (N1 _ _ Ev) as (A & B & C). destruct (Back id) as (n' & Hin' & <-); [rewrite B; exact C|].
      rewrite (Name n' Hin') in B.
      assert (n' = n).
      { apply In_nth_error in Hin, Hin'. destruct Hin as (i & Hi), Hin' as (j & Hj).
        assert (i = j); [|congruence]. apply (proj1 (NoDup_nth_error _) Hup).
        - rewrite map_length. apply nth_error_Some. congruence.
        - rewrite !nth_error_map, Hi, Hj. simpl. congruence. }
      subst n'. destruct (gm_groups m (gp_id n)); [reflexivity|congruence].
    + destruct (gm_groups m (gp_id n)) eqn:Eg; [|reflexivity]. exfalso. apply (N2 (gp_id n)).
      * congruence.
      * rewrite (Name n Hin). destruct (Hn n Hin) as (_ & X). destruct (gp_name n); [congruence|discriminate].
      * rewrite (Name n Hin). exact Ev.
  - intros w Hw. unfold group_by_name. destruct (gm_named m (upper w)) as [id|] eqn:Ev; [|reflexivity].
    destruct (N1 _ _ Ev) as (A & B & C). destruct (Back id) as (n' & Hin' & <-); [rewrite B; exact C|].
    rewrite (Name n' Hin') in B. exfalso. exact (Hw n' Hin' B).
Qed.
Print Assumptions C51_named_groups.

(** the nodes have as many coordinates as needed *)
Theorem C51_dimension nodes : let d := find_dimension nodes in
  (d = 1 \/ d = 2 \/ d = 3)%nat
  /\ ((d <= 2)%nat <-> forall n, In n nodes -> gn_z n = 0)
  /\ ((d <= 1)%nat <-> forall n, In n nodes -> gn_z n = 0 /\ gn_y n = 0).
Proof. exact (find_dimension_spec nodes). Qed.
Print Assumptions C51_dimension.

(** ** Where the reader fails *)

(** a binary file with two elements in a block is never read: the second element overwrites the first, an element without
    type is left *)
Theorem C51_binary_block_elements names nodes e1 e2 : (forall n, In n names -> no_quotes (gp_name n)) ->
  block_ok [e1; e2] -> elem_ok e1 -> elem_ok e2 ->
  exists d, read_content (binary_file names nodes [[e1; e2]]) = Ok (mkContent d nodes [e2; mkGelem 0 0 [] []] names).
Proof.
  intros Hn (_ & Hb) H1 H2. exists (find_dimension nodes). change (mkGelem 0 0 [] []) with default_elem.
    unfold read_content, binary_file. rewrite read_header_spec. cbn [obind].
    match goal with |- process (length (header_text ?b ++ ?r)) _ _ _ = _ =>
      generalize (header_length b r); generalize (length (header_text b ++ r)) end.
    intros fuel Hf. destruct fuel as [|[|[|fuel]]]; try lia.
    rewrite process_names, process_nodes_binary by exact Hn. one_section.
    unfold read_elements_binary. cbn [read_int obind concat app]. change (count [e1; e2]) with 2%Z. cbn [Z.ltb Z.compare getline snd].
    change (Z.to_nat 2) with 2%nat. cbn [repeat flat_map block_binary]. change (count [e1; e2]) with 2%Z.
    destruct (Hb e1 e2) as (B1 & B2); [left; reflexivity|right; left; reflexivity|].
    unfold elem_ok in H1, H2. rewrite <- B1 in H2.
    rewrite !app_nil_r. cbn [read_blocks length Nat.leb]. rewrite <- ?app_assoc. cbn [app read_bin_int obind]. rewrite H1. cbn [obind].
    change (seq 0 (Z.to_nat 2)) with [0; 1]%nat. cbn [read_block length Nat.leb read_bin_int obind].
    rewrite <- ?app_comm_cons, <- ?app_assoc. cbn [app read_bin_int obind].
    rewrite read_bin_ints by reflexivity. cbn [obind]. rewrite read_bin_ints by reflexivity.
    cbn [obind Nat.add set_elem firstn skipn app length Nat.leb].
    rewrite <- ?app_comm_cons, <- ?app_assoc. cbn [app read_bin_int obind].
    rewrite read_bin_ints by exact B2. cbn [obind]. rewrite read_bin_ints by (rewrite H1 in H2; injection H2 as H2; exact H2).
    cbn [obind Nat.add set_elem firstn skipn app length Nat.leb getline snd expect].
    unfold set_elem. cbn [firstn skipn app length Nat.leb obind]. unfold expect. cbn [getline].
    change (prefix "$EndElements" "$EndElements") with true. cbv iota. cbn [obind cdim cnodes cnames].
    rewrite B1. destruct e2; destruct fuel; reflexivity.
Qed.
Print Assumptions C51_binary_block_elements.
Theorem C51_binary_block_refuted names nodes e1 e2 : (forall n, In n names -> no_quotes (gp_name n)) ->
  block_ok [e1; e2] -> elem_ok e1 -> elem_ok e2 -> forall m, read_gmsh (binary_file names nodes [[e1; e2]]) <> Ok m.
Proof.
  intros Hn Hb H1 H2 m. unfold read_gmsh. destruct (C51_binary_block_elements names nodes e1 e2 Hn Hb H1 H2) as (d & E).
  rewrite E. cbn [obind]. unfold create_mesh. cbn [celems cnames cnodes cdim create_elements].
  destruct (create_element _ _ _ e2) as [m1| |]; cbn [obind]; discriminate.
Qed.
Print Assumptions C51_binary_block_refuted.

Lemma read_blocks_overflow b s : b <> [] ->
  (forall e f, In e b -> In f b -> ge_type e = ge_type f /\ count (ge_tags e) = count (ge_tags f)) ->
  (forall e, In e b -> elem_ok e) -> (5 <= length b)%nat ->
  read_blocks (length b) (None, None, None) (block_binary b ++ s) (repeat default_elem (length b)) 0 = UB.
Proof.
  intros Hne Hb Hok H5. destruct b as [|e0 b']; [congruence|].
  pose proof (Hok e0 (or_introl eq_refl)) as H0. unfold elem_ok in H0.
  pose proof (read_block_overflow (ge_type e0) (count (ge_tags e0)) (count (ge_nodes e0)) (e0 :: b') s H0) as X.
  assert (Y : read_block (ge_type e0) (count (ge_tags e0)) (count (ge_nodes e0)) (seq 0 (length (e0 :: b')))
     (flat_map (fun e => [TBinInt (ge_id e)] ++ map TBinInt (ge_tags e) ++ map TBinInt (ge_nodes e)) (e0 :: b') ++ s)
     (repeat default_elem (length (e0 :: b'))) 0 = UB).
  { apply (X) with (done := []); [|reflexivity|discriminate|apply repeat_length|exact H5|reflexivity].
    intros e He. destruct (Hb e e0 He (or_introl eq_refl)) as (B1 & B2). split; [exact B2|].
    pose proof (Hok e He) as H1. unfold elem_ok in H1. rewrite B1, H0 in H1. injection H1 as H1. symmetry. exact H1. }
  clear X. unfold block_binary.
  set (body := flat_map _ (e0 :: b')) in *. clearbody body.
  remember (e0 :: b') as b eqn:Eb.
  destruct (length b) as [|k] eqn:El; [subst b; discriminate|]. cbn [read_blocks]. rewrite repeat_length. cbn [Nat.leb app read_bin_int obind].
  rewrite H0. cbn [obind]. replace (Z.to_nat (count b)) with (S k) by (unfold count; lia). rewrite Y. reflexivity.
Qed.

(** a binary file whose elements are one block of five or more makes the reader write out of range *)
Theorem C51_binary_memory_refuted names nodes b : (forall n, In n names -> no_quotes (gp_name n)) ->
  block_ok b -> (forall e, In e b -> elem_ok e) -> (5 <= length b)%nat -> read_gmsh (binary_file names nodes [b]) = UB.
Proof.
  intros Hn (Hne & Hb) Hok H5. unfold read_gmsh.
  assert (E : read_content (binary_file names nodes [b]) = UB); [|rewrite E; reflexivity].
  unfold read_content, binary_file. rewrite read_header_spec. cbn [obind].
  match goal with |- process (length (header_text ?b ++ ?r)) _ _ _ = _ =>
    generalize (header_length b r); generalize (length (header_text b ++ r)) end.
  intros fuel Hf. destruct fuel as [|[|[|fuel]]]; try lia.
  rewrite process_names, process_nodes_binary by exact Hn. one_section.
  unfold read_elements_binary. cbn [read_int obind concat]. rewrite app_nil_r.
  assert (E : Z.ltb (count b) 0 = false) by (apply Z.ltb_ge; unfold count; lia). rewrite E. cbn [getline snd].
  replace (Z.to_nat (count b)) with (length b) by (unfold count; lia). cbn [flat_map]. rewrite app_nil_r.
  rewrite read_blocks_overflow by assumption. reflexivity.
Qed.
Print Assumptions C51_binary_memory_refuted.

Ltac read_all := unfold read_gmsh; rewrite read_ascii;
  [cbn [obind]; unfold create_mesh; cbn [celems cnames cnodes cdim]
  |intros n [<- |[<- |[]]] || intros n [<- |[]] || intros n []; cbn [gp_name no_quotes]; repeat split; discriminate
  |intros e He; repeat (destruct He as [<- |He]; [reflexivity|]); contradiction].

(** a pyramid with the node coordinates of gmsh's own definition of the pyramid is refused *)
Definition pyramid_file : list token :=
  ascii_file [] [mkGnode 1 (-1) (-1) 0; mkGnode 2 1 (-1) 0; mkGnode 3 1 1 0; mkGnode 4 (-1) 1 0; mkGnode 5 0 0 1]
    [mkGelem 1 7 [1; 1]%Z [1; 2; 3; 4; 5]%Z].
Theorem C51_pyramid_refuted :
  map (fun n => [gn_x n; gn_y n; gn_z n])
    [mkGnode 1 (-1) (-1) 0; mkGnode 2 1 (-1) 0; mkGnode 3 1 1 0; mkGnode 4 (-1) 1 0; mkGnode 5 0 0 1] = gmsh_nodes 7
  /\ read_gmsh pyramid_file = Throw.
Proof.
  split; [reflexivity|]. unfold pyramid_file. read_all.
  assert (D : find_dimension [mkGnode 1 (-1) (-1) 0; mkGnode 2 1 (-1) 0; mkGnode 3 1 1 0; mkGnode 4 (-1) 1 0; mkGnode 5 0 0 1] = 3%nat).
  { unfold find_dimension. cbn [fold_left gn_y gn_z]. repeat match goal with |- context [Req_EM_T ?a ?b] => destruct (Req_EM_T a b) end; try lra; reflexivity. }
  rewrite D. cbn [create_elements create_element ge_type Z.eqb Pos.eqb element_interpolation obind ge_nodes].
  assert (L : lookup_nodes (node_map [mkGnode 1 (-1) (-1) 0; mkGnode 2 1 (-1) 0; mkGnode 3 1 1 0; mkGnode 4 (-1) 1 0; mkGnode 5 0 0 1])
     [1; 2; 3; 4; 5]%Z = Ok [0; 1; 2; 3; 4]%Z) by reflexivity.
  unfold create_element. cbn [create_elements create_element ge_type Z.eqb Pos.eqb element_interpolation obind ge_nodes]. rewrite L. cbn [obind].
  change (reorder 7 [0; 1; 2; 3; 4]%Z) with (Ok [0; 1; 2; 3; 4]%Z). cbn [obind].
  assert (X : check_jacobian (fun a => nth (Z.to_nat a) (map (node_coords 3) [mkGnode 1 (-1) (-1) 0; mkGnode 2 1 (-1) 0; mkGnode 3 1 1 0; mkGnode 4 (-1) 1 0; mkGnode 5 0 0 1]) [])
     pyramid_linear [0; 1; 2; 3; 4]%Z = Throw).
  { unfold check_jacobian.
    match goal with |- context [flat_map ?f ?l] => change (flat_map f l) with [-1; -1; 0; 1; -1; 0; 1; 1; 0; -1; 1; 0; 0; 0; 1] end.
    cbn [pyramid_linear e_deriv e_dim]. unfold pyramid_linear_deriv. destruct (Req_EM_T (1 - 0) 0) as [H0|H0]; [lra|].
    unfold make_jacobian. cbn [length Nat.eqb]. change (15 / 5)%nat with 3%nat. cbn [Nat.eqb obind jDet].
    match goal with |- context [rleb ?a 0] => destruct (rleb_spec a 0) as [(-> & H)|(-> & H)]; [reflexivity|exfalso] end.
    revert H. unfold det3, cof3, jacobian_matrix. cbn -[Rmult Rplus Rminus Rdiv]. intros H.
    replace (1 - 0) with 1 in H by ring. unfold Rdiv in H. rewrite ?Rinv_1 in H. lra. }
  match goal with |- context [check_jacobian ?v ?i ?n] => replace (check_jacobian v i n) with (@Throw unit) by (symmetry; exact X) end. reflexivity.
Qed.
Print Assumptions C51_pyramid_refuted.

(** a line in a three dimensional file is refused *)
Theorem C51_line_3d_refuted names nodes e : names_ok names -> NoDup (map gn_id nodes) -> find_dimension nodes = 3%nat ->
  ge_type e = 1%Z -> length (ge_nodes e) = 2%nat -> (forall id, In id (ge_nodes e) -> exists n, In n nodes /\ gn_id n = id) ->
  read_gmsh (ascii_file names nodes [e]) = Throw.
Proof.
  intros Hn Hnd D T L Hin. unfold read_gmsh. rewrite read_ascii; [|exact Hn|].
  2:{ intros e' [<- |[]]. apply count_elem_ok; [rewrite T; right; left; reflexivity|]. unfold node_count_ok. rewrite T, L. reflexivity. }
  cbn [obind]. unfold create_mesh. cbn [celems cnames cnodes cdim create_elements]. rewrite D. unfold create_element. rewrite T.
  cbn [Z.eqb Pos.eqb element_interpolation obind].
  destruct (ge_nodes e) as [|a [|b [|]]]; try discriminate L.
  assert (Ptr : forall id, In id [a; b] -> exists i n, nth_error nodes i = Some n /\ node_map nodes id = Some (Z.of_nat i)).
  { intros id Hid. destruct (Hin id Hid) as (n & Hnn & <-). apply In_nth_error in Hnn. destruct Hnn as (i & Hi).
    exists i, n. split; [exact Hi|]. apply node_map_spec; assumption. }
  destruct (lookup_nodes_spec (node_map nodes) [a; b]) as (old & -> & Hl & Hr).
  { intros id Hid. destruct (Ptr id Hid) as (i & n & _ & ->). eauto. }
  cbn [obind]. destruct old as [|x [|y [|]]]; try discriminate Hl. change (reorder 1 [x; y]) with (Ok [x; y]). cbn [obind].
  destruct (Ptr a (or_introl eq_refl)) as (i & n & A & B), (Ptr b (or_intror (or_introl eq_refl))) as (i' & n' & A' & B').
  pose proof (Hr 0%nat a eq_refl) as R0. pose proof (Hr 1%nat b eq_refl) as R1. rewrite B in R0. rewrite B' in R1.
  injection R0 as <-. injection R1 as <-.
  unfold check_jacobian. cbn [flat_map gm_values]. rewrite !Nat2Z.id.
  pose proof (map_nth_error (node_coords 3) i nodes A) as N1. pose proof (map_nth_error (node_coords 3) i' nodes A') as N2.
  apply nth_error_nth with (d := []) in N1, N2. rewrite N1, N2.
  reflexivity.
Qed.
Print Assumptions C51_line_3d_refuted.

(** physical entities of different dimension may have the same number in gmsh; they become one group, and the second name
    is not found.  Here a line "left" and a triangle "domain", both with number 1. *)
Definition shared_nodes := [mkGnode 1 0 0 0; mkGnode 2 1 0 0; mkGnode 3 0 1 0].
Definition shared_names := [mkGname 1 1 "left"; mkGname 2 1 "domain"].
Definition shared_elems := [mkGelem 7 15 [5; 1]%Z [2]%Z; mkGelem 8 1 [1; 1]%Z [3; 1]%Z; mkGelem 9 2 [1; 1]%Z [1; 2; 3]%Z].

Lemma shared_dim : find_dimension shared_nodes = 2%nat.
Proof.
  unfold find_dimension, shared_nodes. cbn [fold_left gn_y gn_z].
  repeat match goal with |- context [Req_EM_T ?a ?b] => destruct (Req_EM_T a b) end; try lra; reflexivity.
Qed.
Lemma shared_creatable e : In e shared_elems -> node_count_ok e /\ (ge_type e = 15%Z \/ creatable shared_nodes 2 e).
Proof.
  intros [<- |[<- |[<- |[]]]]; (split; [reflexivity|]); [left; reflexivity| |]; right;
    (split; [cbn; tauto|]); (split; [discriminate|]); (split; [reflexivity|]); (split; [discriminate|]); split.
  - intros id [<- |[<- |[]]]; [exists (mkGnode 3 0 1 0)|exists (mkGnode 1 0 0 0)]; (split; [cbn; tauto|reflexivity]).
  - intros ip ns E Hr. cbn [ge_type element_interpolation] in E. injection E as <-.
    destruct Hr as (Hl & Hr). destruct ns as [|a [|b [|]]]; try discriminate Hl. cbn [ge_nodes ge_type] in Hr.
    assert (a = 2%Z /\ b = 0%Z) as (-> & ->).
    { destruct (Hr 0%nat a eq_refl) as (q & i & n & A & -> & B & C). destruct (Hr 1%nat b eq_refl) as (q' & i' & n' & A' & -> & B' & C').
      destruct q as [|[|q]]; [|exfalso; cbn in C; injection C as C; lra|destruct q; discriminate B].
      destruct q' as [|[|q']]; [exfalso; cbn in C'; injection C' as C'; lra| |destruct q'; discriminate B'].
      destruct i as [|[|[|i]]]; try (cbn in A; injection A as <-; cbn in B; discriminate B); [|destruct i; discriminate A].
      destruct i' as [|[|[|i']]]; try (cbn in A'; injection A' as <-; cbn in B'; discriminate B'); [|destruct i'; discriminate A']. split; reflexivity. }
    match goal with |- context [flat_map ?f ?l] => change (flat_map f l) with [0; 1; 0; 0] end.
    eexists. split; [unfold make_jacobian; cbn [truss_linear e_nodes e_dim truss_linear_nodes length Nat.eqb]; reflexivity|].
    cbn [jDet]. unfold det2, jacobian_matrix, norm2v. cbn -[Rmult Rplus Rminus Rdiv sqrt].
    match goal with |- context [sqrt ?x] => replace (sqrt x) with (1 / 2) end.
    + lra.
    + symmetry. apply sqrt_lem_1; lra.
  - intros id [<- |[<- |[<- |[]]]]; [exists (mkGnode 1 0 0 0)|exists (mkGnode 2 1 0 0)|exists (mkGnode 3 0 1 0)]; (split; [cbn; tauto|reflexivity]).
  - intros ip ns E Hr. cbn [ge_type element_interpolation] in E. injection E as <-.
    destruct Hr as (Hl & Hr). destruct ns as [|a [|b [|c [|]]]]; try discriminate Hl. cbn [ge_nodes ge_type] in Hr.
    assert (X : forall k x, nth_error [a; b; c] k = Some x -> x = Z.of_nat k).
    { intros k x Hk. destruct (Hr k x Hk) as (q & i & n & A & -> & B & C).
      assert (Q : q = k).
      { destruct k as [|[|[|k]]]; [| | |destruct k; discriminate Hk]; (destruct q as [|[|[|q]]]; [| | |destruct q; discriminate B]);
          try reflexivity; exfalso; cbn in C; injection C as C; lra. }
      subst q. f_equal. destruct i as [|[|[|i]]]; [| | |destruct i; discriminate A]; cbn in A; injection A as <-;
        (destruct k as [|[|[|k]]]; [| | |destruct k; discriminate B]); first [reflexivity|discriminate B]. }
    rewrite (X 0%nat a eq_refl), (X 1%nat b eq_refl), (X 2%nat c eq_refl).
    match goal with |- context [flat_map ?f ?l] => change (flat_map f l) with [0; 0; 1; 0; 0; 1] end.
    eexists. split; [unfold make_jacobian; cbn [triangle_linear e_nodes e_dim triangle_linear_nodes length Nat.eqb]; reflexivity|].
    cbn [jDet]. unfold det2, jacobian_matrix. cbn -[Rmult Rplus Rminus Rdiv]. lra.
Qed.

Theorem C51_shared_number_refuted : exists m, read_gmsh (ascii_file shared_names shared_nodes shared_elems) = Ok m
  /\ (exists g, group_by_name m "left" = Ok g /\ mData g = [0; 1]%Z) /\ group_by_name m "domain" = Throw.
Proof.
  destruct (create_mesh_spec shared_names shared_nodes shared_elems) as (m & Em & (Hv & Hel & Hg & (N1 & N2))).
  - repeat constructor; cbn; intuition discriminate.
  - rewrite shared_dim. intros e He. apply shared_creatable. exact He.
  - exists m. split.
    + unfold read_gmsh. rewrite read_ascii; [exact Em| |].
      * intros n [<- |[<- |[]]]; cbn; repeat split; discriminate.
      * intros e [<- |[<- |[<- |[]]]]; reflexivity.
    + assert (G : exists g, gm_groups m 1 = Some g /\ mData g = [0; 1]%Z).
      { specialize (Hg 1%Z). unfold group_of in Hg. destruct (gm_groups m 1) as [g|]; [|discriminate Hg].
        destruct Hg as (_ & Hd & _). exists g. split; [reflexivity|]. exact Hd. }
      destruct G as (g & G & Gd). split.
      * exists g. split; [|exact Gd]. unfold group_by_name. pose proof (N2 1%Z ltac:(congruence) ltac:(discriminate)) as X.
        change (group_name shared_names 1) with "left"%string in X. destruct (gm_named m (upper "left")) as [id|] eqn:Ev; [|congruence].
        destruct (N1 _ _ Ev) as (A & B & C). unfold group_name, shared_names in B. cbn [find gp_id] in B.
        destruct (Z.eqb_spec 1 id) as [<- |Hid]; [rewrite G; reflexivity|discriminate B].
      * unfold group_by_name. destruct (gm_named m (upper "domain")) as [id|] eqn:Ev; [|reflexivity].
        destruct (N1 _ _ Ev) as (A & B & C). unfold group_name, shared_names in B. cbn [find gp_id] in B.
        destruct (Z.eqb 1 id); discriminate B.
Qed.
Print Assumptions C51_shared_number_refuted.

(** a name with a space is cut at the space *)
Theorem C51_name_with_space_refuted s :
  omap fst (read_name ([TInt 2; TInt 1; TWord """left"; TWord "side"""; TEol] ++ s)) = Ok (mkGname 2 1 "left").
Proof. reflexivity. Qed.

(** ** The hypotheses of the theorems are met: a point, a line and a triangle *)
Example C51_example : exists m, read_gmsh (ascii_file [mkGname 2 1 "Plate"] shared_nodes shared_elems) = Ok m
  /\ gm_values m = [[0; 0]; [1; 0]; [0; 1]] /\ map fst (gm_elems m) = [1; 2]%Z
  /\ exists g, group_by_name m "plate" = Ok g /\ mData g = [0; 1]%Z.
Proof.
  assert (H1 : NoDup (map gn_id shared_nodes)) by (repeat constructor; cbn; intuition discriminate).
  assert (H2 : forall e, In e shared_elems -> node_count_ok e /\ (ge_type e = 15%Z \/ creatable shared_nodes (find_dimension shared_nodes) e)).
  { rewrite shared_dim. exact shared_creatable. }
  destruct (C51_reads_file_partial [mkGname 2 1 "Plate"] shared_nodes shared_elems _ (or_introl eq_refl)) as (m & Em & Hv & He & Hg); auto.
  { intros n [<- |[]]; cbn; repeat split; discriminate. }
  destruct (C51_named_groups [mkGname 2 1 "Plate"] shared_nodes shared_elems _ (or_introl eq_refl)) as (m' & Em' & Hn & _); auto.
  { intros n [<- |[]]; cbn; repeat split; discriminate. }
  { repeat constructor; auto. }
  { repeat constructor; auto. }
  rewrite Em in Em'. injection Em' as <-. exists m. split; [exact Em|]. rewrite shared_dim in Hv. split; [exact Hv|]. split.
  - change (mesh_elems shared_elems) with [mkGelem 8 1 [1; 1]%Z [3; 1]%Z; mkGelem 9 2 [1; 1]%Z [1; 2; 3]%Z] in He.
    inversion He as [|? x ? l (A & _) He']; subst. inversion He' as [|? y ? l' (B & _) He'']; subst. inversion He''; subst.
    cbn [map]. rewrite A, B. reflexivity.
  - rewrite (Hn (mkGname 2 1 "Plate") "plate"%string (or_introl eq_refl) eq_refl). exact (Hg 1%Z).
Qed.
