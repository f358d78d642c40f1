(** * Gmsh's MSH 2.2 file format, http://gmsh.info/doc/texinfo/gmsh.html (sections "MSH file format version 2" and "Node
    ordering"), independent of the reader *)
From Coq Require Import String Ascii List ZArith Reals.
From Verif Require Import Outcome CellModel InterpolationModel GmshModel.
Import ListNotations.
Local Open Scope R_scope.

Definition quote (w : string) : string := String """"%char (w ++ String """"%char EmptyString)%string.
Fixpoint no_quotes (w : string) : Prop :=
  match w with EmptyString => True | String a w' => a <> """"%char /\ no_quotes w' end.

Definition count {A} (l : list A) : Z := Z.of_nat (length l).
Definition header_text (binary : bool) : list token :=
  [TWord "$MeshFormat"; TEol; TReal (22 / 10); TInt (if binary then 1 else 0); TInt 8; TEol]
  ++ (if binary then [TBinInt 1; TEol] else []) ++ [TWord "$EndMeshFormat"; TEol].
Definition names_text (names : list gname) : list token :=
  [TWord "$PhysicalNames"; TEol; TInt (count names); TEol]
  ++ flat_map (fun n => [TInt (gp_dim n); TInt (gp_id n); TWord (quote (gp_name n)); TEol]) names
  ++ [TWord "$EndPhysicalNames"; TEol].

(** ASCII files *)
Definition nodes_text (nodes : list gnode) : list token :=
  [TWord "$Nodes"; TEol; TInt (count nodes); TEol]
  ++ flat_map (fun n => [TInt (gn_id n); TReal (gn_x n); TReal (gn_y n); TReal (gn_z n); TEol]) nodes
  ++ [TWord "$EndNodes"; TEol].
Definition elems_text (elems : list gelem) : list token :=
  [TWord "$Elements"; TEol; TInt (count elems); TEol]
  ++ flat_map (fun e => [TInt (ge_id e); TInt (ge_type e); TInt (count (ge_tags e))] ++ map TInt (ge_tags e)
                        ++ map TInt (ge_nodes e) ++ [TEol]) elems
  ++ [TWord "$EndElements"; TEol].
Definition ascii_file (names : list gname) (nodes : list gnode) (elems : list gelem) : list token :=
  header_text false ++ names_text names ++ nodes_text nodes ++ elems_text elems.

(** binary files: the elements are written in blocks of elements of the same type with the same number of tags *)
Definition nodes_binary (nodes : list gnode) : list token :=
  [TWord "$Nodes"; TEol; TInt (count nodes); TEol]
  ++ flat_map (fun n => [TBinInt (gn_id n); TBinReal (gn_x n); TBinReal (gn_y n); TBinReal (gn_z n)]) nodes
  ++ [TEol; TWord "$EndNodes"; TEol].
Definition block_binary (b : list gelem) : list token :=
  match b with
  | [] => []
  | e0 :: _ => [TBinInt (ge_type e0); TBinInt (count b); TBinInt (count (ge_tags e0))]
      ++ flat_map (fun e => [TBinInt (ge_id e)] ++ map TBinInt (ge_tags e) ++ map TBinInt (ge_nodes e)) b
  end.
Definition block_ok (b : list gelem) : Prop :=
  b <> [] /\ forall e f, In e b -> In f b -> ge_type e = ge_type f /\ count (ge_tags e) = count (ge_tags f).
Definition elems_binary (blocks : list (list gelem)) : list token :=
  [TWord "$Elements"; TEol; TInt (count (List.concat blocks)); TEol]
  ++ flat_map block_binary blocks ++ [TEol; TWord "$EndElements"; TEol].
Definition binary_file (names : list gname) (nodes : list gnode) (blocks : list (list gelem)) : list token :=
  header_text true ++ names_text names ++ nodes_binary nodes ++ elems_binary blocks.

(** the local coordinates of the nodes of the element types in gmsh's order *)
Definition mid (a b : list R) : list R := map (fun xy => (fst xy + snd xy) / 2) (combine a b).
Definition edges (v : list (list R)) (l : list (nat * nat)) : list (list R) := map (fun ab => mid (nth (fst ab) v []) (nth (snd ab) v [])) l.
Definition line_vertices := [[-1]; [1]].
Definition triangle_vertices := [[0; 0]; [1; 0]; [0; 1]].
Definition quad_vertices := [[-1; -1]; [1; -1]; [1; 1]; [-1; 1]].
Definition tetrahedron_vertices := [[0; 0; 0]; [1; 0; 0]; [0; 1; 0]; [0; 0; 1]].
Definition hexahedron_vertices := [[-1; -1; -1]; [1; -1; -1]; [1; 1; -1]; [-1; 1; -1]; [-1; -1; 1]; [1; -1; 1]; [1; 1; 1]; [-1; 1; 1]].
Definition prism_vertices := [[0; 0; -1]; [1; 0; -1]; [0; 1; -1]; [0; 0; 1]; [1; 0; 1]; [0; 1; 1]].
Definition pyramid_vertices := [[-1; -1; 0]; [1; -1; 0]; [1; 1; 0]; [-1; 1; 0]; [0; 0; 1]].
(** a node in the middle of a face is the middle of a diagonal *)
Definition gmsh_nodes (type : Z) : list (list R) :=
  (match type with
  | 1 => line_vertices
  | 2 => triangle_vertices
  | 3 => quad_vertices
  | 4 => tetrahedron_vertices
  | 5 => hexahedron_vertices
  | 6 => prism_vertices
  | 7 => pyramid_vertices
  | 8 => line_vertices ++ edges line_vertices [(0, 1)]%nat
  | 9 => triangle_vertices ++ edges triangle_vertices [(0, 1); (1, 2); (2, 0)]%nat
  | 10 => quad_vertices ++ edges quad_vertices [(0, 1); (1, 2); (2, 3); (3, 0); (0, 2)]%nat
  | 11 => tetrahedron_vertices ++ edges tetrahedron_vertices [(0, 1); (1, 2); (0, 2); (0, 3); (2, 3); (1, 3)]%nat
  | 12 => hexahedron_vertices ++ edges hexahedron_vertices
            [(0, 1); (0, 3); (0, 4); (1, 2); (1, 5); (2, 3); (2, 6); (3, 7); (4, 5); (4, 7); (5, 6); (6, 7);
             (0, 2); (0, 5); (0, 7); (1, 6); (2, 7); (4, 6); (0, 6)]%nat
  | 13 => prism_vertices ++ edges prism_vertices
            [(0, 1); (0, 2); (0, 3); (1, 2); (1, 4); (2, 5); (3, 4); (3, 5); (4, 5); (0, 4); (0, 5); (1, 5)]%nat
  | 16 => quad_vertices ++ edges quad_vertices [(0, 1); (1, 2); (2, 3); (3, 0)]%nat
  | _ => []
  end%Z).
(** the element types that the reader supports; 15 is a point *)
Definition supported : list Z := [1; 2; 3; 4; 5; 6; 7; 8; 9; 10; 11; 12; 13; 16]%Z.

(** points are not elements of the mesh *)
Definition mesh_elems (elems : list gelem) : list gelem := filter (fun e => negb (Z.eqb (ge_type e) 15)) elems.
(** the physical entity of an element is its first tag *)
Definition has_tag (id : Z) (e : gelem) : bool := match ge_tags e with t :: _ => Z.eqb t id | [] => false end.
(** the numbers of the elements with a tag, in the order of the file *)
Definition members (id : Z) (es : list gelem) : list Z :=
  map Z.of_nat (filter (fun j => match nth_error es j with Some e => has_tag id e | None => false end) (seq 0 (length es))).

(** the element has as many nodes as its type; 15 is a point *)
Definition node_count_ok (e : gelem) : Prop :=
  length (ge_nodes e) = if Z.eqb (ge_type e) 15 then 1%nat else length (gmsh_nodes (ge_type e)).

(** [ns] are the addresses of the nodes of [e] in the order of the interpolation [ip]: each node has the id that the file
    gives for the local coordinates of the node *)
Definition node_rel (nodes : list gnode) (e : gelem) (ip : element) (ns : list Z) : Prop :=
  length ns = length (ge_nodes e)
  /\ forall k a, nth_error ns k = Some a -> exists q i n, nth_error nodes i = Some n /\ a = Z.of_nat i
       /\ nth_error (ge_nodes e) q = Some (gn_id n) /\ nth k (e_nodes ip) [] = nth q (gmsh_nodes (ge_type e)) [].

(** the nodes of an element that exist, with positive Jacobian in the centre *)
Definition creatable (nodes : list gnode) (dim : nat) (e : gelem) : Prop :=
  In (ge_type e) supported /\ ge_type e <> 7%Z /\ node_count_ok e /\ ge_tags e <> []
  /\ (forall id, In id (ge_nodes e) -> exists n, In n nodes /\ gn_id n = id)
  /\ (forall ip ns, element_interpolation (ge_type e) = Ok ip -> node_rel nodes e ip ns ->
        exists jac, make_jacobian (flat_map (fun a => nth (Z.to_nat a) (map (node_coords dim) nodes) []) ns) (length (e_nodes ip)) (e_dim ip)
           (fun k j => nth j (nth k (e_deriv ip (fun _ => 0)) []) 0) = Ok jac /\ 0 < jDet jac).

(** an element of the mesh: type and nodes *)
Definition elem_rel (nodes : list gnode) (e : gelem) (x : Z * list Z) : Prop :=
  fst x = ge_type e /\ exists ip, element_interpolation (ge_type e) = Ok ip /\ node_rel nodes e ip (snd x).
