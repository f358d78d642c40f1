(** * Model of nuto/mechanics/mesh/MeshGmsh.cpp

    A file is a list of tokens.  [>>] skips white space and line ends, [getline] takes the rest of the line.
    Simplifications: [double] is modelled by the reals; the conversion of a text to a number is not modelled, a number in
    the file is a token.  A failed [>>] sets the fail bit, after which the next ExpectNextLineToBe reads an empty line and
    throws: the model throws at once.  Binary data is a token per int or double; reading another number of bytes than was
    written gives unspecified values, here [UB]. *)
From Coq Require Import String Ascii List ZArith Arith Reals.
From Verif Require Import Outcome AdaptiveModel CellModel InterpolationModel LobattoModel GroupModel.
Import ListNotations.
Local Open Scope R_scope.

Inductive token := TInt (z : Z) | TReal (x : R) | TWord (w : string) | TEol | TBinInt (z : Z) | TBinReal (x : R).

(** GmshNode, GmshElement, GmshPhysicalNames, GmshFileContent, MeshGmsh.cpp:36-64 *)
Record gnode := mkGnode { gn_id : Z; gn_x : R; gn_y : R; gn_z : R }.
Record gelem := mkGelem { ge_id : Z; ge_type : Z; ge_tags : list Z; ge_nodes : list Z }.
Record gname := mkGname { gp_dim : Z; gp_id : Z; gp_name : string }.
Record content := mkContent { cdim : nat; cnodes : list gnode; celems : list gelem; cnames : list gname }.

(** std::getline *)
Fixpoint getline (s : list token) : list token * list token :=
  match s with
  | [] => ([], [])
  | TEol :: r => ([], r)
  | t :: r => let '(l, r') := getline r in (t :: l, r')
  end.

(** [file >> int], [file >> double], [file >> string] *)
Fixpoint read_int (s : list token) : outcome (Z * list token) :=
  match s with TEol :: r => read_int r | TInt z :: r => Ok (z, r) | _ => Throw end.
Fixpoint read_real (s : list token) : outcome (R * list token) :=
  match s with TEol :: r => read_real r | TReal x :: r => Ok (x, r) | TInt z :: r => Ok (IZR z, r) | _ => Throw end.
Fixpoint read_word (s : list token) : outcome (string * list token) :=
  match s with TEol :: r => read_word r | TWord w :: r => Ok (w, r) | _ => Throw end.
(** [file.read(&i, sizeof(int))], [file.read(&x, sizeof(double))]: at the end of the file the variable keeps its value
    [old], [None] if it has none yet; it is used afterwards.  Other text in place of the number is not modelled, nor is a
    file that ends within the bytes of a number. *)
Definition read_bin_int (old : option Z) (s : list token) : outcome (Z * list token) :=
  match s with TBinInt z :: r => Ok (z, r) | [] => match old with Some z => Ok (z, []) | None => UB end | _ => UB end.
Definition read_bin_real (old : R) (s : list token) : outcome (R * list token) :=
  match s with TBinReal x :: r => Ok (x, r) | [] => Ok (old, []) | _ => UB end.

(** a loop that fills a vector of n entries *)
Fixpoint read_n {A} (f : list token -> outcome (A * list token)) (n : nat) (s : list token) : outcome (list A * list token) :=
  match n with
  | O => Ok ([], s)
  | S n' => obind (f s) (fun '(a, s1) => obind (read_n f n' s1) (fun '(l, s2) => Ok (a :: l, s2)))
  end.
(** [std::vector v(n)], [resize(n)]: a negative size throws *)
Definition read_vector {A} (f : list token -> outcome (A * list token)) (n : Z) (s : list token) : outcome (list A * list token) :=
  if Z.ltb n 0 then Throw else read_n f (Z.to_nat n) s.

(** [std::stoi(line)] *)
Definition stoi (line : list token) : outcome Z := match line with TInt z :: _ => Ok z | _ => Throw end.

(** ExpectNextLineToBe, lines 76-82 *)
Definition expect (w : string) (s : list token) : outcome (list token) :=
  let '(l, r) := getline s in
  match l with TWord v :: _ => if prefix w v then Ok r else Throw | _ => Throw end.

(** nothing but line ends is left: [>>] leaves its variable unchanged *)
Definition at_end (s : list token) : bool := forallb (fun t => match t with TEol => true | _ => false end) s.

(** a number that is zero before, or is not used *)
Definition read_int_or0 (s : list token) : outcome (Z * list token) := if at_end s then Ok (0%Z, []) else read_int s.

(** ReadGmshHeader, lines 95-130: is the file binary?  The version and the number [binary] have no value before they are
    read *)
Definition read_header (s : list token) : outcome (bool * list token) :=
  let '(_, s) := getline s in
  if at_end s then UB else
  obind (read_real s) (fun '(version, s) =>
  if at_end s then UB else
  obind (read_int s) (fun '(binary, s) =>
  obind (read_int_or0 s) (fun '(_, s) =>
  let '(_, s) := getline s in
  if rltb version 2 then Throw else
  obind (if Z.eqb binary 0 then Ok s else
         obind (read_bin_int None s) (fun '(one, s) => if Z.eqb one 1 then Ok (snd (getline s)) else Throw)) (fun s =>
  obind (expect "$EndMeshFormat" s) (fun s => Ok (Z.eqb binary 1, s)))))).

(** FindDimension, lines 132-146 *)
Definition find_dimension (nodes : list gnode) : nat :=
  let '(is2d, is3d) := fold_left (fun '(a, b) n =>
    (orb a (if Req_EM_T (gn_y n) 0 then false else true), orb b (if Req_EM_T (gn_z n) 0 then false else true))) nodes (false, false) in
  if is3d then 3%nat else if is2d then 2%nat else 1%nat.

(** NumNodes, lines 148-155: another index is out of range *)
Definition num_nodes_table : list Z :=
  [0; 2; 3; 4; 4; 8; 6; 5; 3; 6; 9; 10; 27; 18; 14; 1; 8; 20; 15; 13; 9; 10; 12; 15; 15; 21; 4; 5; 6; 20; 26; 56]%Z.
Definition num_nodes (type : Z) : outcome Z :=
  if Z.ltb type 0 then UB else match nth_error num_nodes_table (Z.to_nat type) with Some n => Ok n | None => UB end.

(** ReadNodesASCII, lines 157-174 *)
Definition read_node (s : list token) : outcome (gnode * list token) :=
  obind (read_int s) (fun '(id, s) =>
  obind (read_real s) (fun '(x, s) => obind (read_real s) (fun '(y, s) => obind (read_real s) (fun '(z, s) =>
    Ok (mkGnode id x y z, snd (getline s)))))).
Definition read_nodes_ascii (s : list token) : outcome (list gnode * list token) :=
  let '(line, s) := getline s in
  obind (stoi line) (fun n =>
  obind (read_vector read_node n s) (fun '(nodes, s) =>
  obind (expect "$EndNodes" s) (fun s => Ok (nodes, s)))).

(** a failed extraction after which [numTags], which has no value of its own, is used *)
Definition then_used {A} (o : outcome A) : outcome A := match o with Ok a => Ok a | _ => UB end.
(** ReadElementsASCII, lines 176-203.  Simplified: a word in place of a number after [numTags] ends the reading with an
    exception at once; the code finishes the element first. *)
Definition read_elem (s : list token) : outcome (gelem * list token) :=
  obind (then_used (read_int s)) (fun '(id, s) =>
  obind (then_used (read_int s)) (fun '(type, s) =>
  if at_end s then UB else
  obind (read_int s) (fun '(numTags, s) =>
  obind (read_vector read_int_or0 numTags s) (fun '(tags, s) =>
  obind (num_nodes type) (fun num =>
  obind (read_vector read_int_or0 num s) (fun '(nodes, s) =>
    Ok (mkGelem id type tags nodes, snd (getline s)))))))).
Definition read_elements_ascii (s : list token) : outcome (list gelem * list token) :=
  let '(line, s) := getline s in
  obind (stoi line) (fun n =>
  obind (read_vector read_elem n s) (fun '(elems, s) =>
  obind (expect "$EndElements" s) (fun s => Ok (elems, s)))).

(** ReadNodesBinary, lines 205-223; the nodes of the vector are zero before they are read *)
Definition read_node_binary (s : list token) : outcome (gnode * list token) :=
  obind (read_bin_int (Some 0%Z) s) (fun '(id, s) =>
  obind (read_bin_real 0 s) (fun '(x, s) => obind (read_bin_real 0 s) (fun '(y, s) => obind (read_bin_real 0 s) (fun '(z, s) =>
    Ok (mkGnode id x y z, s))))).
Definition read_nodes_binary (s : list token) : outcome (list gnode * list token) :=
  obind (read_int s) (fun '(n, s) =>
  obind (read_vector read_node_binary n (snd (getline s))) (fun '(nodes, s) =>
  obind (expect "$EndNodes" (snd (getline s))) (fun s => Ok (nodes, s)))).

(** ReadElementsBinary, lines 225-287.  The inner loop: [elements[elemCount] = ...; elemCount += indexH] *)
Definition default_elem : gelem := mkGelem 0 0 [] [].
Definition set_elem (l : list gelem) (i : nat) (e : gelem) : list gelem := firstn i l ++ e :: skipn (S i) l.
Fixpoint read_block (type numTags num : Z) (hs : list nat) (s : list token) (elems : list gelem) (count : nat)
  : outcome (list token * list gelem * nat) :=
  match hs with
  | [] => Ok (s, elems, count)
  | h :: hs' =>
    if Nat.leb (length elems) count then UB else
    obind (read_bin_int (Some 0%Z) s) (fun '(id, s) =>
    obind (read_vector (read_bin_int (Some 0%Z)) numTags s) (fun '(tags, s) =>
    obind (read_vector (read_bin_int (Some 0%Z)) num s) (fun '(nodes, s) =>
      read_block type numTags num hs' s (set_elem elems count (mkGelem id type tags nodes)) (count + h))))
  end.
(** the outer loop; [fuel] is the number of elements, each iteration increases elemCount.  The three numbers of the header
    are declared without a value before the loop, [old]. *)
Fixpoint read_blocks (fuel : nat) (old : option Z * option Z * option Z) (s : list token) (elems : list gelem) (count : nat) : outcome (list token * list gelem) :=
  if Nat.leb (length elems) count then Ok (s, elems) else
  match fuel with
  | O => UB
  | S fuel' =>
    obind (read_bin_int (fst (fst old)) s) (fun '(type, s) =>
    obind (read_bin_int (snd (fst old)) s) (fun '(follow, s) =>
    obind (read_bin_int (snd old) s) (fun '(numTags, s) =>
    obind (num_nodes type) (fun num =>
    obind (read_block type numTags num (seq 0 (Z.to_nat follow)) s elems count) (fun '(s, elems, count) =>
      read_blocks fuel' (Some type, Some follow, Some numTags) s elems (S count))))))
  end.
Definition read_elements_binary (s : list token) : outcome (list gelem * list token) :=
  obind (read_int s) (fun '(n, s) =>
  if Z.ltb n 0 then Throw else
  obind (read_blocks (Z.to_nat n) (None, None, None) (snd (getline s)) (repeat default_elem (Z.to_nat n)) 0) (fun '(s, elems) =>
  obind (expect "$EndElements" (snd (getline s))) (fun s => Ok (elems, s)))).

(** ReadPhysicalNames, lines 290-312; the quotation marks are removed *)
Fixpoint remove_quotes (w : string) : string :=
  match w with
  | EmptyString => EmptyString
  | String a w' => if Ascii.eqb a """"%char then remove_quotes w' else String a (remove_quotes w')
  end.
Definition read_name (s : list token) : outcome (gname * list token) :=
  obind (read_int s) (fun '(dim, s) => obind (read_int s) (fun '(id, s) => obind (read_word s) (fun '(w, s) =>
    Ok (mkGname dim id (remove_quotes w), snd (getline s))))).
Definition read_names (s : list token) : outcome (list gname * list token) :=
  let '(line, s) := getline s in
  obind (stoi line) (fun n =>
  obind (read_vector read_name n s) (fun '(names, s) =>
  obind (expect "$EndPhysicalNames" s) (fun s => Ok (names, s)))).

(** ProcessSection, lines 314-347, in the loop of ReadGmshFile, lines 541-542; each round consumes a token *)
Fixpoint process (fuel : nat) (binary : bool) (s : list token) (c : content) : outcome content :=
  match s with
  | [] => Ok c
  | _ =>
    match fuel with
    | O => UB
    | S fuel' =>
      let '(l, s) := getline s in
      match l with
      | [] => process fuel' binary s c
      | TWord w :: _ =>
        if prefix "$PhysicalNames" w then
          obind (read_names s) (fun '(names, s) => process fuel' binary s (mkContent (cdim c) (cnodes c) (celems c) names))
        else if prefix "$Nodes" w then
          obind (if binary then read_nodes_binary s else read_nodes_ascii s) (fun '(nodes, s) =>
            process fuel' binary s (mkContent (find_dimension nodes) nodes (celems c) (cnames c)))
        else if prefix "$Elements" w then
          obind (if binary then read_elements_binary s else read_elements_ascii s) (fun '(elems, s) =>
            process fuel' binary s (mkContent (cdim c) (cnodes c) elems (cnames c)))
        else Throw
      | _ => Throw
      end
    end
  end.
Definition read_content (s : list token) : outcome content :=
  obind (read_header s) (fun '(binary, s') => process (length s) binary s' (mkContent 1 [] [] [])).

(** CreateElementInterpolation, lines 350-385.  The Lobatto nodes of second order are -1, 0, 1 (C39, C33). *)
Definition lobatto2 : list R := [-1; 0; 1].
Definition truss_lobatto2 : element :=
  {| e_dim := 1; e_nodes := map (fun x => [x]) lobatto2; e_shape := fun c => lobatto_shape (c 0%nat) lobatto2;
     e_deriv := fun c => map (fun x => [x]) (lobatto_deriv (c 0%nat) lobatto2) |}.
Definition quad_lobatto2 : element :=
  {| e_dim := 2; e_nodes := map (fun i => quad_coords i lobatto2) (seq 0 9); e_shape := fun c => quad_shape (c 0%nat) (c 1%nat) lobatto2;
     e_deriv := fun c => quad_deriv (c 0%nat) (c 1%nat) lobatto2 |}.
Definition brick_lobatto2 : element :=
  {| e_dim := 3; e_nodes := map (fun i => brick_coords i lobatto2) (seq 0 27);
     e_shape := fun c => brick_shape (c 0%nat) (c 1%nat) (c 2%nat) lobatto2;
     e_deriv := fun c => brick_deriv (c 0%nat) (c 1%nat) (c 2%nat) lobatto2 |}.
Definition element_interpolation (type : Z) : outcome element :=
  match type with
  | 1 => Ok truss_linear | 2 => Ok triangle_linear | 3 => Ok quad_linear | 4 => Ok tetrahedron_linear
  | 5 => Ok brick_linear | 6 => Ok prism_linear | 7 => Ok pyramid_linear | 8 => Ok truss_lobatto2
  | 9 => Ok triangle_quadratic | 10 => Ok quad_lobatto2 | 11 => Ok tetrahedron_quadratic | 12 => Ok brick_lobatto2
  | 13 => Ok prism_quadratic | 16 => Ok quad_serendipity | _ => Throw
  end%Z.

(** GetElementNodes, lines 387-428: the new position of each node *)
Definition reordering (type : Z) (num : nat) : list nat :=
  (if Z.eqb type 8 then [0; 2; 1]
   else if Z.eqb type 10 then [0; 4; 1; 7; 8; 5; 3; 6; 2]
   else if Z.eqb type 12 then [0; 8; 1; 9; 20; 11; 3; 13; 2; 10; 21; 12; 22; 26; 23; 15; 24; 14; 4; 16; 5; 17; 25; 18; 7; 19; 6]
   else seq 0 num)%nat.
(** [nodePtrs.at(id)] throws; [old[reordering[i]]] is in range for elements with the right number of nodes *)
Definition lookup_nodes (nodePtrs : Z -> option Z) (ids : list Z) : outcome (list Z) :=
  fold_right (fun id acc => match nodePtrs id with Some a => obind acc (fun l => Ok (a :: l)) | None => Throw end) (Ok []) ids.
Definition reorder (type : Z) (old : list Z) : outcome (list Z) :=
  fold_right (fun i acc => match nth_error old i with Some a => obind acc (fun l => Ok (a :: l)) | None => UB end)
    (Ok []) (reordering type (length old)).

(** the mesh: values of the nodes by address (index of the node in mMesh.Nodes), elements (type and node addresses) by
    address (index), physical groups by id, ids of the named groups *)
Record gmesh := mkGmesh { gm_values : list (list R); gm_elems : list (Z * list Z); gm_groups : Z -> option group;
                          gm_named : string -> option Z }.

(** CreateNodes, lines 465-478 *)
Definition node_coords (dim : nat) (n : gnode) : list R := firstn dim [gn_x n; gn_y n; gn_z n].
Definition node_map (nodes : list gnode) : Z -> option Z :=
  snd (fold_left (fun '(i, m) n => ((i + 1)%Z, fun id => if Z.eqb id (gn_id n) then Some i else m id)) nodes (0%Z, fun _ => None)).

(** CheckJacobian, lines 87-93: at the local point 0 *)
Definition check_jacobian (values : Z -> list R) (ip : element) (nodes : list Z) : outcome unit :=
  let dN := e_deriv ip (fun _ => 0) in
  obind (make_jacobian (flat_map values nodes) (length dN) (e_dim ip) (fun k j => nth j (nth k dN []) 0)) (fun jac =>
    if rleb (jDet jac) 0 then Throw else Ok tt).

(** ::toupper *)
Definition upper_ascii (a : ascii) : ascii :=
  let n := nat_of_ascii a in if andb (Nat.leb 97 n) (Nat.leb n 122) then ascii_of_nat (n - 32) else a.
Fixpoint upper (w : string) : string := match w with EmptyString => EmptyString | String a w' => String (upper_ascii a) (upper w') end.

(** GetPhysicalGroupName, lines 431-437 *)
Definition group_name (names : list gname) (id : Z) : string :=
  match find (fun n => Z.eqb (gp_id n) id) names with Some n => gp_name n | None => EmptyString end.

(** AddElementToPhysicalGroup, lines 508-531; [emplace] keeps an existing entry *)
Definition add_to_group (names : list gname) (m : gmesh) (elem : Z) (id : Z) : outcome gmesh :=
  match gm_groups m id with
  | Some g =>
    match group_add g elem with
    | Some g' => Ok (mkGmesh (gm_values m) (gm_elems m) (fun i => if Z.eqb i id then Some g' else gm_groups m i) (gm_named m))
    | None => UB
    end
  | None =>
    match group_add group_empty elem with
    | Some g' =>
      let w := upper (group_name names id) in
      let named := if String.eqb w EmptyString then gm_named m
                   else fun v => match gm_named m v with Some i => Some i | None => if String.eqb v w then Some id else None end in
      Ok (mkGmesh (gm_values m) (gm_elems m) (fun i => if Z.eqb i id then Some g' else gm_groups m i) named)
    | None => UB
    end
  end.

(** CreateElements, lines 481-505; [tags[0]] of an element without tags is out of range *)
Definition create_element (names : list gname) (nodePtrs : Z -> option Z) (m : gmesh) (e : gelem) : outcome gmesh :=
  if Z.eqb (ge_type e) 15 then Ok m else
  obind (element_interpolation (ge_type e)) (fun ip =>
  obind (lookup_nodes nodePtrs (ge_nodes e)) (fun old =>
  obind (reorder (ge_type e) old) (fun nodes =>
  let m' := mkGmesh (gm_values m) (gm_elems m ++ [(ge_type e, nodes)]) (gm_groups m) (gm_named m) in
  obind (check_jacobian (fun a => nth (Z.to_nat a) (gm_values m) []) ip nodes) (fun _ =>
  match ge_tags e with
  | [] => UB
  | tag :: _ => add_to_group names m' (Z.of_nat (length (gm_elems m))) tag
  end)))).
Fixpoint create_elements (names : list gname) (nodePtrs : Z -> option Z) (m : gmesh) (es : list gelem) : outcome gmesh :=
  match es with [] => Ok m | e :: es' => obind (create_element names nodePtrs m e) (fun m' => create_elements names nodePtrs m' es') end.

(** CreateMesh, lines 533-536, and ReadGmshFile, lines 539-550 *)
Definition create_mesh (c : content) : outcome gmesh :=
  create_elements (cnames c) (node_map (cnodes c))
    (mkGmesh (map (node_coords (cdim c)) (cnodes c)) [] (fun _ => None) (fun _ => None)) (celems c).
Definition read_gmsh (s : list token) : outcome gmesh := obind (read_content s) create_mesh.

(** GetPhysicalGroup, lines 447-463 *)
Definition group_by_id (m : gmesh) (id : Z) : outcome group := match gm_groups m id with Some g => Ok g | None => Throw end.
Definition group_by_name (m : gmesh) (name : string) : outcome group :=
  match gm_named m (upper name) with
  | Some id => match gm_groups m id with Some g => Ok g | None => UB end
  | None => Throw
  end.
