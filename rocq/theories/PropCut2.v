(** * C114: Gmsh files that end inside of the section of the nodes or of the elements *)
From Coq Require Import String Ascii List ZArith Arith Reals Lra Lia.
From Verif Require Import Outcome GmshModel GmshSpec GmshProofs GmshProofs2.
Import ListNotations.
Local Open Scope R_scope.
Local Open Scope nat_scope.

(** reading a cut text fails, or it has used up the text *)
Definition short {A} (o : outcome (A * list token)) : Prop := match o with Ok (_, r) => r = [] | _ => True end.
Definition fails {A} (o : outcome A) : Prop := forall a, o <> Ok a.

Lemma firstn_app_cases {A} k (a b : list A) : (k < length a /\ firstn k (a ++ b) = firstn k a) \/ (length a <= k /\ firstn k (a ++ b) = a ++ firstn (k - length a) b).
Proof.
  rewrite firstn_app. destruct (Nat.lt_ge_cases k (length a)) as [H|H].
  - left. split; [exact H|]. replace (k - length a) with 0 by lia. cbn [firstn]. apply app_nil_r.
  - right. split; [exact H|]. rewrite firstn_all2 by exact H. reflexivity.
Qed.

Lemma read_n_short {A} (f : list token -> outcome (A * list token)) : short (f []) -> forall n, short (read_n f n []).
Proof.
  intros H n. induction n as [|n IH]; cbn [read_n]; [reflexivity|]. destruct (f []) as [[x r]| |]; try exact I. cbn [short] in H. subst r. cbn [obind].
  destruct (read_n f n []) as [[y r]| |]; cbn [obind]; exact IH.
Qed.
Lemma read_n_cut {A} (f : list token -> outcome (A * list token)) (enc : A -> list token) (l : list A) :
  short (f []) -> (forall a s, In a l -> f (enc a ++ s) = Ok (a, s)) ->
  (forall a k, In a l -> k < length (enc a) -> short (f (firstn k (enc a)))) ->
  forall k, short (read_n f (length l) (firstn k (flat_map enc l))).
Proof.
  intros H0. induction l as [|a l IH]; intros H1 H2 k; cbn [length read_n flat_map]; [rewrite firstn_nil; reflexivity|].
  destruct (firstn_app_cases k (enc a) (flat_map enc l)) as [(Hk & ->)|(Hk & ->)].
  - pose proof (H2 a k (or_introl eq_refl) Hk) as S. destruct (f (firstn k (enc a))) as [[x r]| |]; cbn [obind]; try exact I. cbn [short] in S. subst r.
    pose proof (read_n_short f H0 (length l)) as S. destruct (read_n f (length l) []) as [[y r]| |]; cbn [obind]; exact S.
  - rewrite H1 by (left; reflexivity). cbn [obind].
    assert (S : short (read_n f (length l) (firstn (k - length (enc a)) (flat_map enc l)))) by (apply IH; intros; [apply H1|apply H2]; auto; right; auto).
    destruct (read_n f (length l) _) as [[y r]| |]; cbn [obind]; exact S.
Qed.
Lemma read_vector_cut {A} (f : list token -> outcome (A * list token)) (enc : A -> list token) (l : list A) k :
  short (f []) -> (forall a s, In a l -> f (enc a ++ s) = Ok (a, s)) ->
  (forall a k, In a l -> k < length (enc a) -> short (f (firstn k (enc a)))) ->
  short (read_vector f (count l) (firstn k (flat_map enc l))).
Proof.
  intros. unfold read_vector. destruct (Z.ltb _ 0); [exact I|]. unfold count. rewrite Nat2Z.id. apply read_n_cut; assumption.
Qed.
(** lists of numbers *)
Lemma read_ints_cut l k : short (read_vector read_int_or0 (count l) (firstn k (map TInt l))).
Proof.
  rewrite map_flat. apply read_vector_cut; [reflexivity|reflexivity|].
  intros a [|j] _ Hj; [reflexivity|cbn in Hj; lia].
Qed.
Lemma read_ints_none num : short (read_vector read_int_or0 num []).
Proof. unfold read_vector. destruct (Z.ltb num 0); [exact I|]. apply read_n_short. reflexivity. Qed.

Lemma read_node_cut n k : k < 5 -> short (read_node (firstn k [TInt (gn_id n); TReal (gn_x n); TReal (gn_y n); TReal (gn_z n); TEol])).
Proof. intros H. do 5 (destruct k as [|k]; [try exact I; reflexivity|]). lia. Qed.

Lemma read_elem_cut e : elem_ok e -> forall k, let t := [TInt (ge_id e); TInt (ge_type e); TInt (count (ge_tags e))] ++ map TInt (ge_tags e) ++ map TInt (ge_nodes e) ++ [TEol] in
  k < length t -> short (read_elem (firstn k t)).
Proof.
  intros Ok k t Hk. unfold t in *. clear t. rewrite !app_length, !map_length in Hk. cbn [length] in Hk.
  do 3 (destruct k as [|k]; [exact I|]). cbn [app firstn]. unfold read_elem. cbn [read_int obind then_used at_end forallb andb].
  destruct (firstn_app_cases k (map TInt (ge_tags e)) (map TInt (ge_nodes e) ++ [TEol])) as [(H1 & ->)|(H1 & ->)].
  - pose proof (read_ints_cut (ge_tags e) k) as S. destruct (read_vector read_int_or0 _ _) as [[x r]| |]; cbn [obind]; try exact I. cbn [short] in S. subst r.
    destruct (num_nodes (ge_type e)) as [num| |]; cbn [obind]; try exact I. pose proof (read_ints_none num) as S.
    destruct (read_vector read_int_or0 num []) as [[y r]| |]; cbn [obind]; try exact I. cbn [short] in S. subst r. reflexivity.
  - rewrite read_ints by reflexivity. cbn [obind]. unfold elem_ok in Ok. rewrite Ok. cbn [obind]. rewrite map_length in *.
    destruct (firstn_app_cases (k - length (ge_tags e)) (map TInt (ge_nodes e)) [TEol]) as [(H2 & ->)|(H2 & ->)].
    + pose proof (read_ints_cut (ge_nodes e) (k - length (ge_tags e))) as S. destruct (read_vector read_int_or0 _ _) as [[x r]| |]; cbn [obind]; try exact I.
      cbn [short] in S. subst r. reflexivity.
    + rewrite map_length in H2 |- *. replace (k - length (ge_tags e) - length (ge_nodes e)) with 0 by lia. cbn [firstn].
      rewrite read_ints by reflexivity. reflexivity.
Qed.

(** a section: keyword, number of entries, entries, end *)
Lemma section_cut {A} (f : list token -> outcome (A * list token)) (enc : A -> list token) (l : list A) (close : string) k :
  short (f []) -> (forall a s, In a l -> f (enc a ++ s) = Ok (a, s)) ->
  (forall a k, In a l -> k < length (enc a) -> short (f (firstn k (enc a)))) ->
  let t := [TInt (count l); TEol] ++ flat_map enc l ++ [TWord close; TEol] in
  k < length t - 1 ->
  fails (let '(line, s) := getline (firstn k t) in obind (stoi line) (fun n => obind (read_vector f n s) (fun '(x, s) => obind (expect close s) (fun s => Ok (x, s))))).
Proof.
  intros H0 H1 H2 t Hk a. unfold t in *. clear t. rewrite !app_length in Hk. cbn [length] in Hk.
  destruct k as [|k]; [discriminate|]. cbn [app firstn getline].
  assert (E : forall s, short (read_vector f (count l) s) ->
    obind (read_vector f (count l) s) (fun '(x, s) => obind (expect close s) (fun s => Ok (x, s))) <> Ok a).
  { intros s S. destruct (read_vector f (count l) s) as [[x r]| |]; cbn [obind]; try discriminate. cbn [short] in S. subst r. discriminate. }
  assert (E0 : short (read_vector f (count l) [])).
  { pose proof (read_vector_cut f enc l 0 H0 H1 H2) as S. exact S. }
  destruct k as [|k]; [cbn [firstn getline stoi obind]; apply E; exact E0|]. cbn [firstn getline stoi obind].
  destruct (firstn_app_cases k (flat_map enc l) [TWord close; TEol]) as [(H3 & ->)|(H3 & ->)].
  - apply E. apply read_vector_cut; assumption.
  - replace (k - length (flat_map enc l)) with 0 by lia. cbn [firstn].
    rewrite (read_vector_enc f enc l) by (auto). cbn [obind]. discriminate.
Qed.

Lemma nodes_section nodes k : k < length (nodes_text nodes) - 3 -> fails (read_nodes_ascii (firstn k (skipn 2 (nodes_text nodes)))).
Proof.
  intros H. unfold read_nodes_ascii. apply (section_cut read_node (fun n => [TInt (gn_id n); TReal (gn_x n); TReal (gn_y n); TReal (gn_z n); TEol])).
  - exact I.
  - intros n s _. unfold read_node. cbn [app read_int read_real obind getline snd]. destruct n; reflexivity.
  - intros n j _ Hj. apply read_node_cut. exact Hj.
  - unfold nodes_text in H. rewrite !app_length in *. cbn [length] in *. lia.
Qed.
Lemma elems_section elems k : (forall e, In e elems -> elem_ok e) -> k < length (elems_text elems) - 3 -> fails (read_elements_ascii (firstn k (skipn 2 (elems_text elems)))).
Proof.
  intros Ok H. unfold read_elements_ascii.
  apply (section_cut read_elem (fun e => [TInt (ge_id e); TInt (ge_type e); TInt (count (ge_tags e))] ++ map TInt (ge_tags e) ++ map TInt (ge_nodes e) ++ [TEol])).
  - exact I.
  - intros e s' Hin. unfold read_elem. cbn [app read_int obind then_used at_end forallb andb]. rewrite <- !app_assoc.
    rewrite read_ints by reflexivity. cbn [obind]. rewrite (Ok e Hin). cbn [obind].
    rewrite read_ints by reflexivity. cbn [obind app getline snd]. destruct e; reflexivity.
  - intros e j He Hj. apply read_elem_cut; auto.
  - unfold elems_text in H. rewrite !app_length in *. cbn [length] in *. lia.
Qed.

Lemma process_cut (kw : string) (sect : list token) k fuel c :
  0 < k -> hd_error sect = Some (TWord kw) -> nth_error sect 1 = Some TEol ->
  (kw = "$Nodes" /\ fails (read_nodes_ascii (firstn (k - 2) (skipn 2 sect))) \/
   kw = "$Elements" /\ fails (read_elements_ascii (firstn (k - 2) (skipn 2 sect))))%string ->
  fails (process fuel false (firstn k sect) c).
Proof.
  intros Hk H1 H2 H a. destruct sect as [|w [|e sect]]; try discriminate. injection H1 as ->. injection H2 as ->.
  destruct fuel as [|fuel]; [destruct k; [lia|discriminate]|].
  assert (G : exists r, getline (firstn k (TWord kw :: TEol :: sect)) = ([TWord kw], r) /\ r = firstn (k - 2) sect).
  { destruct k as [|[|k]]; [lia|exists []; split; reflexivity|]. exists (firstn k sect). replace (S (S k) - 2) with k by lia. split; reflexivity. }
  destruct G as (r & G & Er). cbn [skipn] in H. rewrite <- Er in H.
  assert (N : firstn k (TWord kw :: TEol :: sect) <> []) by (destruct k; [lia|discriminate]).
  destruct (firstn k (TWord kw :: TEol :: sect)) as [|x y] eqn:Ef; [congruence|]. cbn [process]. rewrite G. cbv iota.
  destruct H as [(-> & F)|(-> & F)].
  - change (prefix "$PhysicalNames" "$Nodes") with false. change (prefix "$Nodes" "$Nodes") with true. cbv iota.
    destruct (read_nodes_ascii r) as [z| |]; cbn [obind]; try discriminate. destruct (F z eq_refl).
  - change (prefix "$PhysicalNames" "$Elements") with false. change (prefix "$Nodes" "$Elements") with false. change (prefix "$Elements" "$Elements") with true. cbv iota.
    destruct (read_elements_ascii r) as [z| |]; cbn [obind]; try discriminate. destruct (F z eq_refl).
Qed.

(** A file that ends inside of the section of the nodes or of the elements - after its first token and before its closing keyword -
    is never read as a mesh.  Partial: a file that ends between two sections is, see C114_gmsh_refuted. *)
Theorem C114_gmsh_partial names nodes elems file k : (forall n, In n names -> no_quotes (gp_name n)) ->
  (forall e, In e elems -> node_count_ok e /\ (ge_type e = 15%Z \/ In (ge_type e) supported)) ->
  (file = header_text false ++ names_text names ++ firstn k (nodes_text nodes) /\ 0 < k < length (nodes_text nodes) - 1) \/
  (file = header_text false ++ names_text names ++ nodes_text nodes ++ firstn k (elems_text elems) /\ 0 < k < length (elems_text elems) - 1) ->
  forall m, read_gmsh file <> Ok m.
Proof.
  intros Hn He Hf m. unfold read_gmsh. assert (F : fails (read_content file)).
  { unfold read_content. assert (L2 : forall l : list token, 2 <= length l -> 0 < k < length l - 1 -> k - 2 < length l - 3 \/ k = 1 \/ k = 2) by lia.
    destruct Hf as [(-> & Hk)|(-> & Hk)]; rewrite read_header_spec; cbn [obind];
      match goal with |- fails (process (length (header_text ?b ++ ?r)) _ _ _) => generalize (header_length b r); generalize (length (header_text b ++ r)) end;
      intros fuel Hfu; destruct fuel as [|[|[|fuel]]]; try lia; rewrite process_names by exact Hn.
    - apply (process_cut "$Nodes"); [lia|reflexivity|reflexivity|]. left. split; [reflexivity|]. apply nodes_section. unfold nodes_text in *. rewrite !app_length in *. cbn [length] in *. lia.
    - rewrite process_nodes. apply (process_cut "$Elements"); [lia|reflexivity|reflexivity|]. right. split; [reflexivity|]. apply elems_section; [intros e Hin; destruct (He e Hin) as (A & B); apply count_elem_ok; [destruct B as [B|B]; [left; symmetry; exact B|right; exact B]|exact A]|].
      unfold elems_text in *. rewrite !app_length in *. cbn [length] in *. lia. }
  destruct (read_content file) as [c| |]; cbn [obind]; try discriminate. destruct (F c eq_refl).
Qed.
Print Assumptions C114_gmsh_partial.

Example C114_gmsh_case : exists (names : list gname) (nodes : list gnode) (elems : list gelem) k, (forall e, In e elems -> node_count_ok e /\ (ge_type e = 15%Z \/ In (ge_type e) supported)) /\
  (forall n, In n names -> no_quotes (gp_name n)) /\ length nodes = 3 /\ length elems = 1 /\ 0 < k < length (elems_text elems) - 1.
Proof.
  exists [mkGname 2 1 "a"], [mkGnode 1 0 0 0; mkGnode 2 1 0 0; mkGnode 3 0 1 0]%Z%R, [mkGelem 1 2 [1; 1] [1; 2; 3]]%Z, 5.
  split; [intros e [<-|[]]; split; [reflexivity|right; cbn; auto]|]. split; [intros n [<-|[]]; cbn; split; [discriminate|exact I]|]. split; [reflexivity|]. split; [reflexivity|cbn; lia].
Qed.
