(** * C114: binary Gmsh files that end early, and files that end inside of the header *)
From Coq Require Import String Ascii List ZArith Arith Reals Lra Lia.
From Verif Require Import Outcome AdaptiveModel AdaptiveProofs GmshModel GmshSpec GmshProofs GmshProofs2 PropCut2.
Import ListNotations.
Local Open Scope R_scope.
Local Open Scope nat_scope.

(** reading a cut file goes on with the values the variables have, nothing is left *)
Definition exhausts {A} (o : outcome (A * list token)) : Prop := exists a, o = Ok (a, []).

Lemma read_n_end {A} (f : list token -> outcome (A * list token)) : exhausts (f []) -> forall n, exhausts (read_n f n []).
Proof. intros (a & H) n. induction n as [|n (l & IH)]; [exists []; reflexivity|]. cbn [read_n]. rewrite H. cbn [obind]. rewrite IH. eexists. reflexivity. Qed.
Lemma read_n_exhausts {A} (f : list token -> outcome (A * list token)) (enc : A -> list token) (l : list A) :
  exhausts (f []) -> (forall a s, In a l -> f (enc a ++ s) = Ok (a, s)) ->
  (forall a k, In a l -> k < length (enc a) -> exhausts (f (firstn k (enc a)))) ->
  forall k, exhausts (read_n f (length l) (firstn k (flat_map enc l))).
Proof.
  intros H0. induction l as [|a l IH]; intros H1 H2 k; cbn [length read_n flat_map]; [rewrite firstn_nil; exists []; reflexivity|].
  destruct (firstn_app_cases k (enc a) (flat_map enc l)) as [(Hk & ->)|(Hk & ->)].
  - destruct (H2 a k (or_introl eq_refl) Hk) as (x & ->). cbn [obind]. destruct (read_n_end f H0 (length l)) as (y & ->). eexists. reflexivity.
  - rewrite H1 by (left; reflexivity). cbn [obind].
    destruct (IH (fun a s H => H1 a s (or_intror H)) (fun a k H => H2 a k (or_intror H)) (k - length (enc a))) as (y & ->). eexists. reflexivity.
Qed.
Lemma read_vector_end {A} (f : list token -> outcome (A * list token)) n : (0 <= n)%Z -> exhausts (f []) -> exhausts (read_vector f n []).
Proof. intros Hn H. unfold read_vector. destruct (Z.ltb_spec n 0); [lia|]. apply read_n_end. exact H. Qed.
Lemma read_vector_exhausts {A} (f : list token -> outcome (A * list token)) (enc : A -> list token) (l : list A) k :
  exhausts (f []) -> (forall a s, In a l -> f (enc a ++ s) = Ok (a, s)) ->
  (forall a k, In a l -> k < length (enc a) -> exhausts (f (firstn k (enc a)))) ->
  exhausts (read_vector f (count l) (firstn k (flat_map enc l))).
Proof.
  intros. unfold read_vector. destruct (Z.ltb_spec (count l) 0) as [L|L]; [unfold count in L; lia|].
  unfold count. rewrite Nat2Z.id. apply read_n_exhausts; assumption.
Qed.
Lemma bin_int_end : exhausts (read_bin_int (Some 0%Z) []).
Proof. eexists. reflexivity. Qed.
Lemma bin_ints_end n : (0 <= n)%Z -> exhausts (read_vector (read_bin_int (Some 0%Z)) n []).
Proof. intros H. apply read_vector_end; [exact H|apply bin_int_end]. Qed.
Lemma bin_ints_cut l k : exhausts (read_vector (read_bin_int (Some 0%Z)) (count l) (firstn k (map TBinInt l))).
Proof.
  rewrite map_flat. apply read_vector_exhausts; [apply bin_int_end|reflexivity|].
  intros a [|j] _ Hj; [apply bin_int_end|cbn in Hj; lia].
Qed.

(** ** the section of the nodes *)
Lemma nodes_binary_cut nodes k : 0 < k < length (nodes_binary nodes) - 1 -> read_nodes_binary (firstn (k - 2) (skipn 2 (nodes_binary nodes))) = Throw.
Proof.
  intros Hk. unfold nodes_binary in *. rewrite !app_length in Hk. cbn [length] in Hk. cbn [app skipn].
  destruct (k - 2) as [|[|j]] eqn:E; [reflexivity| |].
  - cbn [firstn]. unfold read_nodes_binary. cbn [read_int obind getline snd].
    destruct (read_vector_end read_node_binary (count nodes)) as (y & ->); [unfold count; lia|eexists; reflexivity|reflexivity].
  - cbn [firstn]. unfold read_nodes_binary. cbn [read_int obind getline snd].
    match goal with |- context [flat_map ?e nodes ++ _] => set (enc := e) in * end.
    assert (X : forall i, exhausts (read_vector read_node_binary (count nodes) (firstn i (flat_map enc nodes)))).
    { intros i. apply read_vector_exhausts.
      - eexists. reflexivity.
      - intros n s _. destruct n. reflexivity.
      - intros n i' _ Hi'. do 4 (destruct i' as [|i']; [eexists; reflexivity|]). cbn in Hi'. lia. }
    destruct (firstn_app_cases j (flat_map enc nodes) [TEol; TWord "$EndNodes"; TEol]) as [(H1 & ->)|(H1 & ->)].
    + destruct (X j) as (y & ->). reflexivity.
    + rewrite (read_vector_enc read_node_binary enc nodes); [|reflexivity|intros n s _; destruct n; reflexivity].
      cbn [obind]. destruct (j - length (flat_map enc nodes)) as [|[|i]] eqn:Ei; [reflexivity|reflexivity|lia].
Qed.

(** ** the section of the elements *)
Lemma body_cut type nt num e s elems c : (0 <= nt)%Z -> (0 <= num)%Z -> c < length elems ->
  s = [] \/ (nt = count (ge_tags e) /\ num = count (ge_nodes e) /\ exists k, s = firstn k ([TBinInt (ge_id e)] ++ map TBinInt (ge_tags e) ++ map TBinInt (ge_nodes e))) ->
  exists x, read_block type nt num [0] s elems c = Ok ([], set_elem elems c x, c).
Proof.
  intros Ht Hn Hc Hs. cbn [read_block]. destruct (Nat.leb_spec (length elems) c); [lia|]. rewrite Nat.add_0_r.
  assert (X0 : exists x, obind (read_bin_int (Some 0%Z) []) (fun '(id, s) => obind (read_vector (read_bin_int (Some 0%Z)) nt s) (fun '(tags, s) =>
     obind (read_vector (read_bin_int (Some 0%Z)) num s) (fun '(nodes, s) => Ok (s, set_elem elems c (mkGelem id type tags nodes), c)))) = Ok ([], set_elem elems c x, c)).
  { cbn [read_bin_int obind]. destruct (bin_ints_end nt Ht) as (a & ->). cbn [obind]. destruct (bin_ints_end num Hn) as (b & ->). eexists. reflexivity. }
  destruct Hs as [-> |(-> & -> & k & ->)]; [exact X0|]. destruct k as [|k]; [exact X0|]. cbn [app firstn read_bin_int obind].
  destruct (firstn_app_cases k (map TBinInt (ge_tags e)) (map TBinInt (ge_nodes e))) as [(H1 & ->)|(H1 & ->)].
  - destruct (bin_ints_cut (ge_tags e) k) as (a & ->). cbn [obind]. destruct (bin_ints_end _ Hn) as (b & ->). eexists. reflexivity.
  - rewrite read_bin_ints by reflexivity. cbn [obind]. destruct (bin_ints_cut (ge_nodes e) (k - length (map TBinInt (ge_tags e)))) as (b & ->). eexists. reflexivity.
Qed.

Definition old_ok (old : option Z * option Z * option Z) : Prop :=
  exists e nt, elem_ok e /\ (0 <= nt)%Z /\ old = (Some (ge_type e), Some 1%Z, Some nt).

Lemma set_elem_done (done : list gelem) e rest x : set_elem (done ++ x :: rest) (length done) e = (done ++ [e]) ++ rest.
Proof. rewrite set_elem_app, <- app_assoc. reflexivity. Qed.

Lemma blocks_cut : forall elems done old fuel k, (forall e, In e elems -> elem_ok e) -> length elems <= fuel ->
  old_ok old \/ elems = [] \/ 3 <= k ->
  exists out, read_blocks fuel old (firstn k (flat_map (fun e => block_binary [e]) elems)) (done ++ repeat default_elem (length elems)) (length done) = Ok ([], out).
Proof.
  induction elems as [|e elems IH]; intros done old fuel k He Hf Hold.
  - cbn [flat_map repeat length]. rewrite firstn_nil, app_nil_r. destruct fuel; cbn [read_blocks]; rewrite Nat.leb_refl; eexists; reflexivity.
  - destruct fuel as [|fuel]; [cbn in Hf; lia|]. cbn [length repeat].
    set (rest := repeat default_elem (length elems)) in *.
    assert (Lc : length done < length (done ++ default_elem :: rest)) by (rewrite app_length; cbn [length]; lia).
    assert (G : forall e' nt s, elem_ok e' -> (0 <= nt)%Z -> s = [] \/ (nt = count (ge_tags e) /\ e' = e /\ exists k, s = firstn k ([TBinInt (ge_id e)] ++ map TBinInt (ge_tags e) ++ map TBinInt (ge_nodes e))) ->
      exists out, obind (num_nodes (ge_type e')) (fun num => obind (read_block (ge_type e') nt num (seq 0 (Z.to_nat 1)) s (done ++ default_elem :: rest) (length done)) (fun '(s, elems, count) =>
        read_blocks fuel (Some (ge_type e'), Some 1%Z, Some nt) s elems (S count))) = Ok ([], out)).
    { intros e' nt s Oe Hnt Hs. rewrite Oe. cbn [obind]. change (seq 0 (Z.to_nat 1)) with [0].
      destruct (body_cut (ge_type e') nt (count (ge_nodes e')) e s (done ++ default_elem :: rest) (length done) Hnt) as (x & ->); [unfold count; lia|exact Lc| |].
      { destruct Hs as [Hs|(Hs & -> & Hs')]; [left; exact Hs|right; auto]. }
      cbn [obind]. rewrite set_elem_done. destruct (IH (done ++ [x]) (Some (ge_type e'), Some 1%Z, Some nt) fuel 0) as (out & E);
        [intros e1 H1; apply He; right; exact H1|cbn in Hf; lia|left; exists e', nt; auto|].
      rewrite app_length, Nat.add_1_r in E. cbn [firstn] in E. exists out. exact E. }
    assert (Ht : (0 <= count (ge_tags e))%Z) by (unfold count; lia). pose proof (He e (or_introl eq_refl)) as Oe.
    cbn [read_blocks]. destruct (Nat.leb_spec (length (done ++ default_elem :: rest)) (length done)) as [L|_]; [lia|].
    cbn [flat_map block_binary]. change (count [e]) with 1%Z. rewrite app_nil_r.
    match goal with |- context [firstn k (?b ++ ?r)] => destruct (firstn_app_cases k b r) as [(H1 & ->)|(H1 & ->)] end.
    + destruct k as [|[|[|k]]].
      * destruct Hold as [(e0 & nt & O1 & O2 & ->)|[C|C]]; [|discriminate|lia]. cbn [firstn fst snd read_bin_int obind]. apply (G e0 nt []); auto.
      * destruct Hold as [(e0 & nt & O1 & O2 & ->)|[C|C]]; [|discriminate|lia]. cbn [app firstn fst snd read_bin_int obind]. apply (G e nt []); auto.
      * destruct Hold as [(e0 & nt & O1 & O2 & ->)|[C|C]]; [|discriminate|lia]. cbn [app firstn fst snd read_bin_int obind]. apply (G e nt []); auto.
      * cbn [app firstn fst snd read_bin_int obind]. apply (G e (count (ge_tags e)) (firstn k ([TBinInt (ge_id e)] ++ map TBinInt (ge_tags e) ++ map TBinInt (ge_nodes e)))); [exact Oe|exact Ht|].
        right. split; [reflexivity|]. split; [reflexivity|]. exists k. reflexivity.
    + rewrite <- !app_assoc. cbn [app read_bin_int obind fst snd]. rewrite Oe. cbn [obind]. change (seq 0 (Z.to_nat 1)) with [0]. cbn [read_block].
      destruct (Nat.leb_spec (length (done ++ default_elem :: rest)) (length done)) as [L|_]; [lia|].
      rewrite <- ?app_comm_cons, <- ?app_assoc. cbn [app read_bin_int obind]. rewrite read_bin_ints by reflexivity. cbn [obind].
      rewrite read_bin_ints by reflexivity. cbn [obind]. rewrite set_elem_done, Nat.add_0_r.
      replace (mkGelem (ge_id e) (ge_type e) (ge_tags e) (ge_nodes e)) with e by (destruct e; reflexivity).
      match goal with |- context [firstn ?j (flat_map _ elems)] => destruct (IH (done ++ [e]) (Some (ge_type e), Some 1%Z, Some (count (ge_tags e))) fuel j) as (out & E) end;
        [intros e1 H2; apply He; right; exact H2|cbn in Hf; lia|left; exists e, (count (ge_tags e)); auto|].
      rewrite app_length, Nat.add_1_r in E. exists out. exact E.
Qed.

Lemma elems_binary_cut elems k : (forall e, In e elems -> elem_ok e) -> 0 < k < length (elems_binary (map (fun e => [e]) elems)) - 1 ->
  elems = [] \/ k < 3 \/ 7 <= k -> read_elements_binary (firstn (k - 2) (skipn 2 (elems_binary (map (fun e => [e]) elems)))) = Throw.
Proof.
  intros He Hk Hc. unfold elems_binary in *. rewrite !app_length in Hk. cbn [length] in Hk. cbn [app skipn]. rewrite concat_singles. rewrite flat_map_map in *.
  assert (E : Z.ltb (count elems) 0 = false) by (apply Z.ltb_ge; unfold count; lia).
  destruct (k - 2) as [|[|j]] eqn:Ek; [reflexivity| |].
  - cbn [firstn]. unfold read_elements_binary. cbn [read_int obind getline snd]. rewrite E. destruct Hc as [-> |Hc]; [reflexivity|lia].
  - cbn [firstn]. unfold read_elements_binary. cbn [read_int obind getline snd]. rewrite E. unfold count. rewrite Nat2Z.id.
    match goal with |- context [firstn j (?l ++ ?c)] => destruct (firstn_app_cases j l c) as [(H1 & ->)|(H1 & ->)] end.
    + destruct (blocks_cut elems [] (None, None, None) (length elems) j He (le_n _)) as (out & X).
      { destruct Hc as [-> |Hc]; [right; left; reflexivity|right; right; lia]. }
      cbn [app length] in X. rewrite X. reflexivity.
    + rewrite (read_single_blocks elems _ He [] (None, None, None) (length elems) (le_n _)). cbn [obind].
      match goal with |- context [firstn ?i [TEol; _; _]] => destruct i as [|[|q]] eqn:Ei; [reflexivity|reflexivity|lia] end.
Qed.
(** the header of the first block is cut *)
Lemma elems_binary_ub elems k : (forall e, In e elems -> elem_ok e) -> elems <> [] -> 3 <= k < 7 ->
  read_elements_binary (firstn (k - 2) (skipn 2 (elems_binary (map (fun e => [e]) elems)))) = UB.
Proof.
  intros He Hne Hk. unfold elems_binary in *. cbn [app skipn]. rewrite concat_singles. rewrite flat_map_map in *.
  assert (E : Z.ltb (count elems) 0 = false) by (apply Z.ltb_ge; unfold count; lia).
  destruct elems as [|e elems]; [congruence|]. cbn [flat_map block_binary]. rewrite <- !app_assoc. cbn [app].
  destruct k as [|[|[|k]]]; try lia. replace (S (S (S k)) - 2) with (S k) by lia.
  unfold read_elements_binary. cbn [firstn read_int obind]. rewrite E. unfold count. rewrite Nat2Z.id. cbn [length repeat].
  do 4 (destruct k as [|k]; [reflexivity|]). lia.
Qed.

(** ** one section of a file *)
Lemma section_start kw rest k : 0 < k -> getline (firstn k (TWord kw :: TEol :: rest)) = ([TWord kw], firstn (k - 2) rest)
  /\ firstn k (TWord kw :: TEol :: rest) <> [].
Proof.
  intros Hk. destruct k as [|[|k]]; [lia|split; [reflexivity|discriminate]|]. replace (S (S k) - 2) with k by lia. split; [reflexivity|discriminate].
Qed.
Lemma process_nodes_at fuel b rest k c : 0 < k ->
  process (S fuel) b (firstn k (TWord "$Nodes" :: TEol :: rest)) c =
  obind (if b then read_nodes_binary (firstn (k - 2) rest) else read_nodes_ascii (firstn (k - 2) rest)) (fun '(nodes, s) =>
    process fuel b s (mkContent (find_dimension nodes) nodes (celems c) (cnames c))).
Proof.
  intros Hk. destruct (section_start "$Nodes" rest k Hk) as (G & N). destruct (firstn k (TWord "$Nodes" :: TEol :: rest)) as [|x y]; [congruence|].
  cbn [process]. rewrite G. cbv iota.
  change (prefix "$PhysicalNames" "$Nodes") with false. change (prefix "$Nodes" "$Nodes") with true. reflexivity.
Qed.
Lemma process_elems_at fuel b rest k c : 0 < k ->
  process (S fuel) b (firstn k (TWord "$Elements" :: TEol :: rest)) c =
  obind (if b then read_elements_binary (firstn (k - 2) rest) else read_elements_ascii (firstn (k - 2) rest)) (fun '(elems, s) =>
    process fuel b s (mkContent (cdim c) (cnodes c) elems (cnames c))).
Proof.
  intros Hk. destruct (section_start "$Elements" rest k Hk) as (G & N). destruct (firstn k (TWord "$Elements" :: TEol :: rest)) as [|x y]; [congruence|].
  cbn [process]. rewrite G. cbv iota.
  change (prefix "$PhysicalNames" "$Elements") with false. change (prefix "$Nodes" "$Elements") with false. change (prefix "$Elements" "$Elements") with true. reflexivity.
Qed.

(** elements with the right number of nodes for their type *)
Definition elems_valid (elems : list gelem) : Prop :=
  forall e, In e elems -> node_count_ok e /\ (ge_type e = 15%Z \/ In (ge_type e) supported).
Lemma elems_valid_ok elems : elems_valid elems -> forall e, In e elems -> elem_ok e.
Proof. intros H e He. destruct (H e He) as (A & B). apply count_elem_ok; [destruct B as [B|B]; [left; symmetry; exact B|right; exact B]|exact A]. Qed.

Ltac to_section := unfold read_gmsh, read_content; rewrite read_header_spec; cbn [obind];
  match goal with |- context [process (length (header_text ?b ++ ?r))] => generalize (header_length b r); generalize (length (header_text b ++ r)) end;
  intros fuel Hfu; destruct fuel as [|[|[|fuel]]]; try lia; rewrite process_names by assumption.

(** A binary file that ends inside of the section of the nodes, or of the elements outside of the header of the first block, is
    rejected with an exception.  Partial: the header of the first block, see C114_gmsh_binary_refuted, blocks of several
    elements, whose reading is wrong anyway (C51_binary_block_refuted), and files that end within the bytes of a number. *)
Theorem C114_gmsh_binary_partial names nodes elems file k : (forall n, In n names -> no_quotes (gp_name n)) -> elems_valid elems ->
  let blocks := map (fun e => [e]) elems in
  (file = header_text true ++ names_text names ++ firstn k (nodes_binary nodes) /\ 0 < k < length (nodes_binary nodes) - 1) \/
  (file = header_text true ++ names_text names ++ nodes_binary nodes ++ firstn k (elems_binary blocks) /\ 0 < k < length (elems_binary blocks) - 1
   /\ (elems = [] \/ k < 3 \/ 7 <= k)) ->
  read_gmsh file = Throw.
Proof.
  intros Hn He blocks Hf. pose proof (elems_valid_ok elems He) as Ho.
  destruct Hf as [(-> & Hk)|(-> & Hk & Hc)]; to_section.
  - change (nodes_binary nodes) with (TWord "$Nodes" :: TEol :: skipn 2 (nodes_binary nodes)). rewrite process_nodes_at by lia.
    rewrite nodes_binary_cut by exact Hk. reflexivity.
  - rewrite process_nodes_binary. change (elems_binary blocks) with (TWord "$Elements" :: TEol :: skipn 2 (elems_binary blocks)).
    rewrite process_elems_at by lia. unfold blocks. rewrite elems_binary_cut; [reflexivity|exact Ho|exact Hk|exact Hc].
Qed.
Print Assumptions C114_gmsh_binary_partial.

(** if the file ends before the three numbers of the first block are complete, the reader goes on with numbers that it has
    never read *)
Theorem C114_gmsh_binary_refuted names nodes elems k : (forall n, In n names -> no_quotes (gp_name n)) -> elems_valid elems -> elems <> [] -> 3 <= k < 7 ->
  read_gmsh (header_text true ++ names_text names ++ nodes_binary nodes ++ firstn k (elems_binary (map (fun e => [e]) elems))) = UB.
Proof.
  intros Hn He Hne Hk. pose proof (elems_valid_ok elems He) as Ho. to_section. rewrite process_nodes_binary.
  change (elems_binary (map (fun e => [e]) elems)) with (TWord "$Elements" :: TEol :: skipn 2 (elems_binary (map (fun e => [e]) elems))).
  rewrite process_elems_at by lia. rewrite elems_binary_ub; [reflexivity|exact Ho|exact Hne|exact Hk].
Qed.
Print Assumptions C114_gmsh_binary_refuted.

(** ** ASCII files: the elements *)
Definition elem_line (e : gelem) : list token :=
  [TInt (ge_id e); TInt (ge_type e); TInt (count (ge_tags e))] ++ map TInt (ge_tags e) ++ map TInt (ge_nodes e) ++ [TEol].
Lemma int_or0_end : exhausts (read_int_or0 []).
Proof. eexists. reflexivity. Qed.
Lemma ints_end n : (0 <= n)%Z -> exhausts (read_vector read_int_or0 n []).
Proof. intros H. apply read_vector_end; [exact H|apply int_or0_end]. Qed.
Lemma ints_cut l k : exhausts (read_vector read_int_or0 (count l) (firstn k (map TInt l))).
Proof.
  rewrite map_flat. apply read_vector_exhausts; [apply int_or0_end|reflexivity|].
  intros a [|j] _ Hj; [apply int_or0_end|cbn in Hj; lia].
Qed.
Lemma elem_line_cut e k : elem_ok e -> k < length (elem_line e) ->
  (k < 3 -> read_elem (firstn k (elem_line e)) = UB) /\ (3 <= k -> exhausts (read_elem (firstn k (elem_line e)))).
Proof.
  intros Ok Hk. unfold elem_line in *. split; intros H; [do 3 (destruct k as [|k]; [reflexivity|]); lia|].
  do 3 (destruct k as [|k]; [lia|]). rewrite !app_length, !map_length in Hk. cbn [length] in Hk.
  assert (N : (0 <= count (ge_nodes e))%Z) by (unfold count; lia).
  cbn [app firstn]. unfold read_elem. cbn [read_int obind then_used at_end forallb andb].
  destruct (firstn_app_cases k (map TInt (ge_tags e)) (map TInt (ge_nodes e) ++ [TEol])) as [(H1 & ->)|(H1 & ->)].
  - destruct (ints_cut (ge_tags e) k) as (a & ->). cbn [obind]. rewrite Ok. cbn [obind]. destruct (ints_end _ N) as (b & ->). eexists. reflexivity.
  - rewrite read_ints by reflexivity. cbn [obind]. rewrite Ok. cbn [obind]. rewrite map_length in *.
    destruct (firstn_app_cases (k - length (ge_tags e)) (map TInt (ge_nodes e)) [TEol]) as [(H2 & ->)|(H2 & ->)].
    + destruct (ints_cut (ge_nodes e) (k - length (ge_tags e))) as (b & ->). eexists. reflexivity.
    + rewrite map_length in *. replace (k - length (ge_tags e) - length (ge_nodes e)) with 0 by lia. cbn [firstn].
      rewrite read_ints by reflexivity. eexists. reflexivity.
Qed.
Lemma read_elem_line e s : elem_ok e -> read_elem (elem_line e ++ s) = Ok (e, s).
Proof.
  intros Ok. unfold elem_line, read_elem. cbn [app read_int obind then_used at_end forallb andb]. rewrite <- !app_assoc.
  rewrite read_ints by reflexivity. cbn [obind]. rewrite Ok. cbn [obind].
  rewrite read_ints by reflexivity. cbn [obind app getline snd]. destruct e; reflexivity.
Qed.
(** numTags of the last element is not read *)
Lemma elems_ascii_ub : forall before e rest k, (forall x, In x (before ++ [e]) -> elem_ok x) -> k <= length (flat_map elem_line before) + 2 ->
  read_n read_elem (length (before ++ [e])) (firstn k (flat_map elem_line (before ++ [e]) ++ rest)) = UB.
Proof.
  induction before as [|a before IH]; intros e rest k Ho Hk.
  - cbn [app length flat_map read_n] in *. do 3 (destruct k as [|k]; [reflexivity|]). lia.
  - cbn [app length flat_map read_n] in *. rewrite <- app_assoc. rewrite app_length in Hk.
    destruct (firstn_app_cases k (elem_line a) (flat_map elem_line (before ++ [e]) ++ rest)) as [(H1 & ->)|(H1 & ->)].
    + destruct (elem_line_cut a k (Ho a (or_introl eq_refl)) H1) as (U & X). destruct (Nat.lt_ge_cases k 3) as [L|L]; [rewrite U by exact L; reflexivity|].
      destruct (X L) as (x & ->). cbn [obind]. rewrite app_length. cbn [length]. rewrite Nat.add_1_r. reflexivity.
    + rewrite read_elem_line by (apply Ho; left; reflexivity). cbn [obind]. rewrite IH; [reflexivity|intros x Hx; apply Ho; right; exact Hx|lia].
Qed.
Lemma elems_ascii_throw : forall before e rest k, (forall x, In x (before ++ [e]) -> elem_ok x) ->
  length (flat_map elem_line before) + 3 <= k -> k <= length (flat_map elem_line (before ++ [e])) ->
  exhausts (read_n read_elem (length (before ++ [e])) (firstn k (flat_map elem_line (before ++ [e]) ++ rest))).
Proof.
  induction before as [|a before IH]; intros e rest k Ho H1 H2.
  - cbn [app length flat_map read_n] in *. rewrite app_nil_r in *. pose proof (Ho e (or_introl eq_refl)) as Oe.
    destruct (firstn_app_cases k (elem_line e) rest) as [(H3 & ->)|(H3 & ->)].
    + destruct (elem_line_cut e k Oe H3) as (_ & X). destruct (X ltac:(lia)) as (x & ->). eexists. reflexivity.
    + replace (k - length (elem_line e)) with 0 by lia. rewrite read_elem_line by exact Oe. eexists. reflexivity.
  - cbn [app length flat_map read_n] in *. rewrite <- app_assoc. rewrite app_length in H1, H2.
    destruct (firstn_app_cases k (elem_line a) (flat_map elem_line (before ++ [e]) ++ rest)) as [(H3 & _)|(H3 & ->)]; [lia|].
    rewrite read_elem_line by (apply Ho; left; reflexivity). cbn [obind].
    destruct (IH e rest (k - length (elem_line a))) as (x & ->); [intros x Hx; apply Ho; right; exact Hx|lia|lia|]. eexists. reflexivity.
Qed.

(** In an ASCII file the number of tags of an element is used even if the file ends before it: undefined behaviour as long as the
    first three numbers of the last element are not there; if they are, the missing end of the section is noticed. *)
Theorem C114_gmsh_ascii_elements_refuted names nodes before e k : (forall n, In n names -> no_quotes (gp_name n)) -> elems_valid (before ++ [e]) ->
  let file := header_text false ++ names_text names ++ nodes_text nodes ++ firstn k (elems_text (before ++ [e])) in
  (3 <= k <= length (elems_text before) -> read_gmsh file = UB) /\
  (length (elems_text before) < k < length (elems_text (before ++ [e])) - 1 -> read_gmsh file = Throw).
Proof.
  intros Hn He file. pose proof (elems_valid_ok _ He) as Ho.
  assert (L : forall l, length (elems_text l) = 4 + length (flat_map elem_line l) + 2).
  { intros l. unfold elems_text. rewrite !app_length. cbn [length]. unfold elem_line. lia. }
  assert (X : forall j, 3 <= S (S (S j)) -> elems_text (before ++ [e]) = TWord "$Elements" :: TEol :: TInt (count (before ++ [e])) :: TEol :: flat_map elem_line (before ++ [e]) ++ [TWord "$EndElements"; TEol]) by reflexivity.
  assert (Rv : forall s, read_vector read_elem (count (before ++ [e])) s = read_n read_elem (length (before ++ [e])) s).
  { intros s. unfold read_vector. destruct (Z.ltb_spec (count (before ++ [e])) 0) as [C|C]; [unfold count in C; lia|]. unfold count. rewrite Nat2Z.id. reflexivity. }
  split; intros Hk; rewrite ?L in Hk; unfold file; to_section; rewrite process_nodes; rewrite (X 0 ltac:(lia)); rewrite process_elems_at by lia; unfold read_elements_ascii.
  - destruct k as [|[|[|k]]]; try lia. replace (S (S (S k)) - 2) with (S k) by lia. destruct k as [|k].
    + cbn [firstn getline stoi obind]. rewrite Rv. rewrite app_length, Nat.add_1_r. reflexivity.
    + cbn [firstn getline stoi obind]. rewrite Rv. rewrite elems_ascii_ub; [reflexivity|exact Ho|lia].
  - destruct k as [|[|[|[|k]]]]; try lia. replace (S (S (S (S k))) - 2) with (S (S k)) by lia. cbn [firstn getline stoi obind]. rewrite Rv.
    destruct (Nat.le_gt_cases k (length (flat_map elem_line (before ++ [e])))) as [H|H]; [|lia].
    destruct (elems_ascii_throw before e [TWord "$EndElements"; TEol] k Ho ltac:(lia) H) as (x & ->). reflexivity.
Qed.
Print Assumptions C114_gmsh_ascii_elements_refuted.

(** ** the header: an empty file, or one that ends before its version and kind, is read with a version that has no value *)
Theorem C114_gmsh_header_refuted b k : k <= 3 -> read_gmsh (firstn k (header_text b)) = UB.
Proof. intros H. do 4 (destruct k as [|k]; [destruct b; reflexivity|]). lia. Qed.
Print Assumptions C114_gmsh_header_refuted.
(** a file that ends later in the header is rejected; in a binary file that ends before its byte order mark that mark is
    compared without a value *)
Theorem C114_gmsh_header_partial k :
  (4 <= k < length (header_text false) - 1 -> read_gmsh (firstn k (header_text false)) = Throw) /\
  (4 <= k < 7 -> read_gmsh (firstn k (header_text true)) = UB) /\
  (7 <= k < length (header_text true) - 1 -> read_gmsh (firstn k (header_text true)) = Throw).
Proof.
  assert (V : rltb (22 / 10) 2 = false) by (destruct (rltb_spec (22 / 10) 2) as [(_ & H)|(-> & _)]; [lra|reflexivity]).
  unfold read_gmsh, read_content, read_header, header_text. cbn [app length].
  split; [|split]; intros H; do 9 (destruct k as [|k]; [first [lia|
    cbn [app firstn getline at_end forallb andb read_real obind read_int read_int_or0]; rewrite V; reflexivity]|]); lia.
Qed.
Print Assumptions C114_gmsh_header_partial.

(** three nodes and two triangles: the binary file ends in the second triangle, the ASCII file in the first *)
Example C114_gmsh_cut_case : exists (names : list gname) (nodes : list gnode) (a b : gelem) k1 k2, elems_valid ([a] ++ [b]) /\
  (forall n, In n names -> no_quotes (gp_name n)) /\ length nodes = 4 /\ 7 <= k1 < length (elems_binary (map (fun e => [e]) [a; b])) - 1 /\
  3 <= k2 <= length (elems_text [a]).
Proof.
  exists [mkGname 2 1 "a"], [mkGnode 1 0 0 0; mkGnode 2 1 0 0; mkGnode 3 0 1 0; mkGnode 4 1 1 0]%Z%R, (mkGelem 1 2 [1; 1] [1; 2; 3])%Z, (mkGelem 2 2 [1; 1] [2; 4; 3])%Z, 15, 8.
  split; [intros e [<-|[<-|[]]]; (split; [reflexivity|right; cbn; auto])|]. split; [intros n [<-|[]]; cbn; split; [discriminate|exact I]|].
  split; [reflexivity|]. cbn. split; lia.
Qed.
