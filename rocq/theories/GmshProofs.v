(** * Proofs for C51 *)
From Coq Require Import String Ascii List ZArith Arith Reals Lra Lia.
From Verif Require Import Outcome AdaptiveModel AdaptiveProofs CellModel InterpolationModel LobattoModel GroupModel GroupProofs
  GmshModel GmshSpec.
Import ListNotations.
Local Open Scope R_scope.

Lemma read_n_enc {A} (f : list token -> outcome (A * list token)) (enc : A -> list token) (l : list A) :
  (forall a s, In a l -> f (enc a ++ s) = Ok (a, s)) ->
  forall s, read_n f (length l) (flat_map enc l ++ s) = Ok (l, s).
Proof.
  induction l as [|a l IH]; intros H s; [reflexivity|]. cbn [length read_n flat_map].
  rewrite <- app_assoc, H by (left; reflexivity). cbn [obind].
  rewrite IH by (intros b s' Hb; apply H; right; exact Hb). reflexivity.
Qed.
Lemma read_vector_enc {A} (f : list token -> outcome (A * list token)) (enc : A -> list token) (l : list A) n :
  n = count l -> (forall a s, In a l -> f (enc a ++ s) = Ok (a, s)) ->
  forall s, read_vector f n (flat_map enc l ++ s) = Ok (l, s).
Proof.
  intros -> H s. unfold read_vector, count. assert (E : Z.ltb (Z.of_nat (length l)) 0 = false) by (apply Z.ltb_ge; lia).
  rewrite E, Nat2Z.id. apply read_n_enc. exact H.
Qed.
Lemma map_flat {A B} (f : A -> B) l : map f l = flat_map (fun a => [f a]) l.
Proof. induction l as [|a l IH]; [reflexivity|]. simpl. rewrite IH. reflexivity. Qed.
Lemma read_ints l n s : n = count l -> read_vector read_int_or0 n (map TInt l ++ s) = Ok (l, s).
Proof. intros H. rewrite map_flat. apply read_vector_enc; [exact H|]. reflexivity. Qed.
Lemma read_bin_ints l n s : n = count l -> read_vector (read_bin_int (Some 0%Z)) n (map TBinInt l ++ s) = Ok (l, s).
Proof. intros H. rewrite map_flat. apply read_vector_enc; [exact H|]. reflexivity. Qed.

Lemma remove_quotes_id w : no_quotes w -> remove_quotes w = w.
Proof.
  induction w as [|a w IH]; intros H; [reflexivity|]. destruct H as (H1 & H2). cbn [remove_quotes].
  destruct (Ascii.eqb_spec a """"%char); [contradiction|]. rewrite IH by exact H2. reflexivity.
Qed.
Lemma remove_quotes_app a b : remove_quotes (a ++ b) = (remove_quotes a ++ remove_quotes b)%string.
Proof.
  induction a as [|c a IH]; [reflexivity|]. cbn [append remove_quotes]. rewrite IH. destruct (Ascii.eqb c """"%char); reflexivity.
Qed.
Lemma append_nil_r w : (w ++ "")%string = w.
Proof. induction w as [|a w IH]; [reflexivity|]. simpl. rewrite IH. reflexivity. Qed.
Lemma remove_quotes_quote w : no_quotes w -> remove_quotes (quote w) = w.
Proof.
  intros H. unfold quote. cbn [remove_quotes]. cbn [Ascii.eqb]. rewrite remove_quotes_app, remove_quotes_id by exact H.
  apply append_nil_r.
Qed.

Definition names_ok (names : list gname) : Prop := forall n, In n names -> no_quotes (gp_name n).
(** the number of nodes of the element is that of its type *)
Definition elem_ok (e : gelem) : Prop := num_nodes (ge_type e) = Ok (count (ge_nodes e)).

Lemma read_names_spec names s : names_ok names ->
  forall l, getline (names_text names ++ s) = (TWord "$PhysicalNames" :: nil, l) -> read_names l = Ok (names, s).
Proof.
  intros Hn l. unfold names_text. cbn [app getline]. intros E. injection E as <-.
  unfold read_names. cbn [getline]. cbn [stoi obind]. rewrite <- app_assoc.
  rewrite (read_vector_enc read_name (fun n => [TInt (gp_dim n); TInt (gp_id n); TWord (quote (gp_name n)); TEol]) names).
  - reflexivity.
  - reflexivity.
  - intros n s' Hin. unfold read_name. cbn [app read_int obind read_word getline snd].
    rewrite remove_quotes_quote by (apply Hn; exact Hin). destruct n; reflexivity.
Qed.

Lemma read_nodes_spec nodes s :
  forall l, getline (nodes_text nodes ++ s) = (TWord "$Nodes" :: nil, l) -> read_nodes_ascii l = Ok (nodes, s).
Proof.
  intros l. unfold nodes_text. cbn [app getline]. intros E. injection E as <-.
  unfold read_nodes_ascii. cbn [getline]. cbn [stoi obind]. rewrite <- app_assoc.
  rewrite (read_vector_enc read_node (fun n => [TInt (gn_id n); TReal (gn_x n); TReal (gn_y n); TReal (gn_z n); TEol]) nodes).
  - reflexivity.
  - reflexivity.
  - intros n s' Hin. unfold read_node. cbn [app read_int read_real obind getline snd]. destruct n; reflexivity.
Qed.

Lemma read_elems_spec elems s : (forall e, In e elems -> elem_ok e) ->
  forall l, getline (elems_text elems ++ s) = (TWord "$Elements" :: nil, l) -> read_elements_ascii l = Ok (elems, s).
Proof.
  intros He l. unfold elems_text. cbn [app getline]. intros E. injection E as <-.
  unfold read_elements_ascii. cbn [getline]. cbn [stoi obind]. rewrite <- app_assoc.
  rewrite (read_vector_enc read_elem (fun e => [TInt (ge_id e); TInt (ge_type e); TInt (count (ge_tags e))] ++ map TInt (ge_tags e)
                        ++ map TInt (ge_nodes e) ++ [TEol]) elems).
  - reflexivity.
  - reflexivity.
  - intros e s' Hin. unfold read_elem. cbn [app read_int obind then_used at_end forallb andb]. rewrite <- !app_assoc.
    rewrite read_ints by reflexivity. cbn [obind]. rewrite (He e Hin). cbn [obind].
    rewrite read_ints by reflexivity. cbn [obind app getline snd]. destruct e; reflexivity.
Qed.

Lemma read_header_spec b s : read_header (header_text b ++ s) = Ok (b, s).
Proof.
  unfold read_header, header_text.
  destruct b; cbn [app getline obind read_real read_int read_int_or0 at_end forallb andb]; (destruct (rltb_spec (22 / 10) 2) as [(-> & H)|(-> & H)]; [lra|]);
    cbn [Z.eqb Pos.eqb obind read_bin_int snd getline expect app]; unfold expect; cbn [getline prefix]; reflexivity.
Qed.
Lemma header_length b s : (3 <= length (header_text b ++ s))%nat.
Proof. rewrite app_length. unfold header_text. destruct b; cbn [app length]; lia. Qed.

Ltac one_section := unfold names_text, nodes_text, elems_text, nodes_binary, elems_binary; cbn [app process getline];
  repeat match goal with |- context [prefix ?a ?b] =>
    let v := eval vm_compute in (prefix a b) in change (prefix a b) with v end; cbv iota.
Lemma process_names fuel b names r c : names_ok names ->
  process (S fuel) b (names_text names ++ r) c = process fuel b r (mkContent (cdim c) (cnodes c) (celems c) names).
Proof.
  intros Hn. one_section.
  match goal with |- context [read_names ?l] => rewrite (read_names_spec names r Hn l) by reflexivity end. reflexivity.
Qed.
Lemma process_nodes fuel nodes r c :
  process (S fuel) false (nodes_text nodes ++ r) c = process fuel false r (mkContent (find_dimension nodes) nodes (celems c) (cnames c)).
Proof.
  one_section.
  match goal with |- context [read_nodes_ascii ?l] => rewrite (read_nodes_spec nodes r l) by reflexivity end. reflexivity.
Qed.
Lemma process_elems fuel elems r c : (forall e, In e elems -> elem_ok e) ->
  process (S fuel) false (elems_text elems ++ r) c = process fuel false r (mkContent (cdim c) (cnodes c) elems (cnames c)).
Proof.
  intros He. one_section.
  match goal with |- context [read_elements_ascii ?l] => rewrite (read_elems_spec elems r He l) by reflexivity end. reflexivity.
Qed.

Lemma read_ascii names nodes elems : names_ok names -> (forall e, In e elems -> elem_ok e) ->
  read_content (ascii_file names nodes elems) = Ok (mkContent (find_dimension nodes) nodes elems names).
Proof.
  intros Hn He. unfold read_content, ascii_file. rewrite read_header_spec. cbn [obind].
  match goal with |- process (length (header_text ?b ++ ?r)) _ _ _ = _ =>
    generalize (header_length b r); generalize (length (header_text b ++ r)) end.
  intros fuel Hf. destruct fuel as [|[|[|fuel]]]; try lia.
  rewrite process_names, process_nodes by exact Hn. rewrite <- (app_nil_r (elems_text elems)), process_elems by exact He.
  destruct fuel; reflexivity.
Qed.

(** ** Binary files with one element per block *)
Lemma read_nodes_binary_spec nodes s :
  forall l, getline (nodes_binary nodes ++ s) = (TWord "$Nodes" :: nil, l) -> read_nodes_binary l = Ok (nodes, s).
Proof.
  intros l. unfold nodes_binary. cbn [app getline]. intros E. injection E as <-.
  unfold read_nodes_binary. cbn [read_int obind getline snd]. rewrite <- app_assoc.
  rewrite (read_vector_enc read_node_binary (fun n => [TBinInt (gn_id n); TBinReal (gn_x n); TBinReal (gn_y n); TBinReal (gn_z n)]) nodes).
  - reflexivity.
  - reflexivity.
  - intros n s' Hin. unfold read_node_binary. cbn [app read_bin_int read_bin_real obind]. destruct n; reflexivity.
Qed.

Lemma set_elem_app (done : list gelem) e rest x : set_elem (done ++ x :: rest) (length done) e = done ++ e :: rest.
Proof.
  unfold set_elem. rewrite firstn_app, Nat.sub_diag, firstn_all. cbn [firstn]. rewrite app_nil_r. f_equal. f_equal.
  rewrite skipn_app. replace (S (length done) - length done)%nat with 1%nat by lia. rewrite skipn_all2 by lia. reflexivity.
Qed.

Lemma read_single_blocks elems s : (forall e, In e elems -> elem_ok e) -> forall done old fuel, (length elems <= fuel)%nat ->
  read_blocks fuel old (flat_map (fun e => block_binary [e]) elems ++ s) (done ++ repeat default_elem (length elems)) (length done)
  = Ok (s, done ++ elems).
Proof.
  induction elems as [|e elems IH]; intros He done old fuel Hf.
  - cbn [flat_map app repeat length]. rewrite app_nil_r. destruct fuel; cbn [read_blocks]; rewrite Nat.leb_refl; reflexivity.
  - destruct fuel as [|fuel]; [cbn in Hf; lia|]. cbn [read_blocks length repeat].
    assert (E1 : Nat.leb (length (done ++ default_elem :: repeat default_elem (length elems))) (length done) = false).
    { apply Nat.leb_gt. rewrite app_length. cbn. lia. }
    rewrite E1. cbn [flat_map block_binary]. change (count [e]) with 1%Z. rewrite app_nil_r. rewrite <- !app_assoc. cbn [app read_bin_int obind].
    rewrite (He e (or_introl eq_refl)). cbn [obind]. change (seq 0 (Z.to_nat 1)) with [0%nat]. cbn [read_block]. rewrite E1.
    rewrite <- ?app_comm_cons, <- ?app_assoc. cbn [app read_bin_int obind]. rewrite read_bin_ints by reflexivity. cbn [obind].
    rewrite read_bin_ints by reflexivity. cbn [obind]. rewrite set_elem_app. rewrite Nat.add_0_r.
    replace (mkGelem (ge_id e) (ge_type e) (ge_tags e) (ge_nodes e)) with e by (destruct e; reflexivity).
    specialize (IH (fun e' H => He e' (or_intror H)) (done ++ [e]) (Some (ge_type e), Some 1%Z, Some (count (ge_tags e))) fuel).
    rewrite app_length in IH. cbn [length] in IH. rewrite Nat.add_1_r in IH. rewrite <- !app_assoc in IH. cbn [app] in IH. apply IH.
    cbn in Hf. lia.
Qed.

Lemma concat_singles {A} (l : list A) : concat (map (fun e => [e]) l) = l.
Proof. induction l as [|a l IH]; [reflexivity|]. simpl. rewrite IH. reflexivity. Qed.
Lemma flat_map_map {A B C} (f : A -> B) (g : B -> list C) l : flat_map g (map f l) = flat_map (fun a => g (f a)) l.
Proof. induction l as [|a l IH]; [reflexivity|]. simpl. rewrite IH. reflexivity. Qed.

Lemma read_elems_binary_spec elems s : (forall e, In e elems -> elem_ok e) ->
  forall l, getline (elems_binary (map (fun e => [e]) elems) ++ s) = (TWord "$Elements" :: nil, l) -> read_elements_binary l = Ok (elems, s).
Proof.
  intros He l. unfold elems_binary. cbn [app getline]. intros E. injection E as <-.
  unfold read_elements_binary. cbn [read_int obind]. rewrite concat_singles.
  assert (E : Z.ltb (count elems) 0 = false) by (apply Z.ltb_ge; unfold count; lia). rewrite E. cbn [getline snd].
  unfold count. rewrite Nat2Z.id. rewrite flat_map_map, <- app_assoc.
  pose proof (read_single_blocks elems ([TEol; TWord "$EndElements"; TEol] ++ s) He [] (None, None, None) (length elems) (le_n _)) as RB.
  cbn [app length] in RB. cbn [app]. rewrite RB. reflexivity.
Qed.

Lemma process_nodes_binary fuel nodes r c :
  process (S fuel) true (nodes_binary nodes ++ r) c = process fuel true r (mkContent (find_dimension nodes) nodes (celems c) (cnames c)).
Proof.
  one_section.
  match goal with |- context [read_nodes_binary ?l] => rewrite (read_nodes_binary_spec nodes r l) by reflexivity end. reflexivity.
Qed.
Lemma process_elems_binary fuel elems r c : (forall e, In e elems -> elem_ok e) ->
  process (S fuel) true (elems_binary (map (fun e => [e]) elems) ++ r) c = process fuel true r (mkContent (cdim c) (cnodes c) elems (cnames c)).
Proof.
  intros He. one_section.
  match goal with |- context [read_elements_binary ?l] => rewrite (read_elems_binary_spec elems r He l) by reflexivity end. reflexivity.
Qed.

Lemma read_binary names nodes elems : names_ok names -> (forall e, In e elems -> elem_ok e) ->
  read_content (binary_file names nodes (map (fun e => [e]) elems)) = Ok (mkContent (find_dimension nodes) nodes elems names).
Proof.
  intros Hn He. unfold read_content, binary_file. rewrite read_header_spec. cbn [obind].
  match goal with |- process (length (header_text ?b ++ ?r)) _ _ _ = _ =>
    generalize (header_length b r); generalize (length (header_text b ++ r)) end.
  intros fuel Hf. destruct fuel as [|[|[|fuel]]]; try lia.
  rewrite process_names, process_nodes_binary by exact Hn.
  rewrite <- (app_nil_r (elems_binary _)), process_elems_binary by exact He.
  destruct fuel; reflexivity.
Qed.
