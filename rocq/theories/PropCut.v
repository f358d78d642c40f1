(** * C114: files that were cut short *)
From Coq Require Import String Ascii List ZArith Reals Lia Lra.
From Flocq Require Import Core.
From Verif Require Import SerializeModel SerializeProofs PropSerialize.
From Verif Require Outcome TextModel EigenIOModel EigenIOProofs PropEigenIO InputSpec InputProofs.
Import ListNotations.

(** ** SerializeStreamIn, text mode *)
Lemma read_values_short (xs : list R) : forall k, length xs < k -> read_values k (map LNum xs) = Throws.
Proof.
  induction xs as [|x xs IH]; intros k H; destruct k as [|k]; cbn [length] in H; try lia; cbn [map read_values].
  - reflexivity.
  - unfold read_value. cbn [getline stod obind]. rewrite IH by lia. reflexivity.
Qed.
Lemma cut_matrix {A} (print : A -> R) (data : list A) n : n < S (length data) -> data <> [] ->
  read_values (length data) (snd (getline (firstn n (LInfo :: map (fun x => LNum (print x)) data)))) = Throws.
Proof.
  intros Hn Hd. destruct n as [|n]; cbn [firstn getline snd].
  - apply (read_values_short []). destruct data; [congruence|cbn; lia].
  - rewrite firstn_map. replace (map (fun x => LNum (print x)) (firstn n data)) with (map LNum (map print (firstn n data))) by apply map_map.
    apply read_values_short. rewrite map_length, firstn_length. lia.
Qed.
Lemma cut_item i n : item_ok i -> n < length (write_text i) -> (exists x, In x (write_text i) /\ x <> LInfo) ->
  read_text (shape_of i) (firstn n (write_text i)) = Throws.
Proof.
  destruct i as [x|z|b|r c d|r c d|]; cbn [item_ok write_text shape_of read_text length].
  1,2,3: intros _ Hn _; destruct n as [|[|n]]; [reflexivity|reflexivity|lia].
  - intros (Hl & _) Hn (y & Hy & Hy'). rewrite map_length in Hn. rewrite <- Hl.
    assert (d <> []) by (intros ->; destruct Hy as [<-|[]]; congruence).
    pose proof (cut_matrix print_double d n Hn H) as C. destruct (getline _) as (u, s1). cbn [snd] in C. rewrite C. reflexivity.
  - intros (Hl & _) Hn (y & Hy & Hy'). rewrite map_length in Hn. rewrite <- Hl.
    assert (d <> []) by (intros ->; destruct Hy as [<-|[]]; congruence).
    pose proof (cut_matrix IZR d n Hn H) as C. destruct (getline _) as (u, s1). cbn [snd] in C. rewrite C. reflexivity.
  - intros _ Hn _. destruct n; [reflexivity|lia].
Qed.
Lemma cut_empty i : item_ok i -> (forall x, In x (write_text i) -> x = LInfo) -> write_text i = [LInfo] /\ read_text (shape_of i) [] = Done (i, []).
Proof.
  destruct i as [x|z|b|r c d|r c d|]; cbn [item_ok write_text shape_of read_text]; intros H A.
  1,2,3: exfalso; specialize (A _ (or_intror (or_introl eq_refl))); discriminate.
  - destruct H as (Hl & _). destruct d as [|x d]; [|exfalso; specialize (A _ (or_intror (or_introl eq_refl))); discriminate].
    split; [reflexivity|]. cbn [length] in Hl. rewrite <- Hl. reflexivity.
  - destruct H as (Hl & _). destruct d as [|x d]; [|exfalso; specialize (A _ (or_intror (or_introl eq_refl))); discriminate].
    split; [reflexivity|]. cbn [length] in Hl. rewrite <- Hl. reflexivity.
  - exfalso. specialize (A _ (or_introl eq_refl)). discriminate.
Qed.
Lemma info_dec (x : line) : {x = LInfo} + {x <> LInfo}.
Proof. destruct x; [left; reflexivity|right; discriminate|right; discriminate]. Qed.

(** If lines with data or separators are missing at the end of the file, some read throws, whatever was written and wherever the
    file ends (only the line before an empty matrix is not missed). *)
Theorem C114_missing_lines_rejected_partial : forall l n, Forall item_ok l ->
  (exists x, In x (skipn n (write_all l)) /\ x <> LInfo) ->
  read_all (map shape_of l) (firstn n (write_all l)) = Throws.
Proof.
  induction l as [|i l IH]; intros n Hl (x & Hx & Hne).
  - cbn in Hx. rewrite skipn_nil in Hx. contradiction.
  - inversion Hl as [|? ? Hi Hl']; subst. change (write_all (i :: l)) with (write_text i ++ write_all l) in *. cbn [map read_all].
    rewrite skipn_app in Hx. rewrite firstn_app.
    destruct (Nat.le_gt_cases (length (write_text i)) n) as [L|L].
    + rewrite firstn_all2 by exact L. rewrite read_write_text by exact Hi. cbn [obind].
      rewrite skipn_all2 in Hx by exact L. cbn [List.app] in Hx. rewrite IH; [reflexivity|exact Hl'|exists x; auto].
    + replace (n - length (write_text i)) with 0 in * by lia. rewrite firstn_O, app_nil_r. rewrite skipn_O in Hx.
      destruct (Forall_dec (fun y => y = LInfo) info_dec (write_text i)) as [A|A].
      * rewrite Forall_forall in A. destruct (cut_empty i Hi A) as (E & Rd). rewrite E in L |- *. cbn [length] in L. replace n with 0 by lia.
        cbn [firstn]. rewrite Rd. cbn [obind]. pose proof (IH 0 Hl') as IH0. rewrite firstn_O in IH0. rewrite IH0; [reflexivity|]. rewrite skipn_O. exists x. split; [|exact Hne].
        apply in_app_iff in Hx. destruct Hx as [Hx|Hx]; [|exact Hx]. exfalso. apply Hne, A. rewrite <- (firstn_skipn n). apply in_app_iff. right. exact Hx.
      * rewrite cut_item; [reflexivity|exact Hi|exact L|]. apply neg_Forall_Exists_neg in A; [|exact info_dec]. apply Exists_exists in A. exact A.
Qed.
Print Assumptions C114_missing_lines_rejected_partial.

(** [m] is the number that remains of the digits of the natural number [n] when the last one is missing *)
Definition last_digit_missing (n m : Z) : Prop := (exists r, 0 <= r < 10 /\ n = 10 * m + r)%Z /\ (0 < m)%Z.
(** If the file ends within the last number, the number is read without its missing digits, and nothing is reported. *)
Theorem C114_cut_number_refuted : forall n m, int_ok n -> last_digit_missing n m ->
  write_all [IInt n] = [LInfo; LNum (IZR n)] /\
  read_all [SInt] [LInfo; LNum (IZR m)] = Done ([IInt m], []) /\ m <> n.
Proof.
  intros n m Hn ((r & Hr & E) & Hm).
  assert (F : forall k, (0 <= k <= 2147483647)%Z -> print_double (IZR k) = IZR k).
  { intros k Hk. unfold print_double. apply round_generic; [apply valid_rnd_N|]. apply generic_format_FLX. exists (Float radix10 k 0).
    - unfold F2R. cbn [Fnum Fexp bpow]. ring.
    - cbn [Fnum]. change (Zpower radix10 17) with 100000000000000000%Z. lia. }
  unfold int_ok in Hn. split; [|split; [|lia]].
  - cbn [write_all map write_text concat List.app]. rewrite F by lia. reflexivity.
  - rewrite <- (F m) by lia. pose proof (read_write_all [IInt m] []) as RW. cbn [map shape_of] in RW. rewrite app_nil_r in RW. apply RW.
    constructor; [|constructor]. cbn [item_ok]. unfold int_ok. lia.
Qed.
Print Assumptions C114_cut_number_refuted.
Example C114_digits : last_digit_missing 12 1 /\ int_ok 12.
Proof. split; [split; [exists 2%Z; lia|lia]|unfold int_ok; lia]. Qed.
Example C114_lines_case : let l := [IDouble 1; IMatrixInt 1 2 [3; 4]%Z; ISeparator] in Forall item_ok l /\ length (write_all l) = 6 /\
  exists x, In x (skipn 4 (write_all l)) /\ x <> LInfo.
Proof.
  split; [|split; [reflexivity|]].
  - repeat constructor; cbn; unfold int_ok; try lia. apply (is_double_int 1). cbn. lia.
  - exists LSep. split; [right; left; reflexivity|discriminate].
Qed.

(** ** SerializeStreamIn, binary mode *)
Lemma read_data s o : exists o' s', read_binary s (BData o) = Done (BData o', s').
Proof.
  unfold read_binary, is_read. destruct (bad s); [cbn; eauto|]. destruct (Nat.leb_spec (length o) (length (rest s))).
  - rewrite Nat.leb_refl. cbn. eauto.
  - destruct (Nat.leb_spec (length (rest s)) (length o)); [cbn; eauto|lia].
Qed.
(** Reading never reports anything, however short the file is; of an object that is cut, the missing bytes keep what the memory held before. *)
Theorem C114_binary_refuted :
  (forall targets s, Forall is_data targets -> exists r, read_binary_all s targets = Done r) /\
  (forall written before n, length before = length written -> n < length written ->
     read_binary_all (mkIs (firstn n written) false) [BData before] = Done ([BData (firstn n written ++ skipn n before)], mkIs [] true)).
Proof.
  split.
  - induction targets as [|t ts IH]; intros s H; cbn [read_binary_all]; [eauto|]. inversion H as [|? ? Ht Hts]; subst. destruct t as [o|]; [|contradiction].
    destruct (read_data s o) as (o' & s' & ->). cbn [obind]. destruct (IH s' Hts) as ((l & s2) & ->). cbn [obind]. eauto.
  - intros w b n Hl Hn. cbn [read_binary_all read_binary]. unfold is_read. cbn [bad rest].
    assert (Ln : length (firstn n w) = n) by (apply firstn_length_le; lia). rewrite Ln.
    destruct (Nat.leb_spec (length b) n); [lia|]. destruct (Nat.leb_spec n (length b)); [|lia]. reflexivity.
Qed.
Print Assumptions C114_binary_refuted.
Example C114_binary_case : read_binary_all (mkIs (firstn 3 [1; 2; 3; 4]%Z) false) [BData [9; 9; 9; 9]%Z] = Done ([BData [1; 2; 3; 9]%Z], mkIs [] true).
Proof. reflexivity. Qed.

(** ** EigenIO *)
Import Outcome TextModel EigenIOModel EigenIOProofs PropEigenIO InputSpec InputProofs.
Local Open Scope R_scope.
Lemma join_prefix sep l r : (0 < r <= length l)%nat -> exists rest, join sep l = join sep (firstn r l) ++ rest.
Proof.
  revert r. induction l as [|a l IH]; intros r H; [cbn in H; lia|]. destruct r as [|[|r]]; [lia| |].
  - cbn [firstn join]. destruct l; [exists []; cbn; rewrite app_nil_r; reflexivity|]. eexists. reflexivity.
  - cbn [length] in H. destruct (IH (S r)) as (rest & E); [lia|]. destruct l as [|b l]; [cbn in H; lia|]. cbn [firstn] in E |- *. 
    exists rest. change (join sep (a :: b :: l)) with (a ++ sep ++ join sep (b :: l)). rewrite E.
    change (join sep (a :: b :: firstn r l)) with (a ++ sep ++ join sep (b :: firstn r l)). rewrite <- !app_assoc. reflexivity.
Qed.
(** A matrix file that ends after some row is read as a matrix with these rows, without any report. *)
Theorem C114_matrix_file_refuted : forall (delimiter : text) (cols : nat) (m : list (list R)) r,
  delimiter <> [] -> Forall white delimiter -> ~ In newline delimiter -> (0 < cols)%nat -> (0 < r < length m)%nat ->
  Forall (fun row => length row = cols /\ Forall in_range row) m ->
  exists part missing m', write_to_file delimiter (map (map Finite) m) = part ++ missing /\
    read_from_file part = Ok (r, cols, m').
Proof.
  intros delimiter cols m r H1 H2 H3 H4 Hr H5. unfold write_to_file.
  destruct (join_prefix [newline] (map (write_row delimiter) (map (map Finite) m)) r) as (rest & E); [rewrite !map_length; lia|].
  exists (write_to_file delimiter (map (map Finite) (firstn r m))), rest.
  destruct (C94_round_trip_partial delimiter cols (firstn r m)) as (m' & Rd & _); try assumption.
  - intros X. apply (f_equal (@length _)) in X. rewrite firstn_length_le in X by lia. cbn in X. lia.
  - apply Forall_forall. intros x Hx. rewrite Forall_forall in H5. apply H5. rewrite <- (firstn_skipn r m). apply in_app_iff. left. exact Hx.
  - rewrite firstn_length_le in Rd by lia. exists m'. split; [|exact Rd]. rewrite E. unfold write_to_file. rewrite !firstn_map. reflexivity.
Qed.
Print Assumptions C114_matrix_file_refuted.

(** ** ReadGmshFile: a file that ends after the section of the nodes is read without complaint, as a mesh that has all nodes
    and not one element *)
From Verif Require GmshModel GmshSpec GmshProofs.
Section Gmsh.
Import Outcome GmshModel GmshSpec GmshProofs.
Theorem C114_gmsh_refuted names nodes elems : (forall n, In n names -> no_quotes (gp_name n)) ->
  let whole := ascii_file names nodes elems in
  exists cut rest m, whole = (cut ++ rest)%list /\ rest = elems_text elems /\ read_gmsh cut = Ok m
    /\ gm_values m = map (node_coords (find_dimension nodes)) nodes /\ gm_elems m = []
    /\ forall id, group_by_id m id = Throw.
Proof.
  intros Hn whole. exists (header_text false ++ names_text names ++ nodes_text nodes)%list, (elems_text elems).
  assert (E : read_content (header_text false ++ names_text names ++ nodes_text nodes)
              = Ok (mkContent (find_dimension nodes) nodes [] names)).
  { unfold read_content. rewrite read_header_spec. cbn [obind].
    match goal with |- process (length (header_text ?b ++ ?r)) _ _ _ = _ =>
      generalize (header_length b r); generalize (length (header_text b ++ r)) end.
    intros fuel Hf. destruct fuel as [|[|[|fuel]]]; try lia.
    rewrite process_names by exact Hn. rewrite <- (app_nil_r (nodes_text nodes)), process_nodes. reflexivity. }
  eexists. split; [unfold whole, ascii_file; rewrite <- !app_assoc; reflexivity|]. split; [reflexivity|].
  split; [unfold read_gmsh; rewrite E; reflexivity|]. split; [reflexivity|]. split; reflexivity.
Qed.
Print Assumptions C114_gmsh_refuted.
End Gmsh.
