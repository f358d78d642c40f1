(** * C52, C53, C55: the visualization grid and its file *)
From Coq Require Import String List ZArith Arith Bool Reals Lia Lra Permutation.
From Verif Require Import Outcome GridModel GridSpec GridProofs.
Import ListNotations.
Local Open Scope Z_scope.

(** ** C52 *)

(** AddPoint returns the number of points added before, AddCell the number of cells accepted before; a cell is refused iff
    one of its ids is not smaller than the number of points *)
Theorem C52_ids h : history_ok h -> exists g, grid_run h = Ok g
  /\ (forall c, (length c <= 3)%nat -> exists g', grid_call g (AddPoint c) = Ok (g', Some (num_points h)))
  /\ (forall ids t, (forall id, In id ids -> id < num_points h) -> exists g', grid_call g (AddCell ids t) = Ok (g', Some (num_cells h)))
  /\ (forall ids t id, In id ids -> num_points h <= id -> grid_call g (AddCell ids t) = Throw).
Proof.
  intros H. destruct (run_spec h H) as (g & E & Hg). exists g. split; [exact E|].
  pose proof (num_cells_spec _ _ Hg) as Nc. destruct Hg as [Hp _ _ _]. split; [|split].
  - intros c Hc. cbn [grid_call]. unfold add_point, to3d. destruct (Nat.leb_spec (length c) 3); [|lia]. cbn [obind omap].
    eexists. do 3 f_equal. rewrite app_length. cbn [length]. lia.
  - intros ids t Hi. cbn [grid_call]. unfold add_cell. rewrite check_points_spec.
    assert (X : forallb (fun id => id <? Z.of_nat (length (g_points g))) ids = true).
    { apply forallb_forall. intros id Hid. apply Z.ltb_lt. rewrite Hp. apply Hi. exact Hid. }
    rewrite X. cbn [omap obind]. eexists. do 3 f_equal. rewrite app_length. cbn [length]. lia.
  - intros ids t id Hid Hle. cbn [grid_call]. unfold add_cell. rewrite check_points_spec.
    assert (X : forallb (fun id => id <? Z.of_nat (length (g_points g))) ids = false).
    { destruct (forallb _ ids) eqn:X; [|reflexivity]. rewrite forallb_forall in X. specialize (X id Hid). apply Z.ltb_lt in X. lia. }
    rewrite X. reflexivity.
Qed.
Print Assumptions C52_ids.

(** the cells of the grid reference existing points, if the ids given are not negative *)
Theorem C52_cells_reference_points_partial h g : history_ok h -> grid_run h = Ok g ->
  (forall ids t, In (AddCell ids t) h -> forall id, In id ids -> 0 <= id) ->
  forall c id, In c (g_cells g) -> In id (c_ids c) -> exists p, at_index (g_points g) id = Ok p.
Proof.
  intros H E Hpos. destruct (run_spec h H) as (g' & E' & Hg). rewrite E in E'. injection E' as <-.
  destruct Hg as [Hp Hc _ _]. intros c id Hin Hid. apply at_index_in. rewrite Hp.
  assert (X : In (c_ids c, c_type c) (accepted_cells 0 h)) by (rewrite <- Hc; apply (in_map (fun c => (c_ids c, c_type c))); exact Hin).
  assert (Gen : forall h n, In (c_ids c, c_type c) (accepted_cells n h) ->
     In (AddCell (c_ids c) (c_type c)) h /\ id < n + num_points h).
  { clear - Hid. induction h as [|o h IH]; intros n Hi; [contradiction|].
    assert (En : num_points (o :: h) = (if is_add_point o then 1 else 0) + num_points h)
      by (unfold num_points; cbn [filter]; destruct (is_add_point o); cbn [length]; lia).
    assert (Np : 0 <= num_points h) by (unfold num_points; lia).
    destruct o; cbn [accepted_cells is_add_point] in *;
      try (destruct (IH _ Hi) as (A & B); split; [right; exact A|rewrite En; lia]).
    apply in_app_iff in Hi. destruct Hi as [Hi|Hi]; [|destruct (IH _ Hi) as (A & B); split; [right; exact A|rewrite En; lia]].
    destruct (forallb (fun id => id <? n) ids) eqn:Ef; [|contradiction]. destruct Hi as [Hi|[]]. injection Hi as -> ->.
    split; [left; reflexivity|]. rewrite forallb_forall in Ef. specialize (Ef id Hid). apply Z.ltb_lt in Ef. lia. }
  destruct (Gen h 0 X) as (A & B). specialize (Hpos _ _ A id Hid). lia.
Qed.
Print Assumptions C52_cells_reference_points_partial.

(** a cell with a negative id is accepted, whatever the grid *)
Theorem C52_negative_id_refuted g t : exists g', grid_call g (AddCell [-1] t) = Ok (g', Some (Z.of_nat (length (g_cells g))))
  /\ In (mkCell [-1] t []) (g_cells g') /\ forall p, at_index (g_points g') (-1) <> Ok p.
Proof.
  cbn [grid_call]. unfold add_cell, check_points. cbn [forallb andb].
  assert (X : (-1 >=? Z.of_nat (length (g_points g))) = false) by (rewrite Z.geb_leb; apply Z.leb_gt; lia). rewrite X. cbn [negb andb omap obind].
  eexists. split; [do 3 f_equal; rewrite app_length; cbn [length]; lia|]. split; [apply in_app_iff; right; left; reflexivity|]. intros p. discriminate.
Qed.
Print Assumptions C52_negative_id_refuted.

(** stored data is returned, whatever else is stored later under other ids or names *)
Theorem C52_point_data h1 id n v h2 : history_ok (h1 ++ SetPointData id n v :: h2) -> In n (point_names h1) -> no_point_set id n h2 ->
  exists g, grid_run (h1 ++ SetPointData id n v :: h2) = Ok g /\ point_data g id n = Ok v.
Proof. exact (stored_point_data h1 id n v h2). Qed.
Print Assumptions C52_point_data.
Theorem C52_cell_data h1 id n v h2 : history_ok (h1 ++ SetCellData id n v :: h2) -> In n (cell_names h1) -> no_cell_set id n h2 ->
  exists g, grid_run (h1 ++ SetCellData id n v :: h2) = Ok g /\ cell_data g id n = Ok v.
Proof. exact (stored_cell_data h1 id n v h2). Qed.
Print Assumptions C52_cell_data.
(** data for an undefined name is refused *)
Theorem C52_undefined_name h id n v : history_ok h -> 0 <= id < num_points h -> ~ In n (point_names h) ->
  exists g, grid_run h = Ok g /\ grid_call g (SetPointData id n v) = Throw.
Proof.
  intros H Hid Hn. destruct (run_spec h H) as (g & E & [Hp _ Hpn _]). exists g. split; [exact E|]. cbn [grid_call]. unfold set_point_data.
  destruct (at_index_in (g_points g) id) as (p & ->); [lia|]. cbn [obind]. rewrite index_of_not by (rewrite Hpn; exact Hn). reflexivity.
Qed.
Print Assumptions C52_undefined_name.

Example C52_example : let h := [AddPoint [0%R; 0%R]; DefinePointData "u"; AddPoint [1%R; 0%R]; DefinePointData "T"; AddCell [0; 1] 3; AddCell [0; 2] 3;
    SetPointData 1 "T" [5%R]; SetPointData 1 "u" [1%R; 2%R]; SetPointData 0 "T" [7%R]; DefinePointData "T"] in
  history_ok h /\ exists g, grid_run h = Ok g /\ point_data g 1 "T" = Ok [5%R] /\ length (g_cells g) = 1%nat.
Proof.
  intros h. split.
  - intros h1 o h2 E. destruct h1 as [|o1 h1]; [injection E as <- _; cbn; lia|].
    do 9 (destruct h1 as [|? h1]; [injection E; intros; subst; first [exact I|cbn; lia|split; [lia|reflexivity]]|]). destruct h1; discriminate E.
  - eexists. split; [reflexivity|]. split; reflexivity.
Qed.

(** ** C53 *)

(** with less than 2^31 bytes the offset of each array is the position of its block, and the block announces its length *)
Theorem C53_offsets_partial enc g l : (forall x, length (enc x) = 4%nat) -> export_arrays enc g = Ok l -> total l < 2 ^ 31 ->
  exists hs app, export enc g = Ok (hs, app)
    /\ map (fun h => (h_name h, h_comps h)) hs = map (fun a => (da_name a, da_comps a)) l
    /\ Z.of_nat (length app) = total l
    /\ forall i a h, nth_error l i = Some a -> nth_error hs i = Some h ->
         block app (h_offset h) = (Z.of_nat (length (array_bytes a)), array_bytes a).
Proof.
  intros He El Ht.
  assert (Hi : forall n vs r, extract_items enc n vs = Ok r -> forall i, In i r -> length i = 4%nat).
  { intros n. induction vs as [|d vs IH]; intros r Hr i Hi; cbn [extract_items] in Hr; [injection Hr as <-; contradiction|].
    destruct d as [v| |]; try discriminate. cbn [obind] in Hr. destruct (Nat.eqb _ n); [|discriminate].
    destruct (extract_items enc n vs) as [r'| |]; try discriminate. cbn [omap obind] in Hr. injection Hr as <-.
    apply in_app_iff in Hi. destruct Hi as [Hi|Hi]; [apply in_map_iff in Hi; destruct Hi as (x & <- & _); apply He|exact (IH r' eq_refl i Hi)]. }
  assert (Hd : forall vs name a, extract_data enc vs name = Ok a -> well_sized a).
  { intros vs name a Ha. unfold extract_data in Ha. destruct vs as [|d vs]; [discriminate|]. destruct d as [v| |]; try discriminate. cbn [obind] in Ha.
    destruct (extract_items enc (length v) (Ok v :: vs)) as [r| |] eqn:Er; try discriminate. cbn [omap obind] in Ha. injection Ha as <-. exact (Hi _ _ _ Er). }
  assert (Hall : forall get all names r, extract_all enc get all names = Ok r -> Forall well_sized r).
  { intros get all. induction names as [|n names IH]; intros r Hr; cbn [extract_all] in Hr; [injection Hr as <-; constructor|].
    destruct (index_of all n) as [k| |]; try discriminate. cbn [obind] in Hr. destruct (extract_data enc (get k) n) as [a| |] eqn:Ea; try discriminate. cbn [obind] in Hr.
    destruct (extract_all enc get all names) as [r'| |]; try discriminate. injection Hr as <-. constructor; [exact (Hd _ _ _ Ea)|exact (IH r' eq_refl)]. }
  assert (Hw : Forall well_sized l).
  { unfold export_arrays in El. destruct (extract_all enc (fun k => map (fun p => point_get p k) (g_points g)) (g_pnames g) (g_pnames g)) as [pd| |] eqn:E1; try discriminate.
    cbn [obind] in El. destruct (extract_all enc (fun k => map (fun c => cell_get c k) (g_cells g)) (g_cnames g) (g_cnames g)) as [cd| |] eqn:E2; try discriminate.
    cbn [obind] in El. injection El as <-. apply Forall_app. split; [eapply Hall, E1|]. apply Forall_app. split; [eapply Hall, E2|].
    repeat constructor; intros i Hin; cbn [da_items da_size coordinates_array connectivity_array offsets_array types_array] in *.
    - apply in_flat_map in Hin. destruct Hin as (p & _ & Hin). apply in_map_iff in Hin. destruct Hin as (x & <- & _). apply He.
    - apply in_map_iff in Hin. destruct Hin as (x & <- & _). apply le_length.
    - apply in_map_iff in Hin. destruct Hin as (x & <- & _). apply le_length.
    - apply in_map_iff in Hin. destruct Hin as (x & <- & _). apply le_length. }
  destruct (offsets_spec l Hw Ht) as (hs & app & E1 & E2 & E3 & E4 & E5). exists hs, app.
  split; [unfold export; rewrite El; cbn [obind]; rewrite E1; cbn [obind]; rewrite E2; reflexivity|]. auto.
Qed.
Print Assumptions C53_offsets_partial.

(** with 178956971 points the coordinates need more than 2^31 bytes: the offset of the connectivity is negative *)
Theorem C53_large_grid_refuted enc g hs data : (forall x, length (enc x) = 4%nat) -> g_pnames g = [] -> g_cnames g = [] ->
  (forall p, In p (g_points g) -> length (p_coords p) = 3%nat) ->
  Z.of_nat (length (g_points g)) = 178956971 -> export enc g = Ok (hs, data) ->
  exists h, nth_error hs 1 = Some h /\ h_name h = "connectivity"%string /\ h_offset h = -2147483636.
Proof.
  intros He Hp Hc H3 Hn E. unfold export, export_arrays in E. rewrite Hp, Hc in E. cbn [extract_all obind app] in E.
  set (ca := coordinates_array enc (g_points g)) in *.
  assert (L : Z.of_nat (length (da_items ca)) = 3 * 178956971).
  { rewrite <- Hn. unfold ca. cbn [coordinates_array da_items]. clear - H3. revert H3. induction (g_points g) as [|p l IH]; intros H3; [reflexivity|].
    cbn [flat_map length]. rewrite app_length, map_length, (H3 p (or_introl eq_refl)), Nat2Z.inj_add, IH by (intros q Hq; apply H3; right; exact Hq). lia. }
  assert (O : array_offset ca = -2147483636).
  { unfold array_offset. rewrite L. unfold ca. cbn [coordinates_array da_size]. reflexivity. }
  cbn [write_headers] in E. rewrite O in E. change (fits32 (0 + -2147483636)) with true in E. cbv iota in E.
  destruct (fits32 (0 + -2147483636 + array_offset (connectivity_array (g_cells g)))); [|discriminate].
  cbn [omap obind] in E.
  match type of E with context [fits32 ?x] => destruct (fits32 x) end; [|discriminate]. cbn [omap obind] in E.
  match type of E with context [fits32 ?x] => destruct (fits32 x) end; [|discriminate]. cbn [omap obind] in E.
  revert E. match goal with |- omap _ (write_all ?x) = _ -> _ => generalize (write_all x) end. clearbody ca. intros w E.
  destruct w as [d| |]; [|discriminate E|discriminate E]. cbn [omap obind] in E.
  apply (f_equal (fun o => match o with Ok p => fst p | _ => [] end)) in E. cbn [fst] in E. rewrite <- E.
  eexists. split; [cbn [nth_error]; reflexivity|]. split; reflexivity.
Qed.
Print Assumptions C53_large_grid_refuted.

(** a reader of the format gets the cells of the grid *)
Theorem C53_cells g : (forall c id, In c (g_cells g) -> In id (c_ids c) -> 0 <= id < 2 ^ 32) ->
  (forall c, In c (g_cells g) -> 0 <= c_type c < 2 ^ 8) -> total_ids (g_cells g) < 2 ^ 32 ->
  vtk_cells 0 (map (number 4) (da_items (connectivity_array (g_cells g)))) (map (number 4) (da_items (offsets_array (g_cells g))))
    (map (number 1) (da_items (types_array (g_cells g))))
  = map (fun c => (c_ids c, c_type c)) (g_cells g).
Proof.
  intros Hi Ht Hn. cbn [connectivity_array offsets_array types_array da_items]. rewrite conn_numbers.
  - apply (offsets_cells (g_cells g) [] (flat_map c_ids (g_cells g))); [cbn; lia|exact Ht|reflexivity].
  - intros i H. apply in_flat_map in H. destruct H as (c & Hc & H). exact (Hi c i Hc H).
Qed.
Print Assumptions C53_cells.

Lemma numbers_concat n items : (0 < n)%nat -> (forall i, In i items -> length i = n) -> forall k, (length (List.concat items) <= k)%nat ->
  numbers k n (List.concat items) = map (number n) items.
Proof.
  intros Hn H. induction items as [|i items IH]; intros k Hk; [destruct k; reflexivity|].
  assert (L : length i = n) by (apply H; left; reflexivity).
  cbn [List.concat] in *. rewrite app_length, L in Hk. destruct i as [|b i]; [cbn [length] in L; lia|]. destruct k as [|k]; [lia|].
  cbn [app numbers map]. change (b :: i ++ List.concat items) with ((b :: i) ++ List.concat items). f_equal.
  - clear - L. revert L. generalize (b :: i). intros w L. rewrite <- L. clear. induction w as [|b w IH]; [cbn [length number]; destruct (List.concat items); reflexivity|].
    cbn [length app number]. rewrite IH. reflexivity.
  - rewrite skipn_app, skipn_all2 by lia. replace (n - length (b :: i))%nat with 0%nat by lia. cbn [skipn app].
    apply IH; [intros w Hw; apply H; right; exact Hw|lia].
Qed.

(** a reader that looks the arrays up by name and reads each at the offset in its header finds the coordinates and the cells of the
    grid in the file, which follow the data of the points and of the cells *)
Theorem C53_read_partial enc g l : (forall x, length (enc x) = 4%nat) -> export_arrays enc g = Ok l -> total l < 2 ^ 31 ->
  (forall c id, In c (g_cells g) -> In id (c_ids c) -> 0 <= id < 2 ^ 32) ->
  (forall c, In c (g_cells g) -> 0 <= c_type c < 2 ^ 8) ->
  exists hs section, export enc g = Ok (hs, section)
    /\ firstn (length hs - 4) (map h_name hs) = g_pnames g ++ g_cnames g
    /\ map (fun h => (h_name h, h_comps h)) (skipn (length hs - 4) hs) = [("points"%string, 3); ("connectivity"%string, 0); ("offsets"%string, 0); ("types"%string, 0)]
    /\ array_named "points" (skipn (length hs - 4) hs) section = Some (flat_map (fun p => flat_map enc (p_coords p)) (g_points g))
    /\ read_cells (skipn (length hs - 4) hs) section = Some (map (fun c => (c_ids c, c_type c)) (g_cells g)).
Proof.
  intros He El Ht Hi Hty. destruct (C53_offsets_partial enc g l He El Ht) as (hs & section & Ex & Enc & Hlen & Hb).
  exists hs, section. split; [exact Ex|].
  assert (Hall : forall get all names r, extract_all enc get all names = Ok r -> map da_name r = names).
  { intros get all. induction names as [|n names IH]; intros r Hr; cbn [extract_all] in Hr; [injection Hr as <-; reflexivity|].
    destruct (index_of all n) as [k| |]; try discriminate. cbn [obind] in Hr. destruct (extract_data enc (get k) n) as [a| |] eqn:Ea; try discriminate. cbn [obind] in Hr.
    destruct (extract_all enc get all names) as [r'| |]; try discriminate. injection Hr as <-. cbn [map]. f_equal; [|exact (IH r' eq_refl)].
    unfold extract_data in Ea. destruct (get k) as [|[v| |] vs]; try discriminate. cbn [obind] in Ea.
    destruct (extract_items enc (length v) (Ok v :: vs)); try discriminate. injection Ea as <-. reflexivity. }
  unfold export_arrays in El.
  destruct (extract_all enc (fun k => map (fun p => point_get p k) (g_points g)) (g_pnames g) (g_pnames g)) as [pd| |] eqn:E1; try discriminate.
  cbn [obind] in El. destruct (extract_all enc (fun k => map (fun c => cell_get c k) (g_cells g)) (g_cnames g) (g_cnames g)) as [cd| |] eqn:E2; try discriminate.
  cbn [obind] in El. set (last := [coordinates_array enc (g_points g); connectivity_array (g_cells g); offsets_array (g_cells g); types_array (g_cells g)]) in El.
  assert (Dl : l = (pd ++ cd) ++ last) by (rewrite <- app_assoc; congruence). clear El.
  assert (Lh : length hs = length l) by (rewrite <- (map_length (fun h => (h_name h, h_comps h))), Enc, map_length; reflexivity).
  assert (Ln : (length hs - 4 = length (pd ++ cd))%nat) by (rewrite Lh, Dl, (app_length _ last); cbn [last length]; lia). rewrite Ln.
  assert (Em : map h_name hs = map da_name l).
  { transitivity (map fst (map (fun h => (h_name h, h_comps h)) hs)); [rewrite map_map; reflexivity|]. rewrite Enc, map_map. reflexivity. }
  assert (Et : map (fun h => (h_name h, h_comps h)) (skipn (length (pd ++ cd)) hs) = map (fun a => (da_name a, da_comps a)) last).
  { rewrite <- skipn_map, Enc, Dl, skipn_map, skipn_app, skipn_all, Nat.sub_diag. reflexivity. }
  split; [|split; [exact Et|]].
  { rewrite Em, Dl, map_app, firstn_app, map_length, Nat.sub_diag. cbn [firstn]. rewrite app_nil_r.
    rewrite firstn_all2 by (rewrite map_length; lia). rewrite map_app, (Hall _ _ _ _ E1), (Hall _ _ _ _ E2). reflexivity. }
  assert (Hl : forall i a h, nth_error last i = Some a -> nth_error (skipn (length (pd ++ cd)) hs) i = Some h -> snd (block section (h_offset h)) = array_bytes a).
  { intros i a h Ha Hh. rewrite (Hb (length (pd ++ cd) + i)%nat a h); [reflexivity| |].
    - rewrite Dl, nth_error_app2 by lia. replace (length (pd ++ cd) + i - length (pd ++ cd))%nat with i by lia. exact Ha.
    - rewrite <- Hh. clear. revert hs. generalize (length (pd ++ cd)) as n. induction n as [|n IH]; intros hs; [reflexivity|].
      destruct hs as [|h hs]; [cbn [skipn Nat.add nth_error]; destruct i; reflexivity|]. cbn [skipn Nat.add nth_error]. apply IH. }
  destruct (skipn (length (pd ++ cd)) hs) as [|hp [|hc [|ho [|ht [|]]]]]; try discriminate Et.
  cbn [map last da_name da_comps coordinates_array connectivity_array offsets_array types_array] in Et. injection Et as N1 _ N2 _ N3 _ N4 _.
  pose proof (Hl 0%nat _ _ eq_refl eq_refl) as B1. pose proof (Hl 1%nat _ _ eq_refl eq_refl) as B2.
  pose proof (Hl 2%nat _ _ eq_refl eq_refl) as B3. pose proof (Hl 3%nat _ _ eq_refl eq_refl) as B4.
  assert (S1 : array_named "points" [hp; hc; ho; ht] section = Some (array_bytes (coordinates_array enc (g_points g)))).
  { unfold array_named. cbn [find]. rewrite N1. cbn [String.eqb Ascii.eqb Bool.eqb option_map]. rewrite B1. reflexivity. }
  assert (S2 : array_named "connectivity" [hp; hc; ho; ht] section = Some (array_bytes (connectivity_array (g_cells g)))).
  { unfold array_named. cbn [find]. rewrite N1, N2. cbn [String.eqb Ascii.eqb Bool.eqb option_map]. rewrite B2. reflexivity. }
  assert (S3 : array_named "offsets" [hp; hc; ho; ht] section = Some (array_bytes (offsets_array (g_cells g)))).
  { unfold array_named. cbn [find]. rewrite N1, N2, N3. cbn [String.eqb Ascii.eqb Bool.eqb option_map]. rewrite B3. reflexivity. }
  assert (S4 : array_named "types" [hp; hc; ho; ht] section = Some (array_bytes (types_array (g_cells g)))).
  { unfold array_named. cbn [find]. rewrite N1, N2, N3, N4. cbn [String.eqb Ascii.eqb Bool.eqb option_map]. rewrite B4. reflexivity. }
  split.
  - rewrite S1. f_equal. unfold array_bytes. cbn [coordinates_array da_items]. clear. induction (g_points g) as [|p ps IH]; [reflexivity|].
    cbn [flat_map]. rewrite concat_app, IH, <- flat_map_concat_map. reflexivity.
  - unfold read_cells. rewrite S2, S3, S4. f_equal. unfold read_numbers, array_bytes.
    rewrite (numbers_concat 4 (da_items (connectivity_array (g_cells g)))), (numbers_concat 4 (da_items (offsets_array (g_cells g)))),
      (numbers_concat 1 (da_items (types_array (g_cells g))));
      try lia; try (intros i Hin; cbn [da_items connectivity_array offsets_array types_array] in Hin; apply in_map_iff in Hin; destruct Hin as (x & <- & _); apply le_length).
    apply C53_cells; [exact Hi|exact Hty|].
    assert (T : 4 * total_ids (g_cells g) <= total l).
    { rewrite Dl. assert (Hsum : forall l1 l2, total (l1 ++ l2) = total l1 + total l2).
      { induction l1 as [|a l1 IH]; intros l2; [reflexivity|]. unfold total in *. cbn [app fold_right]. rewrite IH. lia. }
      assert (Hpos : forall l1, 0 <= total l1) by (induction l1 as [|a l1 IH]; [reflexivity|]; unfold total in *; cbn [fold_right]; lia).
      rewrite Hsum. pose proof (Hpos (pd ++ cd)) as P0. revert P0. generalize (total (pd ++ cd)). intros t P0. unfold last, total. cbn [fold_right].
      assert (Lc : Z.of_nat (length (array_bytes (connectivity_array (g_cells g)))) = 4 * total_ids (g_cells g)).
      { unfold array_bytes, total_ids. cbn [connectivity_array da_items]. clear. induction (flat_map c_ids (g_cells g)) as [|i is IH]; [reflexivity|].
        cbn [map List.concat length]. rewrite app_length, Nat2Z.inj_add, IH. unfold u32. rewrite le_length. lia. }
      lia. }
    lia.
Qed.
Print Assumptions C53_read_partial.

(** ** C55 *)

(** the order of NuTo is xx yy zz yz xz xy, that of VTK is xx yy zz xy yz xz *)
Theorem C55_order xx yy zz yz xz xy : transform_data [xx; yy; zz; yz; xz; xy] = [xx; yy; zz; xy; yz; xz].
Proof. reflexivity. Qed.
Theorem C55_no_loss v : Permutation (transform_data v) v.
Proof.
  unfold transform_data. destruct (Nat.eqb_spec (length v) 6) as [E|]; [|reflexivity].
  destruct v as [|a [|b [|c [|d [|e [|f [|]]]]]]]; try discriminate E. change (Permutation [a; b; c; f; d; e] [a; b; c; d; e; f]).
  do 3 apply perm_skip. transitivity [d; f; e]; [apply perm_swap|apply perm_skip, perm_swap].
Qed.
Print Assumptions C55_no_loss.
Theorem C55_others_unchanged v : length v <> 6%nat -> transform_data v = v.
Proof. intros H. unfold transform_data. destruct (Nat.eqb_spec (length v) 6); [contradiction|reflexivity]. Qed.
Theorem C55_injective v w : transform_data v = transform_data w -> v = w.
Proof.
  intros H. assert (L : length v = length w) by (rewrite <- (transform_length v), <- (transform_length w), H; reflexivity).
  unfold transform_data in H. rewrite <- L in H. destruct (Nat.eqb_spec (length v) 6) as [E|]; [|exact H]. rewrite E in L. symmetry in L.
  destruct v as [|a [|b [|c [|d [|e [|f [|]]]]]]]; try discriminate E. destruct w as [|a' [|b' [|c' [|d' [|e' [|f' [|]]]]]]]; try discriminate L.
  change ([a; b; c; f; d; e] = [a'; b'; c'; f'; d'; e']) in H. congruence.
Qed.
Print Assumptions C55_injective.

(** in the file: if every point has data of the same size for each name, then there is one array for each name with the
    transformed data of the points one after the other, and likewise for the cells *)
Theorem C55_export enc g (pv : string -> vpoint -> list R) (cv : string -> vcell -> list R) pdim cdim : g_points g <> [] -> g_cells g <> [] ->
  (forall n, In n (g_pnames g) -> exists k, index_of (g_pnames g) n = Ok k /\ forall p, In p (g_points g) -> point_get p k = Ok (pv n p) /\ length (pv n p) = pdim n) ->
  (forall n, In n (g_cnames g) -> exists k, index_of (g_cnames g) n = Ok k /\ forall c, In c (g_cells g) -> cell_get c k = Ok (cv n c) /\ length (cv n c) = cdim n) ->
  exists rest, export_arrays enc g = Ok
    (map (fun n => mkArray n (Z.of_nat (pdim n)) 4 (flat_map (fun p => map enc (transform_data (pv n p))) (g_points g))) (g_pnames g)
     ++ map (fun n => mkArray n (Z.of_nat (cdim n)) 4 (flat_map (fun c => map enc (transform_data (cv n c))) (g_cells g))) (g_cnames g) ++ rest).
Proof.
  intros Hp Hc H1 H2. unfold export_arrays.
  rewrite (extract_all_spec enc point_get (g_points g) pv pdim) by assumption. cbn [obind].
  rewrite (extract_all_spec enc cell_get (g_cells g) cv cdim) by assumption. cbn [obind]. eexists. reflexivity.
Qed.
Print Assumptions C55_export.

(** two points and a line with a scalar and a tensor *)
Definition example_grid : grid :=
  mkGrid [mkPoint [0%R; 0%R; 0%R] [[5%R]]; mkPoint [1%R; 0%R; 0%R] [[7%R]]] [mkCell [0; 1] 3 [[1%R; 2%R; 3%R; 4%R; 5%R; 6%R]]] ["T"%string] ["stress"%string].
Example C53_example (enc : R -> list Z) : (forall x, length (enc x) = 4%nat) -> exists l hs data,
  export_arrays enc example_grid = Ok l /\ export enc example_grid = Ok (hs, data) /\ total l < 2 ^ 31 /\ map h_offset hs = [0; 16; 48; 80; 96; 108]
  /\ exists a, nth_error l 1 = Some a /\ da_items a = map enc [1%R; 2%R; 3%R; 6%R; 4%R; 5%R].
Proof.
  intros He.
  assert (E : exists l, export_arrays enc example_grid = Ok l) by (eexists; reflexivity). destruct E as (l & El).
  assert (T : total l = 117).
  { injection El as <-. cbn [total fold_right array_bytes da_items coordinates_array connectivity_array offsets_array types_array example_grid g_points g_cells flat_map map app p_coords c_ids concat cell_offsets].
    rewrite !app_nil_r. rewrite !app_length. unfold u32, u8. rewrite !le_length, !He. reflexivity. }
  destruct (C53_offsets_partial enc example_grid l He El) as (hs & data & E & _).
  { rewrite T. reflexivity. }
  exists l, hs, data. split; [exact El|]. split; [exact E|]. split; [rewrite T; reflexivity|].
  injection El as <-. split.
  - unfold export in E. injection E as <- _. reflexivity.
  - eexists. split; reflexivity.
Qed.
Example C53_read_example (enc : R -> list Z) : (forall x, length (enc x) = 4%nat) -> exists hs section,
  export enc example_grid = Ok (hs, section) /\ read_cells (skipn (length hs - 4) hs) section = Some [([0; 1], 3)].
Proof.
  intros He. destruct (C53_example enc He) as (l & hs0 & data0 & El & _ & Ht & _).
  destruct (C53_read_partial enc example_grid l He El Ht) as (hs & section & Ex & _ & _ & _ & R).
  - intros c id [<-|[]] [<-|[<-|[]]]; lia.
  - intros c [<-|[]]. cbn [c_type]. lia.
  - exists hs, section. split; [exact Ex|exact R].
Qed.
