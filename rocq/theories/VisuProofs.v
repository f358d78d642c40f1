(** * Proofs for C89 *)
From Coq Require Import String List ZArith Arith Reals Bool Lia Lra.
From Verif Require Import RSum Outcome GridModel GridSpec GridProofs ShapeModel InterpolationModel PropShape VisuModel VisuSpec.
Import ListNotations.
Local Open Scope Z_scope.

(** ** geometry *)
Definition zseq (s n : nat) : list Z := map Z.of_nat (seq s n).
Definition fresh (o : vobj) (x : list R) : vpoint := mkPoint (pad3 (v_coords o x)) [].
Lemma add_point_ok g c : (length c <= 3)%nat ->
  add_point g c = Ok (mkGrid (g_points g ++ [mkPoint (pad3 c) []]) (g_cells g) (g_pnames g) (g_cnames g), Z.of_nat (length (g_points g))).
Proof.
  intros H. unfold add_point, to3d. destruct (Nat.leb_spec (length c) 3); [|lia]. cbn [obind]. f_equal. f_equal. rewrite app_length. cbn [length]. lia.
Qed.
Lemma add_points_ok o pts : forall g, (forall x, In x pts -> (length (v_coords o x) <= 3)%nat) ->
  add_points g o pts = Ok (mkGrid (g_points g ++ map (fresh o) pts) (g_cells g) (g_pnames g) (g_cnames g), zseq (length (g_points g)) (length pts)).
Proof.
  induction pts as [|x pts IH]; intros g H; cbn [add_points].
  - cbn [map]. rewrite app_nil_r. destruct g; reflexivity.
  - rewrite add_point_ok by (apply H; left; reflexivity). cbn [obind]. rewrite IH by (intros; apply H; right; assumption). cbn [omap g_points g_cells g_pnames g_cnames].
    rewrite <- app_assoc. rewrite app_length. cbn [length map app]. rewrite Nat.add_1_r. reflexivity.
Qed.
Lemma at_zseq s n i : 0 <= i < Z.of_nat n -> at_index (zseq s n) i = Ok (Z.of_nat s + i).
Proof.
  intros H. unfold at_index. destruct (Z.ltb_spec i 0); [lia|]. unfold zseq. rewrite (map_nth_error Z.of_nat (Z.to_nat i) (seq s n) (d := (s + Z.to_nat i)%nat)).
  - f_equal. lia.
  - rewrite (nth_error_nth' _ 0%nat) by (rewrite seq_length; lia). rewrite seq_nth by lia. reflexivity.
Qed.
Lemma local_ids_ok s n ids : (forall i, In i ids -> 0 <= i < Z.of_nat n) -> local_ids (zseq s n) ids = Ok (map (fun j => Z.of_nat s + j) ids).
Proof.
  induction ids as [|i ids IH]; intros H; cbn [local_ids]; [reflexivity|]. rewrite at_zseq by (apply H; left; reflexivity). cbn [obind].
  rewrite IH by (intros; apply H; right; assumption). reflexivity.
Qed.
Lemma add_cell_ok g ids t : (forall i, In i ids -> i < Z.of_nat (length (g_points g))) ->
  add_cell g ids t = Ok (mkGrid (g_points g) (g_cells g ++ [mkCell ids t []]) (g_pnames g) (g_cnames g), Z.of_nat (length (g_cells g))).
Proof.
  intros H. unfold add_cell. rewrite check_points_spec. replace (forallb _ ids) with true.
  - f_equal. f_equal. rewrite app_length. cbn [length]. lia.
  - symmetry. apply forallb_forall. intros i Hi. apply Z.ltb_lt. apply H. exact Hi.
Qed.
Definition fresh_cell (s : nat) (c : list Z * Z) : vcell := mkCell (map (fun j => Z.of_nat s + j) (fst c)) (snd c) [].
Lemma add_cells_ok s n cells : forall g, (forall ids t i, In (ids, t) cells -> In i ids -> 0 <= i < Z.of_nat n) -> (s + n <= length (g_points g))%nat ->
  add_cells g (zseq s n) cells = Ok (mkGrid (g_points g) (g_cells g ++ map (fresh_cell s) cells) (g_pnames g) (g_cnames g), zseq (length (g_cells g)) (length cells)).
Proof.
  induction cells as [|(ids, t) cells IH]; intros g H L; cbn [add_cells].
  - cbn [map]. rewrite app_nil_r. destruct g; reflexivity.
  - rewrite local_ids_ok by (intros i Hi; apply (H ids t); [left; reflexivity|exact Hi]). cbn [obind]. rewrite add_cell_ok.
    + cbn [obind]. rewrite IH by (cbn [g_points]; auto; intros ids' t' i Hi; apply (H ids' t'); right; exact Hi). cbn [omap g_points g_cells g_pnames g_cnames].
      rewrite <- app_assoc. rewrite app_length. cbn [length map app]. rewrite Nat.add_1_r. reflexivity.
    + intros i Hi. apply in_map_iff in Hi. destruct Hi as (j & <- & Hj). specialize (H ids t j (or_introl eq_refl) Hj). lia.
Qed.
Lemma zseq_shift s n : map (fun j => Z.of_nat s + j) (zseq 0 n) = zseq s n.
Proof.
  unfold zseq. rewrite map_map. revert s. induction n as [|n IH]; intros s; [reflexivity|]. rewrite <- (Nat.add_1_r n), !seq_app, !map_app, IH. cbn [seq map]. f_equal. f_equal. lia.
Qed.
Lemma write_geometry_ok h o g : supported h o ->
  exists sub, write_geometry h o g = Ok (mkGrid (g_points g ++ map (fresh o) (points_of h o)) (g_cells g ++ map (fresh_cell (length (g_points g))) (cells_of h o)) (g_pnames g) (g_cnames g),
    zseq (length (g_points g)) (length (points_of h o)), sub) /\ forall pts cs, h = HVoronoi pts cs -> sub = zseq (length (g_cells g)) (length cs).
Proof.
  intros (Hs & Hc). destruct h as [|pts cells|pts]; cbn [points_of cells_of] in *.
  - assert (E : average_geometry (v_shape o) = Ok (corners (v_shape o), vtk_type (v_shape o))) by (destruct (v_shape o); try reflexivity; destruct Hs; congruence).
    exists []. split; [|discriminate]. unfold write_geometry. rewrite E. cbn [obind]. rewrite add_points_ok by exact Hc. cbn [obind]. rewrite add_cell_ok.
    + cbn [omap g_points g_cells g_pnames g_cnames map]. unfold fresh_cell. cbn [fst snd]. change (map Z.of_nat (seq 0 (length (corners (v_shape o))))) with (zseq 0 (length (corners (v_shape o)))).
      rewrite zseq_shift. reflexivity.
    + cbn [g_points]. rewrite app_length, map_length. intros i Hi. apply in_map_iff in Hi. destruct Hi as (j & <- & Hj). apply in_seq in Hj. lia.
  - exists (zseq (length (g_cells g)) (length cells)). split; [|intros ? ? E; injection E as <- <-; reflexivity]. unfold write_geometry. rewrite add_points_ok by exact Hc. cbn [obind].
    rewrite add_cells_ok; [reflexivity|exact Hs|]. cbn [g_points]. rewrite app_length, map_length. lia.
  - exists []. split; [|discriminate]. unfold write_geometry. rewrite add_points_ok by exact Hc. cbn [omap map]. rewrite app_nil_r. reflexivity.
Qed.

(** the layout of the rest of the cells, when [s] points and [t] cells exist *)
Fixpoint layout_pids (h : handler) (s : nat) (objs : list vobj) : list (list Z) :=
  match objs with [] => [] | o :: l => zseq s (length (points_of h o)) :: layout_pids h (s + length (points_of h o)) l end.
Fixpoint layout_cells (h : handler) (s : nat) (objs : list vobj) : list vcell :=
  match objs with [] => [] | o :: l => map (fresh_cell s) (cells_of h o) ++ layout_cells h (s + length (points_of h o)) l end.
Definition layout_points (h : handler) (objs : list vobj) : list vpoint := flat_map (fun o => map (fresh o) (points_of h o)) objs.
Fixpoint layout_sub (h : handler) (t : nat) (objs : list vobj) : list (list Z) :=
  match objs with [] => [] | o :: l => zseq t (length (cells_of h o)) :: layout_sub h (t + length (cells_of h o)) l end.
Lemma geometry_ok h objs : forall v, (forall o, In o objs -> supported h o) ->
  exists subs, write_all_geometry h objs v = Ok (mkVisu (mkGrid (g_points (vi_grid v) ++ layout_points h objs)
      (g_cells (vi_grid v) ++ layout_cells h (length (g_points (vi_grid v))) objs) (g_pnames (vi_grid v)) (g_cnames (vi_grid v)))
    (vi_pids v ++ layout_pids h (length (g_points (vi_grid v))) objs) (vi_sub v ++ subs)) /\
    forall pts cs, h = HVoronoi pts cs -> subs = layout_sub h (length (g_cells (vi_grid v))) objs.
Proof.
  induction objs as [|o objs IH]; intros v H; cbn [write_all_geometry].
  - exists []. split; [|reflexivity]. cbn [layout_points layout_cells layout_pids flat_map]. rewrite !app_nil_r. destruct v as [[] ? ?]; reflexivity.
  - destruct (write_geometry_ok h o (vi_grid v)) as (sub & E & Es); [apply H; left; reflexivity|]. rewrite E. cbn [obind].
    destruct (IH (mkVisu (mkGrid (g_points (vi_grid v) ++ map (fresh o) (points_of h o)) (g_cells (vi_grid v) ++ map (fresh_cell (length (g_points (vi_grid v)))) (cells_of h o))
      (g_pnames (vi_grid v)) (g_cnames (vi_grid v))) (vi_pids v ++ [zseq (length (g_points (vi_grid v))) (length (points_of h o))]) (vi_sub v ++ [sub]))) as (subs & E1 & Es1).
    { intros; apply H; right; assumption. }
    exists (sub :: subs). rewrite E1. cbn [vi_grid vi_pids vi_sub g_points g_cells g_pnames g_cnames] in *. split.
    + unfold layout_points. cbn [flat_map layout_cells layout_pids]. rewrite <- !app_assoc. rewrite app_length, map_length. reflexivity.
    + intros pts cs Eh. cbn [layout_sub]. rewrite (Es _ _ Eh), (Es1 _ _ Eh), app_length, map_length. subst h. reflexivity.
Qed.
Lemma visualizer_ok h objs : (forall o, In o objs -> supported h o) ->
  exists subs, visualizer h objs = Ok (mkVisu (mkGrid (layout_points h objs) (layout_cells h 0 objs) [] []) (layout_pids h 0 objs) subs) /\
    forall pts cs, h = HVoronoi pts cs -> subs = layout_sub h 0 objs.
Proof. intros H. destruct (geometry_ok h objs (mkVisu grid_empty [] []) H) as (subs & E & Es). exists subs. auto. Qed.

(** positions in the layout *)
Lemma nth_first {A} (count : vobj -> nat) (f : vobj -> list A) (objs : list vobj) : (forall o, length (f o) = count o) ->
  forall c o i a, nth_error objs c = Some o -> nth_error (f o) i = Some a ->
  nth_error (flat_map f objs) (Z.to_nat (first_of count objs c + Z.of_nat i)) = Some a.
Proof.
  intros Hf. induction objs as [|o' objs IH]; intros c o i a Hc Hi; [destruct c; discriminate|]. destruct c as [|c]; cbn [nth_error first_of flat_map] in *.
  - injection Hc as ->. rewrite Z.add_0_l, Nat2Z.id. rewrite nth_error_app1 by (apply nth_error_Some; congruence). exact Hi.
  - assert (0 <= first_of count objs c). { clear. revert c. induction objs; intros [|c]; cbn [first_of]; try lia. specialize (IHobjs c). lia. }
    rewrite nth_error_app2 by (rewrite Hf; lia). rewrite Hf. replace (_ - _)%nat with (Z.to_nat (first_of count objs c + Z.of_nat i)) by lia. eapply IH; eauto.
Qed.
Lemma first_nonneg count objs : forall c, 0 <= first_of count objs c.
Proof. induction objs; intros [|c]; cbn [first_of]; try lia. specialize (IHobjs c). lia. Qed.
Lemma first_length {A} (count : vobj -> nat) (f : vobj -> list A) (objs : list vobj) : (forall o, length (f o) = count o) ->
  Z.of_nat (length (flat_map f objs)) = first_of count objs (length objs).
Proof. intros Hf. induction objs as [|o objs IH]; [reflexivity|]. cbn [flat_map length first_of]. rewrite app_length, Hf. lia. Qed.
Lemma first_bound count objs : forall c o i, nth_error objs c = Some o -> (i < count o)%nat -> first_of count objs c + Z.of_nat i < first_of count objs (length objs).
Proof.
  induction objs as [|o' objs IH]; intros c o i Hc Hi; [destruct c; discriminate|]. destruct c as [|c]; cbn [nth_error first_of length] in *.
  - injection Hc as ->. pose proof (first_nonneg count objs (length objs)). lia.
  - specialize (IH c o i Hc Hi). lia.
Qed.
(** different items have different ids *)
Lemma first_inj count objs : forall c o i c' o' i', nth_error objs c = Some o -> nth_error objs c' = Some o' -> (i < count o)%nat -> (i' < count o')%nat ->
  first_of count objs c + Z.of_nat i = first_of count objs c' + Z.of_nat i' -> c = c' /\ i = i'.
Proof.
  induction objs as [|o0 objs IH]; intros c o i c' o' i' Hc Hc' Hi Hi' E; [destruct c; discriminate|].
  destruct c as [|c], c' as [|c']; cbn [nth_error first_of] in *.
  - injection Hc as ->. injection Hc' as ->. lia.
  - injection Hc as ->. pose proof (first_nonneg count objs c'). lia.
  - injection Hc' as ->. pose proof (first_nonneg count objs c). lia.
  - destruct (IH c o i c' o' i' Hc Hc' Hi Hi'); [lia|]. subst. auto.
Qed.
Lemma layout_pids_nth h objs : forall s c o, nth_error objs c = Some o ->
  nth_error (layout_pids h s objs) c = Some (zseq (s + Z.to_nat (first_point h objs c)) (length (points_of h o))).
Proof.
  induction objs as [|o' objs IH]; intros s c o Hc; [destruct c; discriminate|]. destruct c as [|c]; cbn [nth_error layout_pids] in *; unfold first_point in *; cbn [first_of].
  - injection Hc as ->. rewrite Nat.add_0_r. reflexivity.
  - rewrite (IH _ c o Hc). pose proof (first_nonneg (fun o => length (points_of h o)) objs c). do 2 f_equal. lia.
Qed.
Lemma layout_sub_nth h objs : forall s c o, nth_error objs c = Some o ->
  nth_error (layout_sub h s objs) c = Some (zseq (s + Z.to_nat (first_cell h objs c)) (length (cells_of h o))).
Proof.
  induction objs as [|o' objs IH]; intros s c o Hc; [destruct c; discriminate|]. destruct c as [|c]; cbn [nth_error layout_sub] in *; unfold first_cell in *; cbn [first_of].
  - injection Hc as ->. rewrite Nat.add_0_r. reflexivity.
  - rewrite (IH _ c o Hc). pose proof (first_nonneg (fun o => length (cells_of h o)) objs c). do 2 f_equal. lia.
Qed.
Lemma layout_cells_length h objs : forall s, Z.of_nat (length (layout_cells h s objs)) = first_cell h objs (length objs).
Proof. induction objs as [|o objs IH]; intros s; [reflexivity|]. unfold first_cell in *. cbn [layout_cells length first_of]. rewrite app_length, map_length, Nat2Z.inj_add, IH. lia. Qed.
Lemma layout_cells_nth h objs : forall s c o i ids t, nth_error objs c = Some o -> nth_error (cells_of h o) i = Some (ids, t) ->
  nth_error (layout_cells h s objs) (Z.to_nat (item h true objs c i)) = Some (fresh_cell (s + Z.to_nat (first_point h objs c)) (ids, t)).
Proof.
  unfold item. induction objs as [|o' objs IH]; intros s c o i ids t Hc Hi; [destruct c; discriminate|]. destruct c as [|c]; cbn [nth_error layout_cells] in *; unfold first_point in *; cbn [first_of].
  - injection Hc as ->. rewrite Z.add_0_l, Nat2Z.id. rewrite nth_error_app1 by (rewrite map_length; apply nth_error_Some; congruence). rewrite (map_nth_error _ _ _ Hi). rewrite Nat.add_0_r. reflexivity.
  - pose proof (first_nonneg (items h true) objs c). pose proof (first_nonneg (fun o => length (points_of h o)) objs c).
    rewrite nth_error_app2 by (rewrite map_length; unfold items at 1; lia). rewrite map_length. unfold items at 1.
    replace (_ - _)%nat with (Z.to_nat (first_of (items h true) objs c + Z.of_nat i)) by lia. rewrite (IH _ c o i ids t Hc Hi). do 2 f_equal. lia.
Qed.

(** ** data *)
(** what stays: coordinates and cells *)
Definition skeleton (g : grid) : list (list R) * list (list Z * Z) := (map p_coords (g_points g), map (fun v => (c_ids v, c_type v)) (g_cells g)).
Record wrote (k : bool) (name : string) (l : list (Z * list R)) (g g' : grid) : Prop := {
  w_skel : skeleton g' = skeleton g;
  w_new : forall id v, In (id, v) l -> data k g' id name = Ok v;
  w_old : forall k' id n v, (k' = k -> n = name -> ~ In id (map fst l)) -> data k' g id n = Ok v -> data k' g' id n = Ok v }.
Lemma wrote_app k name l1 l2 g g1 g2 : (forall id, In id (map fst l1) -> ~ In id (map fst l2)) -> wrote k name l1 g g1 -> wrote k name l2 g1 g2 -> wrote k name (l1 ++ l2) g g2.
Proof.
  intros Hd [S1 N1 O1] [S2 N2 O2]. constructor.
  - congruence.
  - intros id v Hin. apply in_app_iff in Hin. destruct Hin as [Hin|Hin]; [|apply N2; exact Hin]. apply O2; [|apply N1; exact Hin].
    intros _ _. apply Hd. apply in_map_iff. exists (id, v). auto.
  - intros k' id n v Hn Hg. rewrite map_app in Hn. apply O2; [intros E1 E2 Hin; apply (Hn E1 E2); apply in_app_iff; auto|].
    apply O1; [intros E1 E2 Hin; apply (Hn E1 E2); apply in_app_iff; auto|exact Hg].
Qed.
Lemma wrote_nil k name g : wrote k name [] g g.
Proof. constructor; auto. intros ? ? []. Qed.
Definition define (k : bool) (g : grid) (n : string) : grid := if k then define_cell_data g n else define_point_data g n.
Definition set_item (k : bool) (g : grid) (id : Z) (n : string) (v : list R) : outcome grid := if k then set_cell_data g id n v else set_point_data g id n v.
Definition names (k : bool) (g : grid) := if k then g_cnames g else g_pnames g.
Definition count (k : bool) (g : grid) : Z := if k then Z.of_nat (length (g_cells g)) else Z.of_nat (length (g_points g)).
Lemma skeleton_count k g g' : skeleton g' = skeleton g -> count k g' = count k g.
Proof. unfold skeleton. intros E. injection E as E1 E2. apply (f_equal (@length _)) in E1, E2. rewrite !map_length in E1, E2. destruct k; cbn [count]; lia. Qed.
Lemma define_wrote k g n : wrote k n [] g (define k g n) /\ In n (names k (define k g n)).
Proof.
  split.
  - constructor; [destruct k; reflexivity|intros ? ? []|]. intros k' id m v _ H.
    assert (St : exists o, grid_step g o = Ok (define k g n) /\ (forall w, o <> SetPointData id m w) /\ (forall w, o <> SetCellData id m w))
      by (destruct k; [exists (DefineCellData n)|exists (DefinePointData n)]; (split; [reflexivity|split; intros; discriminate])).
    destruct St as (o & Eo & A & B). destruct k'; [eapply keep_cell_data|eapply keep_point_data]; eauto.
  - destruct k; cbn; apply add_name_In; right; reflexivity.
Qed.
Lemma set_item_wrote k g id n v : In n (names k g) -> 0 <= id < count k g -> exists g', set_item k g id n v = Ok g' /\ wrote k n [(id, v)] g g' /\ names k g' = names k g.
Proof.
  intros Hn Hid. destruct (index_of_In _ _ Hn) as (j & Ej & _).
  assert (E : exists g', set_item k g id n v = Ok g' /\ data k g' id n = Ok v /\ skeleton g' = skeleton g /\ names k g' = names k g).
  { destruct k; cbn [set_item names count data] in *.
    - destruct (at_index_in (g_cells g) id Hid) as (c & Ec). unfold set_cell_data. rewrite Ec. cbn [obind]. rewrite Ej. cbn [obind]. eexists. split; [reflexivity|]. split; [|split].
      + unfold cell_data. cbn [g_cnames g_cells]. rewrite Ej. cbn [obind]. rewrite (replace_same _ _ _ _ Ec). cbn [obind]. unfold cell_get. cbn [c_data]. rewrite set_data_same. reflexivity.
      + unfold skeleton. cbn [g_points g_cells]. f_equal. apply (map_replace _ _ _ _ c Ec). reflexivity.
      + reflexivity.
    - destruct (at_index_in (g_points g) id Hid) as (c & Ec). unfold set_point_data. rewrite Ec. cbn [obind]. rewrite Ej. cbn [obind]. eexists. split; [reflexivity|]. split; [|split].
      + unfold point_data. cbn [g_pnames g_points]. rewrite Ej. cbn [obind]. rewrite (replace_same _ _ _ _ Ec). cbn [obind]. unfold point_get. cbn [p_data]. rewrite set_data_same. reflexivity.
      + unfold skeleton. cbn [g_points g_cells]. f_equal. apply (map_replace _ _ _ _ c Ec). reflexivity.
      + reflexivity. }
  destruct E as (g' & E & D & Sk & Nm). exists g'. split; [exact E|]. split; [|exact Nm]. constructor; [exact Sk|intros id' v' [Ei|[]]; injection Ei as <- <-; exact D|].
  intros k' id' m w Hne H.
  assert (St : exists o, grid_step g o = Ok g' /\ o = (if k then SetCellData id n v else SetPointData id n v))
    by (exists (if k then SetCellData id n v else SetPointData id n v); split; [|reflexivity]; unfold grid_step; destruct k; cbn [grid_call set_item] in *; rewrite E; reflexivity).
  destruct St as (o & Eo & Eq).
  assert (X : ~ (k' = k /\ m = n /\ id' = id)) by (intros (A & B & C); apply (Hne A B); left; cbn; auto).
  destruct k'; [eapply keep_cell_data; [exact Eo| |exact H]|eapply keep_point_data; [exact Eo| |exact H]]; intros u Eu; subst o; destruct k; try discriminate; injection Eu; intros; apply X; auto.
Qed.
(** consecutive items *)
Fixpoint set_seq (k : bool) (g : grid) (name : string) (id : Z) (vals : list (list R)) : outcome grid :=
  match vals with [] => Ok g | v :: l => obind (set_item k g id name v) (fun g1 => set_seq k g1 name (id + 1) l) end.
Fixpoint number_from (id : Z) (vals : list (list R)) : list (Z * list R) := match vals with [] => [] | v :: l => (id, v) :: number_from (id + 1) l end.
Lemma number_from_ids id vals : forall j, In j (map fst (number_from id vals)) <-> id <= j < id + Z.of_nat (length vals).
Proof.
  revert id. induction vals as [|v vals IH]; intros id j; cbn [number_from map In fst length]; [lia|]. rewrite IH. lia.
Qed.
Lemma number_from_nth vals : forall id i v, nth_error vals i = Some v -> In (id + Z.of_nat i, v) (number_from id vals).
Proof.
  induction vals as [|w vals IH]; intros id i v H; [destruct i; discriminate|]. destruct i as [|i]; cbn [nth_error number_from] in *.
  - injection H as ->. left. f_equal. lia.
  - right. replace (id + Z.of_nat (S i)) with (id + 1 + Z.of_nat i) by lia. apply IH. exact H.
Qed.
Lemma set_seq_wrote k name vals : forall g id, In name (names k g) -> 0 <= id -> id + Z.of_nat (length vals) <= count k g ->
  exists g', set_seq k g name id vals = Ok g' /\ wrote k name (number_from id vals) g g'.
Proof.
  induction vals as [|v vals IH]; intros g id Hn H0 Hc; cbn [set_seq number_from length] in *; [exists g; split; [reflexivity|apply wrote_nil]|].
  destruct (set_item_wrote k g id name v Hn) as (g1 & E & W & N1); [lia|]. rewrite E. cbn [obind].
  destruct (IH g1 (id + 1)) as (g2 & E2 & W2); [rewrite N1; exact Hn|lia|rewrite (skeleton_count k g g1 (w_skel _ _ _ _ _ W)); lia|].
  exists g2. split; [exact E2|]. apply (wrote_app k name [(id, v)] _ g g1 g2); auto. intros j [<-|[]]. cbn [fst]. rewrite number_from_ids. lia.
Qed.

Lemma set_points_seq name s n vals : forall g i, 0 <= i -> i + Z.of_nat (length vals) <= Z.of_nat n ->
  set_points g name (zseq s n) i (map (fun x => Ok x) vals) = set_seq false g name (Z.of_nat s + i) vals.
Proof.
  induction vals as [|v vals IH]; intros g i H0 H; cbn [map set_points set_seq length] in *; [reflexivity|]. cbn [obind]. rewrite at_zseq by lia. cbn [obind set_item].
  destruct (set_point_data g (Z.of_nat s + i) name v); cbn [obind]; try reflexivity. rewrite IH by lia. f_equal. lia.
Qed.
Lemma set_cells_seq name s n vals : forall g i, 0 <= i -> i + Z.of_nat (length vals) <= Z.of_nat n ->
  set_cells g name (zseq s n) i vals = set_seq true g name (Z.of_nat s + i) vals.
Proof.
  induction vals as [|v vals IH]; intros g i H0 H; cbn [set_cells set_seq length] in *; [reflexivity|]. rewrite at_zseq by lia. cbn [obind set_item].
  destruct (set_cell_data g (Z.of_nat s + i) name v); cbn [obind]; try reflexivity. rewrite IH by lia. f_equal. lia.
Qed.
Lemma set_offset_seq name offset vals : forall g i, set_offset g name offset i vals = set_seq false g name (i + offset) vals.
Proof.
  induction vals as [|v vals IH]; intros g i; cbn [set_offset set_seq]; [reflexivity|]. cbn [set_item].
  destruct (set_point_data g (i + offset) name v); cbn [obind]; try reflexivity. rewrite IH. f_equal. lia.
Qed.

(** the loop over the cells, when the body for cell i stores [vals i o] from id [at i] on *)
Lemma for_cells_wrote k name (body : nat -> vobj -> grid -> outcome grid) (vals : nat -> vobj -> list (list R)) (N : Z) (at_ : nat -> Z) :
  forall objs i g, count k g = N ->
  (forall c o g, nth_error objs c = Some o -> count k g = N -> exists g', body (i + c)%nat o g = Ok g' /\ wrote k name (number_from (at_ (i + c)%nat) (vals (i + c)%nat o)) g g') ->
  (forall c o c' o', nth_error objs c = Some o -> nth_error objs c' = Some o' -> (c < c')%nat -> at_ (i + c)%nat + Z.of_nat (length (vals (i + c)%nat o)) <= at_ (i + c')%nat) ->
  exists g' l, for_cells body objs i g = Ok g' /\ wrote k name l g g' /\
    (forall c o p, nth_error objs c = Some o -> In p (number_from (at_ (i + c)%nat) (vals (i + c)%nat o)) -> In p l) /\
    (forall id, In id (map fst l) -> exists c o, nth_error objs c = Some o /\ In id (map fst (number_from (at_ (i + c)%nat) (vals (i + c)%nat o)))).
Proof.
  induction objs as [|o objs IH]; intros i g Hc Hb Hd; cbn [for_cells].
  - exists g, []. split; [reflexivity|]. split; [apply wrote_nil|]. split; [intros [|c]; discriminate|intros ? []].
  - destruct (Hb 0%nat o g eq_refl Hc) as (g1 & E1 & W1). rewrite Nat.add_0_r in *. rewrite E1. cbn [obind].
    destruct (IH (S i) g1) as (g2 & l2 & E2 & W2 & In2 & Ids2).
    + rewrite (skeleton_count k g g1 (w_skel _ _ _ _ _ W1)). exact Hc.
    + intros c o' g' Hc' Hg'. replace (S i + c)%nat with (i + S c)%nat by lia. apply Hb; auto.
    + intros c o1 c' o2 H1 H2 Hlt. replace (S i + c)%nat with (i + S c)%nat by lia. replace (S i + c')%nat with (i + S c')%nat by lia. apply (Hd (S c) o1 (S c') o2); auto; lia.
    + exists g2, (number_from (at_ i) (vals i o) ++ l2). split; [exact E2|]. split; [|split].
      * apply (wrote_app k name _ _ g g1 g2); auto. intros id Hin Hin2. apply Ids2 in Hin2. destruct Hin2 as (c & o' & Hc' & Hin2).
        apply number_from_ids in Hin, Hin2. specialize (Hd 0%nat o (S c) o' eq_refl Hc' ltac:(lia)). rewrite Nat.add_0_r in Hd. replace (i + S c)%nat with (S i + c)%nat in Hd by lia. lia.
      * intros c o' p Hc' Hp. apply in_app_iff. destruct c as [|c]; cbn [nth_error] in Hc'.
        -- injection Hc' as <-. rewrite Nat.add_0_r in Hp. left. exact Hp.
        -- right. apply (In2 c o'); auto. replace (S i + c)%nat with (i + S c)%nat by lia. exact Hp.
      * intros id Hin. rewrite map_app, in_app_iff in Hin. destruct Hin as [Hin|Hin].
        -- exists 0%nat, o. rewrite Nat.add_0_r. auto.
        -- apply Ids2 in Hin. destruct Hin as (c & o' & Hc' & Hin). exists (S c), o'. replace (i + S c)%nat with (S i + c)%nat by lia. auto.
Qed.

(** ** averages *)
Lemma vec_add_ok a : forall b, length a = length b -> vec_add a b = Ok (map (fun k => nth k a 0 + nth k b 0)%R (seq 0 (length a))).
Proof.
  induction a as [|x a IH]; intros [|y b] H; try discriminate; [reflexivity|]. cbn [vec_add length seq map nth]. injection H as H. rewrite (IH b H). cbn [omap]. f_equal. f_equal.
  rewrite <- seq_shift, map_map. reflexivity.
Qed.
Lemma nth_mapseq (f : nat -> R) n k : (k < n)%nat -> nth k (map f (seq 0 n)) 0%R = f k.
Proof. intros H. rewrite (nth_indep _ 0%R (f 0%nat)) by (rewrite map_length, seq_length; exact H). rewrite map_nth, seq_nth by exact H. reflexivity. Qed.
Lemma mapseq_id (a : list R) : map (fun k => nth k a 0%R) (seq 0 (length a)) = a.
Proof. induction a as [|x a IH]; [reflexivity|]. cbn [length seq map nth]. rewrite <- seq_shift, map_map. rewrite IH. reflexivity. Qed.
Lemma vec_sum_ok n vs : forall a, length a = n -> (forall v, In v vs -> length v = n) ->
  vec_sum a vs = Ok (map (fun k => nth k a 0 + rsum (length vs) (fun j => nth k (nth j vs []) 0))%R (seq 0 n)).
Proof.
  induction vs as [|v vs IH]; intros a Ha Hv; cbn [vec_sum].
  - f_equal. rewrite <- (mapseq_id a) at 1. rewrite Ha. apply map_ext. intros k. cbn. ring.
  - rewrite vec_add_ok by (rewrite Ha; symmetry; apply Hv; left; reflexivity). cbn [obind]. rewrite IH.
    + f_equal. apply map_ext_in. intros k Hk. apply in_seq in Hk. rewrite Ha, nth_mapseq by lia. cbn [length]. rewrite rsum_front. cbn [nth]. ring.
    + rewrite map_length, seq_length. exact Ha.
    + intros w Hw. apply Hv. right. exact Hw.
Qed.
Lemma average_ok vals n : vals <> [] -> (forall v, In v vals -> length v = n) ->
  exists s, vec_sum (repeat 0%R (length (hd [] vals))) vals = Ok s /\ map (fun x => (x / INR (length vals))%R) s = mean vals.
Proof.
  intros Hn Hv. assert (L : length (hd [] vals) = n) by (destruct vals as [|v0 l]; [congruence|apply Hv; left; reflexivity]).
  eexists. split; [apply (vec_sum_ok n); [rewrite repeat_length; exact L|exact Hv]|]. unfold mean. rewrite L, map_map. apply map_ext_in. intros k Hk. apply in_seq in Hk.
  cbv beta. rewrite nth_repeat. rewrite Rplus_0_l. reflexivity.
Qed.

(** ** one call *)
(** the state after construction *)
Record ready (h : handler) (objs : list vobj) (v : visu) : Prop := {
  r_skel : skeleton (vi_grid v) = skeleton (mkGrid (layout_points h objs) (layout_cells h 0 objs) [] []);
  r_pids : vi_pids v = layout_pids h 0 objs;
  r_sub : forall pts cs, h = HVoronoi pts cs -> vi_sub v = layout_sub h 0 objs }.
Lemma ready_count h objs g k : skeleton g = skeleton (mkGrid (layout_points h objs) (layout_cells h 0 objs) [] []) ->
  count k g = first_of (items h k) objs (length objs).
Proof.
  intros E. rewrite (skeleton_count k _ _ E). destruct k; cbn [count g_points g_cells].
  - apply layout_cells_length.
  - unfold layout_points. apply (first_length (items h false)). intros o. apply map_length.
Qed.
Definition vals_of (h : handler) (op : vop) (c : nat) (o : vobj) : list (list R) := map (stored h op c o) (seq 0 (items h (fst (target h op)) o)).
Lemma map_nth_seq {A B} (f : A -> B) (l : list A) d : map f l = map (fun i => f (nth i l d)) (seq 0 (length l)).
Proof. induction l as [|a l IH]; [reflexivity|]. cbn [length seq map nth]. rewrite <- seq_shift, map_map, <- IH. reflexivity. Qed.
Lemma to3d_pad v : (length v <= 3)%nat -> to3d v = Ok (pad3 v).
Proof. intros H. unfold to3d. destruct (Nat.leb_spec (length v) 3); [reflexivity|lia]. Qed.
Lemma handler_points_ok h o : supported h o -> handler_points h (v_shape o) = Ok (points_of h o).
Proof. intros (Hs & _). destruct h; cbn [handler_points points_of] in *; auto. destruct (v_shape o); try reflexivity; destruct Hs; congruence. Qed.
Lemma evaluated_ok h s pts : evaluated h (zseq s (length pts)) pts = map (fun x => Ok x) pts.
Proof.
  destruct h; cbn [evaluated]; try reflexivity. unfold per_id, zseq. rewrite map_length, seq_length. rewrite (map_nth_seq (fun x : list R => Ok x) pts []).
  apply map_ext_in. intros i Hi. apply in_seq in Hi. rewrite (nth_error_nth' pts []) by lia. reflexivity.
Qed.
Lemma defined_seq k name g s vals : 0 <= s -> s + Z.of_nat (length vals) <= count k g ->
  exists g', set_seq k (define k g name) name s vals = Ok g' /\ wrote k name (number_from s vals) g g'.
Proof.
  intros H0 H1. destruct (define_wrote k g name) as (W & Hin). destruct (set_seq_wrote k name vals (define k g name) s Hin H0) as (g' & E & W').
  { rewrite (skeleton_count k g _ (w_skel _ _ _ _ _ W)). exact H1. }
  exists g'. split; [exact E|]. apply (wrote_app k name [] _ g _ g' ltac:(intros ? []) W W').
Qed.
Lemma body_ok h objs v op c o g : ready h objs v -> (forall o, In o objs -> supported h o) -> op_ok h objs op -> nth_error objs c = Some o ->
  skeleton g = skeleton (vi_grid v) ->
  exists g', match op with
    | VDof name num f => obind (pids_of v c) (fun pids => write_dof h o pids name num (f c) g)
    | VCell name vals => write_cell h (vi_sub v) (Z.of_nat c) name (vals c) g
    | VPoint name f => obind (pids_of v c) (fun pids => write_point h o pids name f g)
    end = Ok g' /\ wrote (fst (target h op)) (snd (target h op)) (number_from (first_of (items h (fst (target h op))) objs c) (vals_of h op c o)) g g'.
Proof.
  intros [Rk Rp Rs] Hs Hop Hc Hg. assert (So : supported h o) by (apply Hs; eapply nth_error_In; eauto). specialize (Hop c o Hc).
  assert (Cn : forall k, first_of (items h k) objs c + Z.of_nat (items h k o) <= count k g).
  { intros k. rewrite (ready_count h objs g k) by congruence. destruct (items h k o) as [|m] eqn:Em.
    - rewrite Z.add_0_r. clear - Hc. revert c Hc. induction objs as [|o' l IH]; intros [|c] Hc; try discriminate; cbn [first_of length] in *; [pose proof (first_nonneg (items h k) l (length l)); lia|specialize (IH c Hc); lia].
    - pose proof (first_bound (items h k) objs c o m Hc ltac:(lia)). lia. }
  assert (F0 : forall k, 0 <= first_of (items h k) objs c) by (intros; apply first_nonneg).
  assert (Pid : pids_of v c = Ok (zseq (Z.to_nat (first_point h objs c)) (length (points_of h o)))) by (unfold pids_of; rewrite Rp, (layout_pids_nth h objs 0 c o Hc); reflexivity).
  assert (Ps : Z.of_nat (Z.to_nat (first_point h objs c)) = first_of (items h false) objs c) by (rewrite Z2Nat.id; [reflexivity|apply first_nonneg]).
  assert (Body : forall name (F : list R -> outcome (list R)), (forall x, In x (points_of h o) -> F x = Ok match F x with Ok y => y | _ => [] end) ->
     exists g', obind (handler_points h (v_shape o)) (fun pts => set_points (define_point_data g name) name (zseq (Z.to_nat (first_point h objs c)) (length (points_of h o))) 0
        (map (fun ox => obind ox F) (evaluated h (zseq (Z.to_nat (first_point h objs c)) (length (points_of h o))) pts))) = Ok g' /\
       wrote false name (number_from (first_of (items h false) objs c) (map (fun i => match F (nth i (points_of h o) []) with Ok y => y | _ => [] end) (seq 0 (length (points_of h o))))) g g').
  { intros name F HF. rewrite handler_points_ok by exact So. cbn [obind]. rewrite evaluated_ok, map_map. cbn [obind].
    set (vals := map (fun i => match F (nth i (points_of h o) []) with Ok y => y | _ => [] end) (seq 0 (length (points_of h o)))).
    assert (Ev : map F (points_of h o) = map (fun x => Ok x) vals).
    { unfold vals. rewrite map_map. rewrite (map_nth_seq F (points_of h o) []). apply map_ext_in. intros i Hi. apply in_seq in Hi. apply HF. apply nth_In. lia. }
    match goal with |- context [set_points _ _ _ _ ?m] => change m with (map F (points_of h o)) end. rewrite Ev.
    assert (Lv : length vals = length (points_of h o)) by (unfold vals; rewrite map_length, seq_length; reflexivity).
    rewrite set_points_seq by (rewrite ?Lv; lia). rewrite Ps, Z.add_0_r. apply (defined_seq false name g); [apply F0|]. rewrite Lv. apply (Cn false). }
  destruct op as [name num f|name vals|name f]; cbn [target fst snd].
  - rewrite Pid. cbn [obind]. unfold write_dof. destruct (Body name (fun x => dof_value h num (f c x))) as (g' & E & W).
    { intros x Hx. unfold dof_value. destruct h; try reflexivity; destruct (Z.eqb_spec num 2); try reflexivity; rewrite to3d_pad by (apply Hop; auto); reflexivity. }
    exists g'. split; [exact E|]. unfold vals_of. cbn [target fst]. replace (map (stored h (VDof name num f) c o) (seq 0 (items h false o))) with
      (map (fun i => match dof_value h num (f c (nth i (points_of h o) [])) with Ok y => y | _ => [] end) (seq 0 (length (points_of h o)))); [exact W|].
    apply map_ext_in. intros i Hi. apply in_seq in Hi. unfold items in Hi. unfold stored, dof_value. assert (Hx : In (nth i (points_of h o) []) (points_of h o)) by (apply nth_In; lia).
    destruct h; try reflexivity; destruct (Z.eqb_spec num 2); try reflexivity; rewrite to3d_pad by (apply Hop; auto); reflexivity.
  - destruct h as [|pts cs|pts]; cbn [write_cell fst snd] in *.
    + destruct Hop as (n & Hne & Hl). destruct (average_ok (vals c) n Hne Hl) as (s & Es & Em). destruct (vals c) as [|v0 l] eqn:Ev; [congruence|]. cbn [hd] in Es. rewrite Es. cbn [obind]. rewrite Em.
      assert (I1 : first_of (items HAverage true) objs c = Z.of_nat c).
      { clear - Hc. revert c Hc. induction objs as [|o' l IH]; intros [|c] Hc; try discriminate; cbn [first_of nth_error] in *; [reflexivity|]. rewrite (IH c Hc). change (items HAverage true o') with 1%nat. lia. }
      destruct (defined_seq true name g (Z.of_nat c) [mean (v0 :: l)]) as (g' & E & W); [lia|specialize (Cn true); rewrite I1 in Cn; exact Cn|].
      cbn [set_seq set_item define] in E. exists g'. split.
      * destruct (set_cell_data (define_cell_data g name) (Z.of_nat c) name (mean (v0 :: l))); cbn [obind] in E; try discriminate. exact E.
      * rewrite I1. unfold vals_of. cbn [target fst items cells_of length seq map stored]. rewrite Ev. exact W.
    + assert (Sub : at_index (vi_sub v) (Z.of_nat c) = Ok (zseq (Z.to_nat (first_cell (HVoronoi pts cs) objs c)) (length cs))).
      { unfold at_index. destruct (Z.ltb_spec (Z.of_nat c) 0); [lia|]. rewrite Nat2Z.id, (Rs pts cs eq_refl), (layout_sub_nth _ objs 0 c o Hc). reflexivity. }
      rewrite Sub. cbn [obind]. unfold zseq at 1. rewrite map_length, seq_length, Hop, Nat.eqb_refl.
      assert (Ps' : Z.of_nat (Z.to_nat (first_cell (HVoronoi pts cs) objs c)) = first_of (items (HVoronoi pts cs) true) objs c) by (rewrite Z2Nat.id; [reflexivity|apply first_nonneg]).
      rewrite set_cells_seq by (rewrite ?Hop; lia). rewrite Ps', Z.add_0_r.
      destruct (defined_seq true name g (first_of (items (HVoronoi pts cs) true) objs c) (vals c)) as (g' & E & W); [apply F0|rewrite Hop; apply (Cn true)|].
      exists g'. split; [exact E|]. unfold vals_of. cbn [target fst items cells_of stored]. rewrite <- Hop. rewrite <- (map_id (vals c)) in W. rewrite (map_nth_seq (fun x => x) (vals c) []) in W. exact W.
    + rewrite Hop, Nat.eqb_refl.
      assert (I1 : first_of (items (HPoint pts) false) objs c = Z.of_nat c * Z.of_nat (length pts)).
      { clear - Hc. revert c Hc. induction objs as [|o' l IH]; intros [|c] Hc; try discriminate; cbn [first_of nth_error] in *; [lia|]. rewrite (IH c Hc). unfold items. cbn [points_of]. lia. }
      rewrite set_offset_seq, Z.add_0_l, <- I1.
      destruct (defined_seq false name g (first_of (items (HPoint pts) false) objs c) (vals c)) as (g' & E & W); [apply F0|rewrite Hop; apply (Cn false)|].
      exists g'. split; [exact E|]. unfold vals_of. cbn [target fst items points_of stored]. rewrite <- Hop. rewrite <- (map_id (vals c)) in W. rewrite (map_nth_seq (fun x => x) (vals c) []) in W. exact W.
  - rewrite Pid. cbn [obind]. unfold write_point. destruct (Body name (fun x => Ok (f (v_coords o x)))) as (g' & E & W); [reflexivity|]. exists g'. split; [exact E|exact W].
Qed.
Lemma op_wrote h objs v op : ready h objs v -> (forall o, In o objs -> supported h o) -> op_ok h objs op ->
  exists v' l, visu_op h objs v op = Ok v' /\ ready h objs v' /\ wrote (fst (target h op)) (snd (target h op)) l (vi_grid v) (vi_grid v') /\
    forall c o i, nth_error objs c = Some o -> (i < items h (fst (target h op)) o)%nat -> In (item h (fst (target h op)) objs c i, stored h op c o i) l.
Proof.
  intros R Hs Hop. pose proof R as [Rk Rp Rs]. set (k := fst (target h op)) in *. set (name := snd (target h op)) in *.
  set (body := fun (c : nat) (o : vobj) (g : grid) => match op with
    | VDof name num f => obind (pids_of v c) (fun pids => write_dof h o pids name num (f c) g)
    | VCell name vals => write_cell h (vi_sub v) (Z.of_nat c) name (vals c) g
    | VPoint name f => obind (pids_of v c) (fun pids => write_point h o pids name f g) end).
  (* the loop with the skeleton as invariant *)
  assert (Loop : forall done rest g, objs = done ++ rest -> skeleton g = skeleton (vi_grid v) ->
    exists g' l, for_cells body rest (length done) g = Ok g' /\ wrote k name l g g' /\
      (forall c o p, nth_error rest c = Some o -> In p (number_from (first_of (items h k) objs (length done + c)) (vals_of h op (length done + c) o)) -> In p l) /\
      (forall id, In id (map fst l) -> first_of (items h k) objs (length done) <= id)).
  { intros done rest. revert done. induction rest as [|o rest IH]; intros done g E Sk; cbn [for_cells].
    - exists g, []. split; [reflexivity|]. split; [apply wrote_nil|]. split; [intros [|c]; discriminate|intros ? []].
    - assert (Hc : nth_error objs (length done) = Some o) by (rewrite E, nth_error_app2, Nat.sub_diag by lia; reflexivity).
      destruct (body_ok h objs v op (length done) o g R Hs Hop Hc Sk) as (g1 & E1 & W1). fold k name in W1. change (body (length done) o g = Ok g1) in E1. rewrite E1. cbn [obind].
      destruct (IH (done ++ [o]) g1) as (g2 & l2 & E2 & W2 & In2 & Ids2); [rewrite <- app_assoc; exact E|rewrite (w_skel _ _ _ _ _ W1); exact Sk|].
      rewrite app_length in E2, In2, Ids2. cbn [length] in E2, In2, Ids2. rewrite Nat.add_1_r in E2, In2, Ids2.
      assert (Fs : first_of (items h k) objs (S (length done)) = first_of (items h k) objs (length done) + Z.of_nat (items h k o)).
      { clear - Hc. revert Hc. generalize (length done). clear. induction objs as [|o' l IH]; intros [|n] Hc; try discriminate; cbn [first_of nth_error] in *.
        - injection Hc as ->. destruct l; cbn [first_of]; lia.
        - rewrite <- Z.add_assoc, <- (IH n Hc). destruct l; [destruct n; discriminate|]. reflexivity. }
      assert (Lv : length (vals_of h op (length done) o) = items h k o) by (unfold vals_of; rewrite map_length, seq_length; reflexivity).
      exists g2, (number_from (first_of (items h k) objs (length done)) (vals_of h op (length done) o) ++ l2). split; [exact E2|]. split; [|split].
      + apply (wrote_app k name _ _ g g1 g2); auto. intros id Hin Hin2. apply Ids2 in Hin2. apply number_from_ids in Hin. lia.
      + intros c o' p Hc' Hp. apply in_app_iff. destruct c as [|c]; cbn [nth_error] in Hc'.
        * injection Hc' as <-. rewrite Nat.add_0_r in Hp. left. exact Hp.
        * right. apply (In2 c o'); auto. replace (S (length done) + c)%nat with (length done + S c)%nat by lia. exact Hp.
      + intros id Hin. rewrite map_app, in_app_iff in Hin. destruct Hin as [Hin|Hin]; [apply number_from_ids in Hin; lia|]. apply Ids2 in Hin. lia. }
  destruct (Loop [] objs (vi_grid v) eq_refl eq_refl) as (g' & l & E & W & Hin & _). cbn [length Nat.add] in E, Hin.
  exists (mkVisu g' (vi_pids v) (vi_sub v)), l. split; [|split; [|split]].
  - unfold visu_op. assert (Ebody : match op with
      | VDof name num f => for_cells (fun i o g => obind (pids_of v i) (fun pids => write_dof h o pids name num (f i) g)) objs 0 (vi_grid v)
      | VCell name vals => for_cells (fun i o g => write_cell h (vi_sub v) (Z.of_nat i) name (vals i) g) objs 0 (vi_grid v)
      | VPoint name f => for_cells (fun i o g => obind (pids_of v i) (fun pids => write_point h o pids name f g)) objs 0 (vi_grid v)
      end = for_cells body objs 0 (vi_grid v)) by (destruct op; reflexivity).
    rewrite Ebody, E. reflexivity.
  - constructor; cbn [vi_grid vi_pids vi_sub]; auto. rewrite (w_skel _ _ _ _ _ W). exact Rk.
  - exact W.
  - intros c o i Hc Hi. apply (Hin c o); auto. unfold item. fold k. apply number_from_nth. unfold vals_of. fold k. rewrite (map_nth_error _ _ _ (d := i)); [reflexivity|].
    rewrite (nth_error_nth' _ 0%nat) by (rewrite seq_length; exact Hi). rewrite seq_nth by exact Hi. reflexivity.
Qed.
Lemma ready_geometry h objs v : ready h objs v -> geometry h objs (vi_grid v).
Proof.
  intros [Rk _ _]. unfold skeleton in Rk. injection Rk as Kp Kc. cbn [g_points g_cells] in Kp, Kc.
  assert (At : forall {A B} (f : A -> B) (l : list A) i b, 0 <= i -> nth_error (map f l) (Z.to_nat i) = Some b -> omap f (at_index l i) = Ok b).
  { intros A B f l i b Hi H. unfold at_index. destruct (Z.ltb_spec i 0); [lia|]. rewrite nth_error_map in H. destruct (nth_error l (Z.to_nat i)); cbn in *; congruence. }
  split; [|split; [|split]].
  - intros c o i x Hc Hx. apply At; [unfold item; pose proof (first_nonneg (items h false) objs c); lia|]. rewrite Kp.
    rewrite (map_nth_error p_coords (Z.to_nat (item h false objs c i)) _ (d := fresh o x)); [reflexivity|]. unfold item, layout_points.
    apply (nth_first (items h false) (fun o => map (fresh o) (points_of h o)) objs ltac:(intros; apply map_length) c o i (fresh o x) Hc). apply map_nth_error. exact Hx.
  - intros c o i ids t Hc Hx. apply (At _ _ (fun v => (c_ids v, c_type v))); [unfold item; pose proof (first_nonneg (items h true) objs c); lia|]. rewrite Kc.
    rewrite (map_nth_error (fun v => (c_ids v, c_type v)) _ _ (layout_cells_nth h objs 0 c o i ids t Hc Hx)). unfold fresh_cell. cbn [c_ids c_type fst snd]. do 2 f_equal.
    apply map_ext. intros j. rewrite Nat.add_0_l, Z2Nat.id by apply first_nonneg. reflexivity.
  - apply (f_equal (@length _)) in Kp. rewrite !map_length in Kp. rewrite Kp. unfold layout_points. apply first_length. intros. apply map_length.
  - apply (f_equal (@length _)) in Kc. rewrite !map_length in Kc. rewrite Kc. apply layout_cells_length.
Qed.
