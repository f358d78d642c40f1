(** * Proofs for C52, C53 and C55 *)
From Coq Require Import String List ZArith Arith Bool Reals Lia Permutation.
From Verif Require Import Outcome GridModel GridSpec.
Import ListNotations.
Local Open Scope Z_scope.

(** ** The grid *)
Lemma run_snoc h o : grid_run (h ++ [o]) = obind (grid_run h) (fun g => grid_step g o).
Proof. unfold grid_run. rewrite fold_left_app. reflexivity. Qed.

Lemma index_of_In names n : In n names -> exists k, index_of names n = Ok k /\ nth_error names k = Some n.
Proof.
  induction names as [|m l IH]; intros H; [contradiction|]. cbn [index_of].
  destruct (String.eqb_spec m n) as [->|Hne]; [exists O; auto|].
  destruct H as [H|H]; [congruence|]. destruct (IH H) as (k & -> & Hk). exists (S k). auto.
Qed.
Lemma index_of_nth names n k : index_of names n = Ok k -> nth_error names k = Some n.
Proof.
  revert k. induction names as [|m l IH]; intros k H; [discriminate|]. cbn [index_of] in H.
  destruct (String.eqb_spec m n) as [->|Hne]; [injection H as <-; reflexivity|].
  destruct (index_of l n) as [j| |]; try discriminate. injection H as <-. exact (IH j eq_refl).
Qed.
Lemma index_of_not names n : ~ In n names -> index_of names n = Throw.
Proof.
  induction names as [|m l IH]; intros H; [reflexivity|]. cbn [index_of].
  destruct (String.eqb_spec m n) as [->|Hne]; [exfalso; apply H; left; reflexivity|].
  rewrite IH; [reflexivity|]. intros Hi. apply H. right. exact Hi.
Qed.
Lemma index_of_app names n k l : index_of names n = Ok k -> index_of (names ++ l) n = Ok k.
Proof.
  revert k. induction names as [|m l' IH]; intros k H; [discriminate|]. cbn [index_of app] in *.
  destruct (String.eqb m n); [exact H|]. destruct (index_of l' n) as [j| |]; try discriminate. rewrite (IH j eq_refl). exact H.
Qed.
Lemma index_of_add names n k m : index_of names n = Ok k -> index_of (add_name names m) n = Ok k.
Proof. intros H. unfold add_name. destruct (existsb (String.eqb m) names); [exact H|apply index_of_app; exact H]. Qed.
Lemma add_name_In names n m : In m (add_name names n) <-> In m names \/ m = n.
Proof.
  unfold add_name. destruct (existsb (String.eqb n) names) eqn:E.
  - apply existsb_exists in E. destruct E as (x & Hx & Ex). apply String.eqb_eq in Ex. subst x. split; [tauto|]. intros [H| ->]; assumption.
  - rewrite in_app_iff. cbn. intuition congruence.
Qed.
Lemma add_name_NoDup names n : NoDup names -> NoDup (add_name names n).
Proof.
  intros H. unfold add_name. destruct (existsb (String.eqb n) names) eqn:E; [exact H|].
  apply NoDup_rev in H. rewrite <- (rev_involutive (names ++ [n])), rev_app_distr. apply NoDup_rev. cbn [rev app]. constructor; [|exact H].
  intros Hi. apply in_rev in Hi. assert (X : existsb (String.eqb n) names = true); [|congruence].
  apply existsb_exists. exists n. split; [exact Hi|apply String.eqb_refl].
Qed.

Lemma set_data_same d k v : nth_error (set_data d k v) k = Some v.
Proof.
  unfold set_data. set (d' := if Nat.leb (length d) k then _ else d).
  assert (L : (k < length d')%nat).
  { unfold d'. destruct (Nat.leb_spec (length d) k); [rewrite app_length, repeat_length; lia|lia]. }
  rewrite nth_error_app2 by (rewrite firstn_length; lia). rewrite firstn_length, Nat.min_l by lia. rewrite Nat.sub_diag. reflexivity.
Qed.
Lemma firstn_cons_other {A} (l : list A) i j a : (i < length l)%nat -> i <> j -> nth_error (firstn i l ++ a :: skipn (S i) l) j = nth_error l j.
Proof.
  intros H Hne. destruct (lt_dec j i) as [L|L].
  - rewrite nth_error_app1 by (rewrite firstn_length; lia). rewrite <- (firstn_skipn i l) at 2.
    rewrite nth_error_app1 by (rewrite firstn_length; lia). reflexivity.
  - rewrite nth_error_app2 by (rewrite firstn_length; lia). rewrite firstn_length, Nat.min_l by lia.
    destruct (j - i)%nat as [|m] eqn:E; [lia|]. cbn [nth_error]. rewrite <- (firstn_skipn (S i) l) at 2.
    rewrite nth_error_app2 by (rewrite firstn_length; lia). f_equal. rewrite firstn_length. lia.
Qed.
Lemma set_data_other d k v j w : k <> j -> nth_error d j = Some w -> nth_error (set_data d k v) j = Some w.
Proof.
  intros Hne Hj. unfold set_data. assert (Lj : (j < length d)%nat) by (apply nth_error_Some; congruence).
  destruct (Nat.leb_spec (length d) k) as [L|L].
  - rewrite firstn_cons_other by (try rewrite app_length, repeat_length; lia). rewrite nth_error_app1 by lia. exact Hj.
  - rewrite firstn_cons_other by lia. exact Hj.
Qed.
Lemma at_index_some {A} (l : list A) i a : at_index l i = Ok a -> 0 <= i /\ nth_error l (Z.to_nat i) = Some a.
Proof.
  unfold at_index. destruct (Z.ltb_spec i 0); [discriminate|]. destruct (nth_error l (Z.to_nat i)) eqn:E; [|discriminate].
  intros H1. injection H1 as <-. auto.
Qed.
Lemma at_index_in {A} (l : list A) i : 0 <= i < Z.of_nat (length l) -> exists a, at_index l i = Ok a.
Proof.
  intros H. unfold at_index. assert (E : i <? 0 = false) by (apply Z.ltb_ge; lia). rewrite E.
  destruct (nth_error l (Z.to_nat i)) eqn:En; [eauto|]. apply nth_error_None in En. lia.
Qed.
Lemma replace_length {A} (l : list A) i a b : at_index l i = Ok b -> length (replace_at l i a) = length l.
Proof.
  intros H. apply at_index_some in H. destruct H as (H & Hn). assert (L : (Z.to_nat i < length l)%nat) by (apply nth_error_Some; congruence).
  unfold replace_at. rewrite app_length, firstn_length. cbn [length]. rewrite skipn_length. lia.
Qed.
Lemma replace_same {A} (l : list A) i a b : at_index l i = Ok b -> at_index (replace_at l i a) i = Ok a.
Proof.
  intros H. apply at_index_some in H. destruct H as (H & Hn). assert (L : (Z.to_nat i < length l)%nat) by (apply nth_error_Some; congruence).
  unfold at_index, replace_at. assert (E : i <? 0 = false) by (apply Z.ltb_ge; lia). rewrite E.
  rewrite nth_error_app2 by (rewrite firstn_length; lia). rewrite firstn_length, Nat.min_l by lia. rewrite Nat.sub_diag. reflexivity.
Qed.
Lemma replace_other {A} (l : list A) i j a b c : at_index l i = Ok b -> i <> j -> at_index l j = Ok c -> at_index (replace_at l i a) j = Ok c.
Proof.
  intros H Hne Hj. apply at_index_some in H, Hj. destruct H as (H & Hn), Hj as (Hj0 & Hj).
  assert (L : (Z.to_nat i < length l)%nat) by (apply nth_error_Some; congruence).
  unfold at_index, replace_at. assert (E : j <? 0 = false) by (apply Z.ltb_ge; lia). rewrite E.
  rewrite firstn_cons_other by lia. rewrite Hj. reflexivity.
Qed.
Lemma at_index_app {A} (l l' : list A) i a : at_index l i = Ok a -> at_index (l ++ l') i = Ok a.
Proof.
  intros H. apply at_index_some in H. destruct H as (H & Hn). unfold at_index.
  assert (E : i <? 0 = false) by (apply Z.ltb_ge; lia). rewrite E.
  rewrite nth_error_app1 by (apply nth_error_Some; congruence). rewrite Hn. reflexivity.
Qed.
Lemma map_replace {A B} (f : A -> B) (l : list A) i a b : at_index l i = Ok b -> f a = f b -> map f (replace_at l i a) = map f l.
Proof.
  intros H E. apply at_index_some in H. destruct H as (H & Hn). unfold replace_at.
  apply nth_error_split in Hn. destruct Hn as (l1 & l2 & -> & <-). rewrite firstn_app, Nat.sub_diag, firstn_all. cbn [firstn].
  rewrite skipn_app. replace (S (length l1) - length l1)%nat with 1%nat by lia. rewrite skipn_all2 by lia. cbn [skipn app].
  rewrite app_nil_r, !map_app. cbn [map]. rewrite E. reflexivity.
Qed.

Lemma num_points_snoc h o : num_points (h ++ [o]) = num_points h + if is_add_point o then 1 else 0.
Proof. unfold num_points. rewrite filter_app, app_length. cbn [filter]. destruct (is_add_point o); cbn [length]; lia. Qed.
Lemma accepted_snoc h o : forall n, accepted_cells n (h ++ [o]) = accepted_cells n h ++ accepted_cells (n + num_points h) [o].
Proof.
  induction h as [|p h IH]; intros n.
  - cbn [app accepted_cells]. unfold num_points. cbn [filter length Z.of_nat]. rewrite Z.add_0_r. reflexivity.
  - cbn [app]. assert (E : num_points (p :: h) = (if is_add_point p then 1 else 0) + num_points h).
    { unfold num_points. cbn [filter]. destruct (is_add_point p); cbn [length]; lia. }
    rewrite E. destruct p; cbn [is_add_point]; rewrite ?Z.add_0_l, ?Z.add_assoc; cbn [accepted_cells]; rewrite IH, ?app_assoc; reflexivity.
Qed.

(** the grid after a history *)
Record grid_spec (h : list gop) (g : grid) : Prop := mkGS {
  gs_points : Z.of_nat (length (g_points g)) = num_points h;
  gs_cells : map (fun c => (c_ids c, c_type c)) (g_cells g) = accepted_cells 0 h;
  gs_pnames : forall n, In n (g_pnames g) <-> In n (point_names h);
  gs_cnames : forall n, In n (g_cnames g) <-> In n (cell_names h)
}.
Lemma point_names_snoc h o : point_names (h ++ [o]) = point_names h ++ point_names [o].
Proof. apply flat_map_app. Qed.
Lemma cell_names_snoc h o : cell_names (h ++ [o]) = cell_names h ++ cell_names [o].
Proof. apply flat_map_app. Qed.
Lemma num_cells_spec h g : grid_spec h g -> num_cells h = Z.of_nat (length (g_cells g)).
Proof. intros [_ H _ _]. unfold num_cells. rewrite <- H, map_length. reflexivity. Qed.

Lemma check_points_spec g ids : check_points g ids = forallb (fun id => Z.ltb id (Z.of_nat (length (g_points g)))) ids.
Proof.
  unfold check_points. induction ids as [|i l IH]; [reflexivity|]. cbn [forallb]. rewrite IH, Z.geb_leb, <- Z.ltb_antisym. reflexivity.
Qed.

Lemma step_spec h g o : grid_spec h g -> call_ok h o -> exists g', grid_step g o = Ok g' /\ grid_spec (h ++ [o]) g'.
Proof.
  intros Hg Hc. pose proof (num_cells_spec h g Hg) as Nc. destruct Hg as [Hp Hcs Hpn Hcn]. unfold grid_step. destruct o as [c|ids t|n|n|id n v|id n v]; cbn [grid_call call_ok] in *.
  - unfold add_point, to3d. destruct (Nat.leb_spec (length c) 3); [|lia]. cbn [obind omap].
    eexists. split; [reflexivity|]. constructor; cbn [g_points g_cells g_pnames g_cnames].
    + rewrite num_points_snoc, app_length. cbn [length is_add_point]. lia.
    + rewrite accepted_snoc. cbn [accepted_cells]. rewrite app_nil_r. exact Hcs.
    + intros m. rewrite point_names_snoc. cbn. rewrite app_nil_r. apply Hpn.
    + intros m. rewrite cell_names_snoc. cbn. rewrite app_nil_r. apply Hcn.
  - assert (Acc : accepted_cells 0 (h ++ [AddCell ids t]) = accepted_cells 0 h ++ if check_points g ids then [(ids, t)] else []).
    { rewrite accepted_snoc. cbn [accepted_cells]. rewrite app_nil_r, check_points_spec, Hp. reflexivity. }
    assert (Rest : num_points (h ++ [AddCell ids t]) = num_points h /\ point_names (h ++ [AddCell ids t]) = point_names h /\ cell_names (h ++ [AddCell ids t]) = cell_names h).
    { rewrite num_points_snoc, point_names_snoc, cell_names_snoc. cbn. rewrite !app_nil_r. split; [lia|]. auto. }
    destruct Rest as (R1 & R2 & R3). unfold add_cell. destruct (check_points g ids); cbn [omap obind]; (eexists; split; [reflexivity|]); constructor;
      rewrite ?R1, ?R2, ?R3, ?Acc, ?app_nil_r; cbn [g_points g_cells g_pnames g_cnames]; auto.
    rewrite map_app, Hcs. reflexivity.
  - eexists. split; [reflexivity|]. constructor; cbn [define_point_data g_points g_cells g_pnames g_cnames].
    + rewrite num_points_snoc. cbn [is_add_point]. lia.
    + rewrite accepted_snoc. cbn [accepted_cells]. rewrite app_nil_r. exact Hcs.
    + intros m. rewrite add_name_In, Hpn, point_names_snoc, in_app_iff. cbn. intuition.
    + intros m. rewrite cell_names_snoc. cbn. rewrite app_nil_r. apply Hcn.
  - eexists. split; [reflexivity|]. constructor; cbn [define_cell_data g_points g_cells g_pnames g_cnames].
    + rewrite num_points_snoc. cbn [is_add_point]. lia.
    + rewrite accepted_snoc. cbn [accepted_cells]. rewrite app_nil_r. exact Hcs.
    + intros m. rewrite point_names_snoc. cbn. rewrite app_nil_r. apply Hpn.
    + intros m. rewrite add_name_In, Hcn, cell_names_snoc, in_app_iff. cbn. intuition.
  - assert (Keep : forall g', length (g_points g') = length (g_points g) -> g_cells g' = g_cells g -> g_pnames g' = g_pnames g -> g_cnames g' = g_cnames g ->
        grid_spec (h ++ [SetPointData id n v]) g').
    { intros g' E1 E2 E3 E4. constructor.
      - rewrite E1, num_points_snoc. cbn [is_add_point]. lia.
      - rewrite E2, accepted_snoc. cbn [accepted_cells]. rewrite app_nil_r. exact Hcs.
      - intros m. rewrite E3, point_names_snoc. cbn. rewrite app_nil_r. apply Hpn.
      - intros m. rewrite E4, cell_names_snoc. cbn. rewrite app_nil_r. apply Hcn. }
    destruct (at_index_in (g_points g) id) as (p & Ep); [lia|]. unfold set_point_data. rewrite Ep. cbn [obind].
    destruct (index_of (g_pnames g) n) as [k| |] eqn:Ek; cbn [obind omap].
    + eexists. split; [reflexivity|]. apply Keep; cbn [g_points g_cells g_pnames g_cnames]; auto. eapply replace_length, Ep.
    + eexists. split; [reflexivity|]. apply Keep; auto.
    + exfalso. clear - Ek. induction (g_pnames g) as [|m l IH]; [discriminate|]. cbn [index_of] in Ek.
      destruct (String.eqb m n); [discriminate|]. destruct (index_of l n); [discriminate|discriminate|]. apply IH. reflexivity.
  - assert (Keep : forall g', g_points g' = g_points g -> map (fun c => (c_ids c, c_type c)) (g_cells g') = map (fun c => (c_ids c, c_type c)) (g_cells g) ->
        g_pnames g' = g_pnames g -> g_cnames g' = g_cnames g -> grid_spec (h ++ [SetCellData id n v]) g').
    { intros g' E1 E2 E3 E4. constructor.
      - rewrite E1, num_points_snoc. cbn [is_add_point]. lia.
      - rewrite E2, accepted_snoc. cbn [accepted_cells]. rewrite app_nil_r. exact Hcs.
      - intros m. rewrite E3, point_names_snoc. cbn. rewrite app_nil_r. apply Hpn.
      - intros m. rewrite E4, cell_names_snoc. cbn. rewrite app_nil_r. apply Hcn. }
    destruct (at_index_in (g_cells g) id) as (c & Ep); [lia|]. unfold set_cell_data. rewrite Ep. cbn [obind].
    destruct (index_of (g_cnames g) n) as [k| |] eqn:Ek; cbn [obind omap].
    + eexists. split; [reflexivity|]. apply Keep; cbn [g_points g_cells g_pnames g_cnames]; auto. eapply map_replace; [exact Ep|reflexivity].
    + eexists. split; [reflexivity|]. apply Keep; auto.
    + exfalso. clear - Ek. induction (g_cnames g) as [|m l IH]; [discriminate|]. cbn [index_of] in Ek.
      destruct (String.eqb m n); [discriminate|]. destruct (index_of l n); [discriminate|discriminate|]. apply IH. reflexivity.
Qed.

Lemma history_snoc h o : history_ok (h ++ [o]) -> history_ok h /\ call_ok h o.
Proof.
  intros H. split; [|apply (H h o []); reflexivity]. intros h1 p h2 E. apply (H h1 p (h2 ++ [o])). rewrite E, <- app_assoc. reflexivity.
Qed.
Lemma run_spec h : history_ok h -> exists g, grid_run h = Ok g /\ grid_spec h g.
Proof.
  induction h as [|o h IH] using rev_ind; intros H.
  - exists grid_empty. split; [reflexivity|]. constructor; cbn; [reflexivity|reflexivity|tauto|tauto].
  - apply history_snoc in H. destruct H as (H & Ho). destruct (IH H) as (g & E & Hg). rewrite run_snoc, E. cbn [obind]. apply step_spec; assumption.
Qed.

Lemma history_prefix h1 h2 : history_ok (h1 ++ h2) -> history_ok h1.
Proof. intros H a o b E. apply (H a o (b ++ h2)). rewrite E, <- app_assoc. reflexivity. Qed.

(** data is kept by the other calls *)
Lemma keep_point_data g o g' id n v : grid_step g o = Ok g' -> (forall w, o <> SetPointData id n w) ->
  point_data g id n = Ok v -> point_data g' id n = Ok v.
Proof.
  unfold point_data. intros Hs Hne H. destruct (index_of (g_pnames g) n) as [k| |] eqn:Ek; try discriminate. cbn [obind] in H.
  destruct (at_index (g_points g) id) as [p| |] eqn:Ep; try discriminate. cbn [obind] in H.
  unfold grid_step in Hs. destruct o as [c|ids t|m|m|id' m w|id' m w]; cbn [grid_call] in Hs.
  - unfold add_point in Hs. destruct (to3d c); cbn [obind omap] in Hs; try discriminate; injection Hs as <-; cbn [g_pnames g_points].
    + rewrite Ek. cbn [obind]. rewrite (at_index_app _ _ _ _ Ep). exact H.
    + rewrite Ek. cbn [obind]. rewrite Ep. exact H.
  - unfold add_cell in Hs. destruct (check_points g ids); cbn [obind omap] in Hs; injection Hs as <-; cbn [g_pnames g_points]; rewrite Ek; cbn [obind]; rewrite Ep; exact H.
  - injection Hs as <-. cbn [define_point_data g_pnames g_points]. rewrite (index_of_add _ _ _ _ Ek). cbn [obind]. rewrite Ep. exact H.
  - injection Hs as <-. cbn [define_cell_data g_pnames g_points]. rewrite Ek. cbn [obind]. rewrite Ep. exact H.
  - unfold set_point_data in Hs. destruct (at_index (g_points g) id') as [p'| |] eqn:Ep'; cbn [obind omap] in Hs; try discriminate.
    2:{ injection Hs as <-. rewrite Ek. cbn [obind]. rewrite Ep. exact H. }
    destruct (index_of (g_pnames g) m) as [k'| |] eqn:Ek'; cbn [obind omap] in Hs; try discriminate; injection Hs as <-; cbn [g_pnames g_points]; rewrite Ek; cbn [obind].
    2:{ rewrite Ep. exact H. }
    destruct (Z.eq_dec id' id) as [-> |Hid].
    + rewrite (replace_same _ _ _ _ Ep'). cbn [obind]. rewrite Ep in Ep'. injection Ep' as <-.
      unfold point_get in *. cbn [p_data]. destruct (nth_error (p_data p) k) as [x|] eqn:En; [|discriminate]. injection H as ->.
      rewrite (set_data_other _ _ _ _ v); [reflexivity| |exact En]. intros ->.
      apply index_of_nth in Ek, Ek'. assert (m = n) by congruence. subst m. exact (Hne w eq_refl).
    + rewrite (replace_other _ _ _ _ _ _ Ep' Hid Ep). exact H.
  - unfold set_cell_data in Hs. destruct (at_index (g_cells g) id') as [p'| |] eqn:Ep'; cbn [obind omap] in Hs; try discriminate.
    2:{ injection Hs as <-. rewrite Ek. cbn [obind]. rewrite Ep. exact H. }
    destruct (index_of (g_cnames g) m) as [k'| |] eqn:Ek'; cbn [obind omap] in Hs; try discriminate; injection Hs as <-; cbn [g_pnames g_points]; rewrite Ek; cbn [obind]; rewrite Ep; exact H.
Qed.
Lemma keep_cell_data g o g' id n v : grid_step g o = Ok g' -> (forall w, o <> SetCellData id n w) ->
  cell_data g id n = Ok v -> cell_data g' id n = Ok v.
Proof.
  unfold cell_data. intros Hs Hne H. destruct (index_of (g_cnames g) n) as [k| |] eqn:Ek; try discriminate. cbn [obind] in H.
  destruct (at_index (g_cells g) id) as [p| |] eqn:Ep; try discriminate. cbn [obind] in H.
  unfold grid_step in Hs. destruct o as [c|ids t|m|m|id' m w|id' m w]; cbn [grid_call] in Hs.
  - unfold add_point in Hs. destruct (to3d c); cbn [obind omap] in Hs; try discriminate; injection Hs as <-; cbn [g_cnames g_cells]; rewrite Ek; cbn [obind]; rewrite Ep; exact H.
  - unfold add_cell in Hs. destruct (check_points g ids); cbn [obind omap] in Hs; injection Hs as <-; cbn [g_cnames g_cells]; rewrite Ek; cbn [obind].
    + rewrite (at_index_app _ _ _ _ Ep). exact H.
    + rewrite Ep. exact H.
  - injection Hs as <-. cbn [define_point_data g_cnames g_cells]. rewrite Ek. cbn [obind]. rewrite Ep. exact H.
  - injection Hs as <-. cbn [define_cell_data g_cnames g_cells]. rewrite (index_of_add _ _ _ _ Ek). cbn [obind]. rewrite Ep. exact H.
  - unfold set_point_data in Hs. destruct (at_index (g_points g) id') as [p'| |] eqn:Ep'; cbn [obind omap] in Hs; try discriminate.
    2:{ injection Hs as <-. rewrite Ek. cbn [obind]. rewrite Ep. exact H. }
    destruct (index_of (g_pnames g) m) as [k'| |] eqn:Ek'; cbn [obind omap] in Hs; try discriminate; injection Hs as <-; cbn [g_cnames g_cells]; rewrite Ek; cbn [obind]; rewrite Ep; exact H.
  - unfold set_cell_data in Hs. destruct (at_index (g_cells g) id') as [p'| |] eqn:Ep'; cbn [obind omap] in Hs; try discriminate.
    2:{ injection Hs as <-. rewrite Ek. cbn [obind]. rewrite Ep. exact H. }
    destruct (index_of (g_cnames g) m) as [k'| |] eqn:Ek'; cbn [obind omap] in Hs; try discriminate; injection Hs as <-; cbn [g_cnames g_cells]; rewrite Ek; cbn [obind].
    2:{ rewrite Ep. exact H. }
    destruct (Z.eq_dec id' id) as [-> |Hid].
    + rewrite (replace_same _ _ _ _ Ep'). cbn [obind]. rewrite Ep in Ep'. injection Ep' as <-.
      unfold cell_get in *. cbn [c_data]. destruct (nth_error (c_data p) k) as [x|] eqn:En; [|discriminate]. injection H as ->.
      rewrite (set_data_other _ _ _ _ v); [reflexivity| |exact En]. intros ->.
      apply index_of_nth in Ek, Ek'. assert (m = n) by congruence. subst m. exact (Hne w eq_refl).
    + rewrite (replace_other _ _ _ _ _ _ Ep' Hid Ep). exact H.
Qed.

Lemma stored_point_data h1 id n v h2 : history_ok (h1 ++ SetPointData id n v :: h2) -> In n (point_names h1) -> no_point_set id n h2 ->
  exists g, grid_run (h1 ++ SetPointData id n v :: h2) = Ok g /\ point_data g id n = Ok v.
Proof.
  intros Hh Hn. induction h2 as [|o h2 IH] using rev_ind; intros Hs.
  - apply history_snoc in Hh. destruct Hh as (Hh & Hc). destruct (run_spec h1 Hh) as (g & E & Hg). rewrite run_snoc, E. cbn [obind].
    destruct Hg as [Hp _ Hpn _]. cbn [call_ok] in Hc. unfold grid_step. cbn [grid_call]. unfold set_point_data.
    destruct (at_index_in (g_points g) id) as (p & Ep); [lia|]. rewrite Ep. cbn [obind].
    apply Hpn in Hn. destruct (index_of_In _ _ Hn) as (k & Ek & _). rewrite Ek. cbn [obind omap].
    eexists. split; [reflexivity|]. unfold point_data. cbn [g_pnames g_points]. rewrite Ek. cbn [obind]. rewrite (replace_same _ _ _ _ Ep). cbn [obind].
    unfold point_get. cbn [p_data]. rewrite set_data_same. reflexivity.
  - rewrite app_comm_cons, app_assoc in *. destruct (run_spec _ Hh) as (g' & E' & _). apply history_snoc in Hh. destruct Hh as (Hh & Hc).
    destruct (IH Hh) as (g & E & Hg).
    { intros w Hw. apply (Hs w). apply in_app_iff. left. exact Hw. }
    exists g'. split; [exact E'|]. rewrite run_snoc, E in E'. cbn [obind] in E'. eapply keep_point_data; [exact E'| |exact Hg].
    intros w ->. apply (Hs w). apply in_app_iff. right. left. reflexivity.
Qed.
Lemma stored_cell_data h1 id n v h2 : history_ok (h1 ++ SetCellData id n v :: h2) -> In n (cell_names h1) -> no_cell_set id n h2 ->
  exists g, grid_run (h1 ++ SetCellData id n v :: h2) = Ok g /\ cell_data g id n = Ok v.
Proof.
  intros Hh Hn. induction h2 as [|o h2 IH] using rev_ind; intros Hs.
  - apply history_snoc in Hh. destruct Hh as (Hh & Hc). destruct (run_spec h1 Hh) as (g & E & Hg). rewrite run_snoc, E. cbn [obind].
    pose proof (num_cells_spec _ _ Hg) as Nc. destruct Hg as [_ _ _ Hcn]. cbn [call_ok] in Hc. unfold grid_step. cbn [grid_call]. unfold set_cell_data.
    destruct (at_index_in (g_cells g) id) as (p & Ep); [lia|]. rewrite Ep. cbn [obind].
    apply Hcn in Hn. destruct (index_of_In _ _ Hn) as (k & Ek & _). rewrite Ek. cbn [obind omap].
    eexists. split; [reflexivity|]. unfold cell_data. cbn [g_cnames g_cells]. rewrite Ek. cbn [obind]. rewrite (replace_same _ _ _ _ Ep). cbn [obind].
    unfold cell_get. cbn [c_data]. rewrite set_data_same. reflexivity.
  - rewrite app_comm_cons, app_assoc in *. destruct (run_spec _ Hh) as (g' & E' & _). apply history_snoc in Hh. destruct Hh as (Hh & Hc).
    destruct (IH Hh) as (g & E & Hg).
    { intros w Hw. apply (Hs w). apply in_app_iff. left. exact Hw. }
    exists g'. split; [exact E'|]. rewrite run_snoc, E in E'. cbn [obind] in E'. eapply keep_cell_data; [exact E'| |exact Hg].
    intros w ->. apply (Hs w). apply in_app_iff. right. left. reflexivity.
Qed.

(** ** The appended section *)
Lemma number_le n : forall z l, 0 <= z < 256 ^ Z.of_nat n -> number n (le n z ++ l) = z.
Proof.
  induction n as [|n IH]; intros z l H; [change (256 ^ Z.of_nat 0) with 1 in H; cbn; lia|].
  cbn [le app number]. rewrite Nat2Z.inj_succ, Z.pow_succ_r in H by lia. rewrite IH.
  - pose proof (Z.div_mod z 256). lia.
  - split; [apply Z.div_pos; lia|apply Z.div_lt_upper_bound; lia].
Qed.
Lemma le_length n : forall z, length (le n z) = n.
Proof. induction n as [|n IH]; intros z; [reflexivity|]. cbn [le length]. rewrite IH. reflexivity. Qed.

Lemma bytes_length a : well_sized a -> Z.of_nat (length (array_bytes a)) = Z.of_nat (da_size a) * Z.of_nat (length (da_items a)).
Proof.
  unfold well_sized, array_bytes. induction (da_items a) as [|i l IH]; intros H; [cbn; lia|].
  cbn [concat length]. rewrite app_length, Nat2Z.inj_add, IH by (intros j Hj; apply H; right; exact Hj).
  rewrite (H i (or_introl eq_refl)). lia.
Qed.
Lemma wrap32_id z : - 2 ^ 31 <= z < 2 ^ 31 -> wrap32 z = z.
Proof. intros H. unfold wrap32. rewrite Z.mod_small; lia. Qed.
Lemma fits32_spec z : - 2 ^ 31 <= z < 2 ^ 31 -> fits32 z = true.
Proof. intros H. unfold fits32. apply andb_true_iff. split; [apply Z.leb_le|apply Z.ltb_lt]; lia. Qed.
Lemma total_nonneg l : 0 <= total l.
Proof. induction l as [|a l IH]; cbn [total fold_right]; [lia|]. fold (total l). lia. Qed.

Lemma headers_spec l : Forall well_sized l -> forall off, 0 <= off -> off + total l < 2 ^ 31 ->
  exists hs, write_headers off l = Ok hs /\ map (fun h => (h_name h, h_comps h)) hs = map (fun a => (da_name a, da_comps a)) l
    /\ forall l1 a l2, l = l1 ++ a :: l2 -> exists h, nth_error hs (length l1) = Some h /\ h_offset h = off + total l1.
Proof.
  induction l as [|a l IH]; intros Hw off H0 Ht.
  - exists []. split; [reflexivity|]. split; [reflexivity|]. intros l1 b l2 E. destruct l1; discriminate.
  - inversion Hw as [|? ? Ha Hl]; subst. cbn [total fold_right] in Ht. fold (total l) in Ht. pose proof (total_nonneg l).
    assert (Eo : array_offset a = 8 + Z.of_nat (length (array_bytes a))).
    { unfold array_offset. rewrite <- (bytes_length a Ha). apply wrap32_id. lia. }
    cbn [write_headers]. rewrite Eo, fits32_spec by lia.
    destruct (IH Hl (off + (8 + Z.of_nat (length (array_bytes a)))) ltac:(lia) ltac:(lia)) as (hs & -> & En & Ho).
    eexists. split; [reflexivity|]. cbn [map]. split; [rewrite En; reflexivity|]. intros l1 b l2 E. destruct l1 as [|c l1]; cbn [app] in E; injection E as -> E.
    + eexists. split; [reflexivity|]. cbn. lia.
    + subst l. destruct (Ho l1 b l2 eq_refl) as (h & Hh & Hoff). exists h. split; [exact Hh|]. rewrite Hoff. cbn [total fold_right]. fold (total l1). lia.
Qed.
Lemma data_spec l : Forall well_sized l -> total l < 2 ^ 31 ->
  write_all l = Ok (flat_map (fun a => le 8 (Z.of_nat (length (array_bytes a))) ++ array_bytes a) l).
Proof.
  induction l as [|a l IH]; intros Hw Ht; [reflexivity|]. inversion Hw as [|? ? Ha Hl]; subst. cbn [total fold_right] in Ht. fold (total l) in Ht.
  pose proof (total_nonneg l). cbn [write_all flat_map]. unfold write_data.
  assert (Eo : array_offset a = 8 + Z.of_nat (length (array_bytes a))).
  { unfold array_offset. rewrite <- (bytes_length a Ha). apply wrap32_id. lia. }
  rewrite Eo. replace (8 + Z.of_nat (length (array_bytes a)) - 8) with (Z.of_nat (length (array_bytes a))) by lia.
  rewrite fits32_spec by lia. cbn [obind]. rewrite IH by (try assumption; lia). cbn [omap obind]. rewrite Z.mod_small by lia. reflexivity.
Qed.
Lemma section_length l : Z.of_nat (length (flat_map (fun a => le 8 (Z.of_nat (length (array_bytes a))) ++ array_bytes a) l)) = total l.
Proof.
  induction l as [|a l IH]; [reflexivity|]. cbn [flat_map total fold_right]. fold (total l). rewrite !app_length, le_length, !Nat2Z.inj_add, IH. lia.
Qed.

Lemma offsets_spec l : Forall well_sized l -> total l < 2 ^ 31 ->
  exists hs app, write_headers 0 l = Ok hs /\ write_all l = Ok app
    /\ map (fun h => (h_name h, h_comps h)) hs = map (fun a => (da_name a, da_comps a)) l
    /\ Z.of_nat (length app) = total l
    /\ forall i a h, nth_error l i = Some a -> nth_error hs i = Some h ->
         block app (h_offset h) = (Z.of_nat (length (array_bytes a)), array_bytes a).
Proof.
  intros Hw Ht. destruct (headers_spec l Hw 0 ltac:(lia) ltac:(lia)) as (hs & Eh & En & Ho).
  exists hs. eexists. split; [exact Eh|]. split; [apply data_spec; assumption|]. split; [exact En|]. split; [apply section_length|].
  intros i a h Hi Hh. apply nth_error_split in Hi. destruct Hi as (l1 & l2 & -> & <-).
  destruct (Ho l1 a l2 eq_refl) as (h' & Hh' & Hoff). rewrite Hh in Hh'. injection Hh' as <-. rewrite Z.add_0_l in Hoff.
  unfold block. rewrite Hoff, <- section_length, Nat2Z.id, flat_map_app. cbn [flat_map].
  set (s1 := flat_map _ l1). set (s2 := flat_map _ l2).
  assert (Hlen : 0 <= Z.of_nat (length (array_bytes a)) < 256 ^ Z.of_nat 8).
  { split; [lia|]. change (256 ^ Z.of_nat 8) with (2 ^ 64). pose proof (total_nonneg l1). pose proof (total_nonneg l2).
    assert (E : total (l1 ++ a :: l2) = total l1 + (8 + Z.of_nat (length (array_bytes a)) + total l2)).
    { clear. induction l1 as [|b l1 IH]; [reflexivity|]. cbn [app total fold_right]. fold (total (l1 ++ a :: l2)). fold (total l1). rewrite IH. lia. }
    lia. }
  rewrite skipn_app, skipn_all, Nat.sub_diag. cbn [app skipn]. rewrite <- app_assoc, number_le by exact Hlen.
  f_equal. rewrite Nat2Z.id, skipn_app. rewrite skipn_all2 by lia. cbn [app].
  replace (length s1 + 8 - length s1)%nat with 8%nat by lia.
  rewrite skipn_app, skipn_all2 by (rewrite le_length; lia). rewrite le_length, Nat.sub_diag. cbn [app skipn].
  rewrite firstn_app, firstn_all, Nat.sub_diag. cbn [firstn]. apply app_nil_r.
Qed.

(** ** TransformData *)
Lemma transform_six a b c d e f : transform_data [a; b; c; d; e; f] = [a; b; c; f; d; e].
Proof. reflexivity. Qed.
Lemma transform_length v : length (transform_data v) = length v.
Proof.
  unfold transform_data. destruct (Nat.eqb_spec (length v) 6) as [E|]; [|reflexivity].
  destruct v as [|a [|b [|c [|d [|e [|f [|]]]]]]]; try discriminate E. reflexivity.
Qed.

(** ** The cells in the file *)
Lemma number_u32 z : 0 <= z < 2 ^ 32 -> number 4 (u32 z) = z.
Proof.
  intros H. unfold u32. rewrite Z.mod_small by lia. rewrite <- (app_nil_r (le 4 z)). apply number_le. change (256 ^ Z.of_nat 4) with (2 ^ 32). lia.
Qed.
Lemma number_u8 z : 0 <= z < 2 ^ 8 -> number 1 (u8 z) = z.
Proof.
  intros H. unfold u8. rewrite Z.mod_small by lia. rewrite <- (app_nil_r (le 1 z)). apply number_le. change (256 ^ Z.of_nat 1) with (2 ^ 8). lia.
Qed.
Definition total_ids (cs : list vcell) : Z := Z.of_nat (length (flat_map c_ids cs)).
Lemma offsets_cells cs : forall before conn, total_ids cs + Z.of_nat (length before) < 2 ^ 32 ->
  (forall c, In c cs -> 0 <= c_type c < 2 ^ 8) -> conn = before ++ flat_map c_ids cs ->
  vtk_cells (Z.of_nat (length before)) conn (map (number 4) (map u32 (cell_offsets (Z.of_nat (length before)) cs)))
    (map (number 1) (map (fun c => u8 (c_type c)) cs)) = map (fun c => (c_ids c, c_type c)) cs.
Proof.
  induction cs as [|c cs IH]; intros before conn Ht Hty ->; [reflexivity|].
  unfold total_ids in *. cbn [flat_map] in *. rewrite app_length, Nat2Z.inj_add in Ht.
  cbn [cell_offsets map]. rewrite (Z.mod_small (Z.of_nat (length before) + _)) by lia. rewrite number_u32 by lia.
  rewrite number_u8 by (apply Hty; left; reflexivity). cbn [vtk_cells]. f_equal.
  - f_equal. replace (Z.to_nat (Z.of_nat (length before) + Z.of_nat (length (c_ids c)) - Z.of_nat (length before))) with (length (c_ids c)) by lia.
    rewrite Nat2Z.id, skipn_app, skipn_all, Nat.sub_diag. cbn [app skipn]. rewrite firstn_app, firstn_all, Nat.sub_diag. cbn [firstn]. apply app_nil_r.
  - specialize (IH (before ++ c_ids c) (before ++ c_ids c ++ flat_map c_ids cs)). rewrite app_length, Nat2Z.inj_add in IH. apply IH.
    + lia.
    + intros c' Hc'. apply Hty. right. exact Hc'.
    + apply app_assoc.
Qed.
Lemma conn_numbers ids : (forall i, In i ids -> 0 <= i < 2 ^ 32) -> map (number 4) (map u32 ids) = ids.
Proof.
  intros H. induction ids as [|i l IH]; [reflexivity|]. cbn [map]. rewrite number_u32 by (apply H; left; reflexivity).
  rewrite IH by (intros j Hj; apply H; right; exact Hj). reflexivity.
Qed.

(** ** The data in the file *)
Lemma extract_items_spec enc n vs : (forall v, In v vs -> length v = n) ->
  extract_items enc n (map Ok vs) = Ok (flat_map (fun v => map enc (transform_data v)) vs).
Proof.
  induction vs as [|v vs IH]; intros H; [reflexivity|]. cbn [map extract_items obind flat_map].
  rewrite transform_length, (H v (or_introl eq_refl)), Nat.eqb_refl. rewrite IH by (intros w Hw; apply H; right; exact Hw). reflexivity.
Qed.
Lemma extract_data_spec enc n vs name : vs <> [] -> (forall v, In v vs -> length v = n) ->
  extract_data enc (map Ok vs) name = Ok (mkArray name (Z.of_nat n) 4 (flat_map (fun v => map enc (transform_data v)) vs)).
Proof.
  intros Hne H. destruct vs as [|v vs]; [congruence|]. unfold extract_data. cbn [map].
  change (Ok v :: map Ok vs) with (map Ok (v :: vs)). cbn [obind]. rewrite (H v (or_introl eq_refl)), extract_items_spec by exact H. reflexivity.
Qed.
(** all items of a container have data of the same size for each name *)
Lemma extract_all_spec {A} enc (get : A -> nat -> outcome (list R)) (items : list A) (value : string -> A -> list R) (dim : string -> nat) all names :
  items <> [] -> (forall n, In n names -> exists k, index_of all n = Ok k /\ forall a, In a items -> get a k = Ok (value n a) /\ length (value n a) = dim n) ->
  extract_all enc (fun k => map (fun a => get a k) items) all names
  = Ok (map (fun n => mkArray n (Z.of_nat (dim n)) 4 (flat_map (fun a => map enc (transform_data (value n a))) items)) names).
Proof.
  intros Hne. induction names as [|n names IH]; intros H; [reflexivity|]. cbn [extract_all map].
  destruct (H n (or_introl eq_refl)) as (k & -> & Hk). cbn [obind].
  assert (E : map (fun a => get a k) items = map Ok (map (value n) items)).
  { rewrite map_map. apply map_ext_in. intros a Ha. apply Hk. exact Ha. }
  rewrite E, (extract_data_spec enc (dim n)).
  - cbn [obind]. rewrite IH by (intros m Hm; apply H; right; exact Hm). cbn [omap obind]. do 4 f_equal.
    clear. induction items as [|a l IH]; [reflexivity|]. cbn [map flat_map]. rewrite IH. reflexivity.
  - destruct items; [congruence|discriminate].
  - intros v Hv. apply in_map_iff in Hv. destruct Hv as (a & <- & Ha). apply Hk. exact Ha.
Qed.
