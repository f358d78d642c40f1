(** C110: the visualization cells of the Voronoi diagram *)
From Coq Require Import Reals ZArith List Bool Arith Lia Lra Psatz Permutation.
From Verif Require Import Outcome AdaptiveModel AdaptiveProofs CollisionModel CollisionProofs2 DelaunayModel DelaunaySpec DelaunayProofs
  PolygonModel VoronoiCellModel VoronoiCellSpec VoronoiCellProofs PropVoronoiCell.
Import ListNotations.
Local Open Scope R_scope.

Lemma transform_back p : equilateral (transform_inverse p) = p.
Proof.
  assert (P : 0 < sqrt (3 / 4)) by (apply sqrt_lt_R0; lra). destruct p as [x y]. unfold equilateral, transform_inverse, px, py. cbn [fst snd].
  generalize dependent (sqrt (3 / 4)). intros w P. f_equal; field; lra.
Qed.
Lemma has_point_spec l p : has_point l p = true <-> In p l.
Proof.
  unfold has_point. rewrite existsb_exists. split.
  - intros (q & Hq & E). apply p2_eqb_spec in E. now subst.
  - intros H. exists p. split; [exact H|apply p2_eqb_refl].
Qed.
Lemma visu_points_spec cells : NoDup (visu_points cells) /\ forall p, In p (visu_points cells) <-> exists cell, In cell cells /\ In p cell.
Proof.
  unfold visu_points.
  assert (G : forall l acc, NoDup acc -> let r := fold_left (fun acc p => if has_point acc p then acc else acc ++ [p]) l acc in NoDup r /\ forall p, In p r <-> In p acc \/ In p l).
  { induction l as [|q l IH]; intros acc ND; cbn [fold_left]; [split; [exact ND|intros p; cbn [In]; tauto]|].
    destruct (has_point acc q) eqn:E.
    - apply has_point_spec in E. destruct (IH acc ND) as (H1 & H2). split; [exact H1|]. intros p. rewrite H2. cbn [In]. split; [tauto|intros [H|[<-|H]]; auto].
    - assert (N : ~ In q acc) by (intros H; apply has_point_spec in H; congruence).
      destruct (IH (acc ++ [q])) as (H1 & H2).
      { apply (Permutation_NoDup (l := q :: acc)); [apply Permutation_cons_append|constructor; assumption]. }
      split; [exact H1|]. intros p. rewrite H2, in_app_iff. cbn [In]. tauto. }
  destruct (G (concat cells) [] (NoDup_nil _)) as (H1 & H2). split; [exact H1|]. intros p. rewrite H2, in_concat. cbn [In]. split; [intros [[]|H]; exact H|auto].
Qed.
Lemma find_index_nth l p : In p l -> nth_error l (find_index l p) = Some p.
Proof.
  induction l as [|q l IH]; [contradiction|]. cbn [find_index]. destruct (p2_eqb q p) eqn:E.
  - apply p2_eqb_spec in E. subst. reflexivity.
  - intros [->|H]; [rewrite p2_eqb_refl in E; discriminate|]. cbn [nth_error]. exact (IH H).
Qed.
Lemma visu_nth (tr : bool) cells p : (exists cell, In cell cells /\ In p cell) ->
  exists v, nth_error (if tr then map transform_inverse (visu_points cells) else visu_points cells) (find_index (visu_points cells) p) = Some v /\ in_system tr v = p.
Proof.
  intros H. apply visu_points_spec in H. pose proof (find_index_nth _ _ H) as N. destruct tr.
  - exists (transform_inverse p). split; [rewrite nth_error_map, N; reflexivity|apply transform_back].
  - exists p. split; [exact N|reflexivity].
Qed.

(** The visualization points are the corners of the cells, without repetition; the cells list the indices of their corners in order.
    In the transformed system the corners are the images of the points. *)
Theorem C110_polygons : forall tr cells vp vc, visualization_cells tr cells = (vp, vc) ->
  NoDup vp /\ (forall v, In v vp -> exists cell, In cell cells /\ In (in_system tr v) cell) /\
  Forall2 (Forall2 (fun k c => exists v, nth_error vp k = Some v /\ in_system tr v = c)) vc cells.
Proof.
  intros tr cells vp vc E. unfold visualization_cells in E. injection E as <- <-. destruct (visu_points_spec cells) as (ND & HI). split; [|split].
  - destruct tr; [|exact ND]. apply FinFun.Injective_map_NoDup; [|exact ND]. intros p q H. rewrite <- (transform_back p), H. apply transform_back.
  - intros v Hv. destruct tr; [|apply HI; exact Hv]. apply in_map_iff in Hv. destruct Hv as (p & <- & Hp). cbn [in_system]. rewrite transform_back. apply HI. exact Hp.
  - assert (G : forall l, (forall c, In c l -> In c cells) -> Forall2 (Forall2 (fun k c => exists v, nth_error (if tr then map transform_inverse (visu_points cells) else visu_points cells) k = Some v /\ in_system tr v = c))
      (map (map (find_index (visu_points cells))) l) l).
    { induction l as [|cell l IH]; intros Hl; cbn [map]; constructor; [|apply IH; intros c Hc; apply Hl; now right].
      assert (Hc : In cell cells) by (apply Hl; now left).
      assert (G2 : forall ps, (forall p, In p ps -> In p cell) -> Forall2 (fun k c => exists v, nth_error (if tr then map transform_inverse (visu_points cells) else visu_points cells) k = Some v /\ in_system tr v = c)
        (map (find_index (visu_points cells)) ps) ps).
      { induction ps as [|p ps IHp]; intros Hp; cbn [map]; constructor; [|apply IHp; intros q Hq; apply Hp; now right].
        apply visu_nth. exists cell. split; [exact Hc|apply Hp; now left]. }
      apply G2. auto. }
    apply G. auto.
Qed.
Print Assumptions C110_polygons.

(** ** Triangles *)
Lemma shoelace_fan p0 p1 r : exists S, shoelace (p0 :: p1 :: r) = S /\
  S = fold_right (fun e s => orient p0 (fst e) (snd e) + s) 0 (combine (p1 :: r) r).
Proof.
  eexists. split; [reflexivity|]. unfold shoelace. cbn [shoelace_from].
  assert (G : forall r prev, shoelace_from p0 prev r = fold_right (fun e s => orient p0 (fst e) (snd e) + s) 0 (combine (prev :: r) r) + (fst prev * snd p0 - fst p0 * snd prev)).
  { induction r0 as [|q r0 IH]; intros prev; [cbn [shoelace_from combine fold_right]; lra|].
    change (combine (prev :: q :: r0) (q :: r0)) with ((prev, q) :: combine (q :: r0) r0). cbn [shoelace_from]. rewrite IH.
    generalize (combine (q :: r0) r0). intros es. cbn [fold_right fst snd]. generalize (fold_right (fun e s => orient p0 (fst e) (snd e) + s) 0 es). intros u. unfold orient. ring. }
  rewrite G. ring.
Qed.
Lemma fans_spec i cells l : fans i cells = Ok l ->
  (forall x, In x l -> (i <= snd x < i + length cells)%nat) /\
  forall j cell, nth_error cells j = Some cell -> exists ts, fan cell = Ok ts /\ map fst (filter (fun x => Nat.eqb (snd x) (i + j)) l) = ts.
Proof.
  revert i l. induction cells as [|c cells IH]; intros i l E; cbn [fans] in E.
  - injection E as <-. split; [intros x []|intros [|j] cell H; discriminate].
  - destruct (fan c) as [ts| |] eqn:Ef; try discriminate. cbn [obind] in E. destruct (fans (S i) cells) as [l'| |] eqn:El; try discriminate. injection E as <-.
    destruct (IH (S i) l' El) as (H1 & H2).
    assert (M : forall j, filter (fun x => Nat.eqb (snd x) j) (map (fun t : nat * nat * nat => (t, i)) ts) = if Nat.eqb i j then map (fun t => (t, i)) ts else []).
    { intros j. clear. induction ts as [|t ts IH]; cbn [map filter]; [destruct (Nat.eqb i j); reflexivity|]. cbn [snd]. rewrite IH. destruct (Nat.eqb i j); reflexivity. }
    split.
    + intros x Hx. apply in_app_iff in Hx. cbn [length]. destruct Hx as [Hx|Hx]; [apply in_map_iff in Hx; destruct Hx as (t & <- & _); cbn [snd]; lia|specialize (H1 x Hx); lia].
    + intros [|j] cell Hc; cbn [nth_error] in Hc.
      * injection Hc as <-. exists ts. split; [exact Ef|]. rewrite filter_app, M, Nat.add_0_r, Nat.eqb_refl.
        replace (filter (fun x => Nat.eqb (snd x) i) l') with (@nil (nat * nat * nat * nat)).
        -- rewrite app_nil_r, map_map. cbn [fst]. apply map_id.
        -- symmetry. clear - H1. induction l' as [|x l' IH]; [reflexivity|]. cbn [filter]. pose proof (H1 x (or_introl eq_refl)). destruct (Nat.eqb_spec (snd x) i); [lia|]. apply IH. intros y Hy. apply H1. now right.
      * destruct (H2 j cell Hc) as (ts' & E1 & E2). exists ts'. split; [exact E1|]. rewrite filter_app, M. destruct (Nat.eqb_spec i (i + S j)); [lia|]. cbn [app].
        rewrite <- E2. replace (i + S j)%nat with (S i + j)%nat by lia. reflexivity.
Qed.

(** Each cell with corners is split into triangles without adding points: cell i with n corners gives n - 2 triangles, all of them
    belong to integration point i, their corners are corners of the cell, and their signed areas add up to that of the cell.  If the
    corners of the cell are in convex position, then all its triangles have the orientation of the cell. *)
Theorem C110_triangles : forall tr cells, (forall cell, In cell cells -> cell <> []) ->
  exists vp ts ips, visualization_triangles tr cells = Ok (vp, (ts, ips)) /\ vp = fst (visualization_cells tr cells) /\
    length ts = length ips /\ (forall i, In i ips -> (i < length cells)%nat) /\
    forall i cell, nth_error cells i = Some cell ->
      length (triangles_of i ts ips) = (length cell - 2)%nat /\
      areas tr vp (triangles_of i ts ips) (shoelace cell) /\
      (forall t, In t (triangles_of i ts ips) -> exists a b c, corners tr vp t a b c /\ In a cell /\ In b cell /\ In c cell /\
        forall s, (forall i j k a b c, (i < j < k)%nat -> nth_error cell i = Some a -> nth_error cell j = Some b -> nth_error cell k = Some c -> 0 < s * orient a b c) ->
          0 < s * orient a b c).
Proof.
  intros tr cells HN. unfold visualization_triangles. destruct (visualization_cells tr cells) as (vp, vc) eqn:Ev. cbn [fst].
  assert (Evc : vc = map (map (find_index (visu_points cells))) cells) by (unfold visualization_cells in Ev; congruence).
  assert (Evp : vp = if tr then map transform_inverse (visu_points cells) else visu_points cells) by (unfold visualization_cells in Ev; congruence).
  assert (EF : forall l i, (forall c, In c l -> c <> []) -> exists r, fans i l = Ok r).
  { induction l as [|c l IH]; intros i Hl; [eexists; reflexivity|]. cbn [fans]. destruct c as [|p0 r]; [exfalso; apply (Hl []); [now left|reflexivity]|]. cbn [fan obind].
    destruct (IH (S i) (fun c Hc => Hl c (or_intror Hc))) as (r' & ->). eexists. reflexivity. }
  destruct (EF vc 0%nat) as (l & El).
  { intros c Hc. rewrite Evc in Hc. apply in_map_iff in Hc. destruct Hc as (cell & <- & Hc). specialize (HN cell Hc). destruct cell; [congruence|discriminate]. }
  rewrite El. cbn [omap obind]. exists vp, (map fst l), (map snd l). split; [reflexivity|]. split; [reflexivity|]. split; [rewrite !map_length; reflexivity|].
  destruct (fans_spec 0 vc l El) as (H1 & H2). split.
  { intros i Hi. apply in_map_iff in Hi. destruct Hi as (x & <- & Hx). specialize (H1 x Hx). rewrite Evc, map_length in H1. lia. }
  intros i cell Hc.
  assert (Et : exists ids, nth_error vc i = Some ids /\ ids = map (find_index (visu_points cells)) cell) by (eexists; split; [rewrite Evc, nth_error_map, Hc; reflexivity|reflexivity]).
  destruct Et as (ids & Hids & Eids). destruct (H2 i ids Hids) as (ts & Ef & Ets).
  assert (Eto : triangles_of i (map fst l) (map snd l) = ts).
  { unfold triangles_of. rewrite <- Ets. cbn [Nat.add]. f_equal. f_equal. clear. induction l as [|[t k] l IH]; [reflexivity|]. cbn [map combine fst snd]. f_equal. exact IH. }
  rewrite Eto. clear Eto Ets.
  assert (Hv : forall p, In p cell -> exists v, nth_error vp (find_index (visu_points cells) p) = Some v /\ in_system tr v = p).
  { intros p Hp. rewrite Evp. apply visu_nth. exists cell. split; [exact (nth_error_In _ _ Hc)|exact Hp]. }
  destruct cell as [|p0 r]; [exfalso; apply (HN []); [exact (nth_error_In _ _ Hc)|reflexivity]|]. rewrite Eids in Ef. cbn [map fan] in Ef. injection Ef as <-.
  set (fi := find_index (visu_points cells)) in *.
  assert (Em : combine (map fi r) (tl (map fi r)) = map (fun e => (fi (fst e), fi (snd e))) (combine r (tl r))).
  { destruct r as [|p1 r]; [reflexivity|]. cbn [tl map]. change (fi p1 :: map fi r) with (map fi (p1 :: r)). generalize (p1 :: r). clear. intros w. revert r. induction w as [|a w IH]; intros r; [reflexivity|].
    destruct r as [|b r]; [reflexivity|]. cbn [map combine fst snd]. f_equal. apply IH. }
  rewrite Em, map_map. cbn [fst snd].
  assert (Hco : forall e, In e (combine r (tl r)) -> corners tr vp (fi p0, fi (fst e), fi (snd e)) p0 (fst e) (snd e) /\ In (fst e) r /\ In (snd e) r).
  { intros (a, b) He. assert (Ha : In a r) by exact (in_combine_l _ _ _ _ He). assert (Hb : In b r).
    { apply in_combine_r in He. destruct r; [contradiction|]. now right. }
    cbn [fst snd]. split; [|split; assumption]. destruct (Hv p0 (or_introl eq_refl)) as (v0 & N0 & S0). destruct (Hv a (or_intror Ha)) as (v1 & N1 & S1). destruct (Hv b (or_intror Hb)) as (v2 & N2 & S2).
    exists v0, v1, v2. auto 10. }
  split; [|split].
  - rewrite map_length, combine_length. destruct r as [|p1 r]; [reflexivity|]. cbn [tl length]. lia.
  - destruct r as [|p1 r].
    + cbn [combine tl map]. replace (shoelace [p0]) with 0 by (unfold shoelace; cbn [shoelace_from]; ring). constructor.
    + destruct (shoelace_fan p0 p1 r) as (S & E1 & E2). refine (eq_ind_r (areas tr vp _) _ E1). rewrite E2. clear S E1 E2.
      assert (G : forall es : list (p2 * p2), (forall e, In e es -> corners tr vp (fi p0, fi (fst e), fi (snd e)) p0 (fst e) (snd e)) ->
        areas tr vp (map (fun e => (fi p0, fi (fst e), fi (snd e))) es) (fold_right (fun e s => orient p0 (fst e) (snd e) + s) 0 es)).
      { clear. induction es as [|e es IH]; intros Hco; cbn [map fold_right]; constructor; [apply Hco; now left|]. apply IH. intros e' He'. apply Hco. now right. }
      exact (G _ (fun e He => proj1 (Hco e He))).
  - intros t Ht. apply in_map_iff in Ht. destruct Ht as (e & <- & He). destruct (Hco e He) as (C1 & C2 & C3). exists p0, (fst e), (snd e).
    split; [exact C1|]. split; [now left|]. split; [now right|]. split; [now right|]. intros s Hs.
    assert (Nth : exists n, nth_error r n = Some (fst e) /\ nth_error r (S n) = Some (snd e)).
    { clear - He. destruct r as [|p1 r]; [contradiction|]. cbn [tl] in He. revert p1 He. induction r as [|q r IH]; intros p1 He; [contradiction|]. cbn [combine] in He. destruct He as [<-|He].
      - exists 0%nat. split; reflexivity.
      - destruct (IH q He) as (n & N1 & N2). exists (S n). split; assumption. }
    destruct Nth as (n & N1 & N2). apply (Hs 0%nat (S n) (S (S n)) p0 (fst e) (snd e)); [lia|reflexivity|exact N1|exact N2].
Qed.
Print Assumptions C110_triangles.

(** Finding: points without triangles.  GetVoronoiCells returns a cell without corners for each of them, and the triangulation of the
    cells reads the first corner of an empty vector: for one or two points, for points on a line, whatever the boundary. *)
Theorem C110_no_triangles_refuted : forall order tr boundary pts, (forall m, Permutation (order m) m) -> polygon_points boundary <> [] -> pts <> [] ->
  exists cells, voronoi_cells order boundary [] pts = Ok cells /\ cells = map (fun _ => []) pts /\ visualization_triangles tr cells = UB.
Proof.
  intros order tr boundary pts HP Hb Hp. exists (map (fun _ => []) pts). split; [|split; [reflexivity|]].
  - unfold voronoi_cells. destruct (polygon_points boundary) as [|b0 b]; [congruence|]. clear Hp Hb.
    assert (E : forall p, voronoi_cell order (b0 :: b) [] p = Ok []).
    { intros p. unfold voronoi_cell. change (edge_to_triangle []) with (@nil (edge * list triangle)). rewrite (Permutation_nil (Permutation_sym (HP []))). reflexivity. }
    induction pts as [|p pts IH]; [reflexivity|]. cbn [voronoi_cells_of map]. rewrite E. cbn [obind]. rewrite IH. reflexivity.
  - destruct pts as [|p pts]; [congruence|]. reflexivity.
Qed.
Print Assumptions C110_no_triangles_refuted.

(** two cells with a common edge, one of them with three corners and the other with four *)
Example C110_example : exists vp ts ips,
  visualization_triangles false [[(0, 0); (2, 0); (0, 2)]; [(0, 2); (2, 0); (2, 2); (0, 3)]] = Ok (vp, (ts, ips)) /\
  vp = [(0, 0); (2, 0); (0, 2); (2, 2); (0, 3)] /\ ts = [(0, 1, 2); (2, 1, 3); (2, 3, 4)]%nat /\ ips = [0; 1; 1]%nat.
Proof.
  unfold visualization_triangles, visualization_cells.
  assert (Ep : visu_points [[(0, 0); (2, 0); (0, 2)]; [(0, 2); (2, 0); (2, 2); (0, 3)]] = [(0, 0); (2, 0); (0, 2); (2, 2); (0, 3)]).
  { unfold visu_points. cbn [concat app fold_left]. unfold has_point.
    repeat (cbn [existsb app]; rewrite ?p2_eqb_refl; repeat match goal with |- context [p2_eqb ?a ?b] => rewrite (neq_points a b) by (cbn [fst snd]; first [left; lra|right; lra]) end; cbn [orb]).
    reflexivity. }
  rewrite Ep. do 3 eexists. split; [|split; [reflexivity|split; reflexivity]].
  cbn [map find_index]. rewrite ?p2_eqb_refl. repeat match goal with |- context [p2_eqb ?a ?b] => rewrite (neq_points a b) by (cbn [fst snd]; first [left; lra|right; lra]) end.
  reflexivity.
Qed.
