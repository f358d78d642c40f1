(** C109: the Voronoi cells *)
From Coq Require Import Reals ZArith List Bool Arith Lia Lra Psatz Permutation.
From Verif Require Import Outcome AdaptiveModel AdaptiveProofs CollisionModel CollisionProofs2 DelaunayModel DelaunaySpec DelaunayProofs
  PolygonModel PolygonSpec PropPolygon VoronoiCellModel VoronoiCellSpec VoronoiCellProofs.
Import ListNotations.
Local Open Scope R_scope.

Lemma cells_of_nth order b tris pts cells : voronoi_cells_of order b tris pts = Ok cells -> length cells = length pts /\
  forall i p cell, nth_error pts i = Some p -> nth_error cells i = Some cell -> voronoi_cell order b tris p = Ok cell.
Proof.
  revert cells. induction pts as [|p pts IH]; intros cells E; cbn [voronoi_cells_of] in E.
  - injection E as <-. split; [reflexivity|]. intros [|i] p cell H; discriminate.
  - destruct (voronoi_cell order b tris p) as [c| |] eqn:Ec; try discriminate. cbn [obind] in E.
    destruct (voronoi_cells_of order b tris pts) as [l| |]; try discriminate. injection E as <-. destruct (IH l eq_refl) as (IL & IC).
    split; [cbn [length]; lia|]. intros [|i] p' cell Hp Hc; cbn [nth_error] in *; [injection Hp as <-; injection Hc as <-; exact Ec|exact (IC i p' cell Hp Hc)].
Qed.
Lemma cell_entries order tris p x : (forall m, Permutation (order m) m) -> In x (filter (fun x => edge_contains (fst x) p) (order (edge_to_triangle tris))) ->
  In x (edge_to_triangle tris) /\ entry_ok tris x /\ edge_contains (fst x) p = true.
Proof.
  intros HP H. apply filter_In in H. destruct H as (H & Hc). apply (Permutation_in _ (HP _)) in H. split; [exact H|]. split; [apply edge_map_ok; exact H|exact Hc].
Qed.

(** One cell for each point, in their order.  Every corner of a cell is a corner of the boundary, or it has the same distance to the
    point of the cell and to one of its neighbours in the triangulation: whatever triangulation and boundary are given, and in
    whatever order the hash map is traversed. *)
Theorem C109_corners : forall order boundary tris pts cells, (forall m, Permutation (order m) m) ->
  (forall t, In t tris -> exists A B C, is_triangle A B C t) ->
  voronoi_cells order boundary tris pts = Ok cells ->
  length cells = length pts /\
  forall i p cell c, nth_error pts i = Some p -> nth_error cells i = Some cell -> In c cell ->
    In c boundary \/ exists q, neighbours tris p q /\ distance2 c p = distance2 c q.
Proof.
  intros order boundary tris pts cells HP HT E. unfold voronoi_cells in E.
  assert (Hb : forall x, In x (polygon_points boundary) -> In x boundary) by apply polygon_points_in.
  destruct (polygon_points boundary) as [|b0 b]; [discriminate|]. destruct (cells_of_nth _ _ _ _ _ E) as (L & H). split; [exact L|].
  intros i p cell c Hp Hcell Hc. specialize (H i p cell Hp Hcell). unfold voronoi_cell in H.
  destruct (voronoi_points (b0 :: b) _) as [l| |] eqn:El; try discriminate. cbn [obind] in H.
  destruct (add_intersection_in _ _ _ _ H c Hc) as [X|X]; [|left; exact (Hb c X)]. right. apply polygon_points_in in X.
  destruct (voronoi_points_sq _ tris p _ l HT (fun x Hx => proj2 (cell_entries order tris p x HP Hx)) El c X) as (q & HN & S).
  exists q. split; [exact HN|]. now apply sq_distance.
Qed.
Print Assumptions C109_corners.

(** without a boundary the call throws *)
Theorem C109_no_boundary : forall order tris pts, voronoi_cells order [] tris pts = Throw.
Proof. reflexivity. Qed.
Print Assumptions C109_no_boundary.

(** ** Cells inside the boundary *)
Lemma edge_eqb_sym a b : edge_eqb a b = edge_eqb b a.
Proof.
  assert (G : forall a b, edge_eqb a b = true -> edge_eqb b a = true).
  { intros x y H. apply edge_eqb_spec in H. apply edge_eqb_spec. destruct x, y. unfold joins in *. cbn [fst snd] in *. destruct H as [H|H]; injection H as -> ->; auto. }
  destruct (edge_eqb a b) eqn:E1, (edge_eqb b a) eqn:E2; trivial; [rewrite (G a b E1) in E2; discriminate|rewrite (G b a E2) in E1; discriminate].
Qed.
Lemma edge_eqb_trans a b c : edge_eqb a b = true -> edge_eqb a c = edge_eqb b c.
Proof.
  intros H.
  assert (G : forall a b c, edge_eqb a b = true -> edge_eqb b c = true -> edge_eqb a c = true).
  { intros x y z H1 H2. apply edge_eqb_spec in H1. apply edge_eqb_spec in H2. apply edge_eqb_spec. destruct x, y, z. unfold joins in *. cbn [fst snd] in *.
    destruct H1 as [H1|H1], H2 as [H2|H2]; injection H1 as -> ->; injection H2 as -> ->; auto. }
  destruct (edge_eqb a c) eqn:E1, (edge_eqb b c) eqn:E2; trivial.
  - rewrite (G b a c) in E2; [discriminate|rewrite edge_eqb_sym; exact H|exact E1].
  - rewrite (G a b c H E2) in E1. discriminate.
Qed.
(** how many triangles are stored under an edge *)
Fixpoint stored (k : edge) (m : edge_map) : nat :=
  match m with [] => 0 | (k', ts) :: m' => (if edge_eqb k' k then length ts else 0) + stored k m' end.
Definition matches (k : edge) (t : triangle) : nat := length (filter (fun e => edge_eqb k e) (triangle_edges t)).
Lemma stored_put k e t m : stored k (edge_put e t m) = ((if edge_eqb k e then 1 else 0) + stored k m)%nat.
Proof.
  induction m as [|(k', ts) m IH]; cbn [edge_put stored].
  - rewrite (edge_eqb_sym e k). destruct (edge_eqb k e); reflexivity.
  - destruct (edge_eqb k' e) eqn:E; cbn [stored].
    + rewrite (edge_eqb_trans k' e k E), (edge_eqb_sym e k). destruct (edge_eqb k e); [rewrite app_length; cbn [length]; lia|lia].
    + rewrite IH. lia.
Qed.
Lemma list_sum_cons x l : list_sum (x :: l) = (x + list_sum l)%nat.
Proof. reflexivity. Qed.
Lemma stored_all k tris : stored k (edge_to_triangle tris) = list_sum (map (matches k) tris).
Proof.
  unfold edge_to_triangle.
  assert (G : forall l m, stored k (fold_left (fun m t => fold_left (fun m e => edge_put e t m) (triangle_edges t) m) l m) = (stored k m + list_sum (map (matches k) l))%nat).
  { induction l as [|t l IH]; intros m; cbn [fold_left map]; [cbn [list_sum fold_right]; lia|]. rewrite list_sum_cons, IH.
    assert (G2 : forall es m, stored k (fold_left (fun m e => edge_put e t m) es m) = (stored k m + length (filter (fun e => edge_eqb k e) es))%nat).
    { induction es as [|e es IHe]; intros m'; cbn [fold_left filter]; [cbn [length]; lia|]. rewrite IHe, stored_put. destruct (edge_eqb k e); cbn [length]; lia. }
    rewrite G2. unfold matches. lia. }
  rewrite G. cbn [stored]. lia.
Qed.
(** every edge has one entry *)
Fixpoint distinct_keys (m : edge_map) : Prop :=
  match m with [] => True | (k, _) :: m' => (forall x, In x m' -> edge_eqb k (fst x) = false) /\ distinct_keys m' end.
Lemma put_keys e t m : forall x, In x (edge_put e t m) -> (exists y, In y m /\ fst x = fst y) \/ fst x = e.
Proof.
  induction m as [|(k, ts) m IH]; cbn [edge_put]; intros x.
  - intros [<-|[]]. now right.
  - destruct (edge_eqb k e); intros [<-|H].
    + left. exists (k, ts). split; [now left|reflexivity].
    + left. exists x. split; [now right|reflexivity].
    + left. exists (k, ts). split; [now left|reflexivity].
    + destruct (IH x H) as [(y & Hy & Ey)|Ey]; [left; exists y; split; [now right|exact Ey]|now right].
Qed.
Lemma distinct_put e t m : distinct_keys m -> distinct_keys (edge_put e t m).
Proof.
  induction m as [|(k, ts) m IH]; cbn [edge_put distinct_keys]; intros H; [split; [intros x []|exact I]|].
  destruct H as (H1 & H2). destruct (edge_eqb k e) eqn:E; cbn [distinct_keys]; [split; assumption|]. split; [|exact (IH H2)].
  intros x Hx. destruct (put_keys e t m x Hx) as [(y & Hy & ->)| ->]; [exact (H1 y Hy)|exact E].
Qed.
Lemma distinct_all tris : distinct_keys (edge_to_triangle tris).
Proof.
  unfold edge_to_triangle.
  assert (G : forall l m, distinct_keys m -> distinct_keys (fold_left (fun m t => fold_left (fun m e => edge_put e t m) (triangle_edges t) m) l m)).
  { induction l as [|t l IH]; intros m Hm; cbn [fold_left]; [exact Hm|]. apply IH. generalize (triangle_edges t) as es. intros es. revert m Hm.
    induction es as [|e es IHe]; intros m Hm; cbn [fold_left]; [exact Hm|]. apply IHe, distinct_put, Hm. }
  apply G. exact I.
Qed.
Lemma stored_entry m k ts : distinct_keys m -> In (k, ts) m -> stored k m = length ts.
Proof.
  induction m as [|(k', ts') m IH]; [contradiction|]. cbn [distinct_keys stored]. intros (H1 & H2) [E|H].
  - injection E as -> ->. rewrite edge_eqb_refl. assert (Z : stored k m = 0%nat).
    { clear - H1. induction m as [|(k', ts') m IH]; [reflexivity|]. cbn [stored]. rewrite edge_eqb_sym. pose proof (H1 (k', ts') (or_introl eq_refl)) as X. cbn [fst] in X. rewrite X. apply IH.
      intros x Hx. apply H1. now right. }
    lia.
  - pose proof (H1 (k, ts) H) as X. cbn [fst] in X. rewrite X. rewrite (IH H2 H). reflexivity.
Qed.
Lemma neighbours_match p q t k : neighbours [t] p q -> k = (p, q) \/ k = (q, p) -> (1 <= matches k t)%nat.
Proof.
  intros (t' & A & B & C & [<-|[]] & (e0 & e1 & e2 & -> & J0 & J1 & J2) & H) Hk. unfold matches, triangle_edges. cbn [filter].
  assert (G : edge_eqb k e0 = true \/ edge_eqb k e1 = true \/ edge_eqb k e2 = true).
  { rewrite !edge_eqb_spec. unfold joins in *. destruct H as [(-> & ->)|[(-> & ->)|[(-> & ->)|[(-> & ->)|[(-> & ->)|(-> & ->)]]]]];
      [left|left|right; left|right; left|right; right|right; right]; destruct Hk as [->| ->];
      (destruct J0 as [->| ->]; destruct J1 as [->| ->]; destruct J2 as [->| ->]; cbn [fst snd]; auto). }
  destruct G as [->|[->| ->]]; cbn [length]; destruct (edge_eqb k e0); cbn [length]; try lia; destruct (edge_eqb k e1); cbn [length]; try lia; destruct (edge_eqb k e2); cbn [length]; lia.
Qed.
Lemma list_sum_perm l l' : Permutation l l' -> list_sum l = list_sum l'.
Proof. induction 1; rewrite ?list_sum_cons; lia. Qed.
Lemma two_stored tris p q k : in_two tris p q -> k = (p, q) \/ k = (q, p) -> (2 <= stored k (edge_to_triangle tris))%nat.
Proof.
  intros (t1 & t2 & rest & P & N1 & N2) Hk. rewrite stored_all, (list_sum_perm _ _ (Permutation_map (matches k) P)). cbn [map]. rewrite !list_sum_cons.
  pose proof (neighbours_match p q t1 k N1 Hk). pose proof (neighbours_match p q t2 k N2 Hk). lia.
Qed.

(** In a Delaunay triangulation: if every edge at [p] belongs to two triangles and the circumcenters of the triangles at [p] are
    inside the boundary, then all points of the cell spanned by its corners (without corners of the boundary) are at least as close
    to [p] as to any other point. *)
Theorem C109_nearest_partial : forall order boundary tris pts p cell, (forall m, Permutation (order m) m) ->
  (forall t, In t tris -> exists A B C, is_triangle A B C t) -> delaunay tris pts ->
  (forall q, neighbours tris p q -> in_two tris p q) ->
  (forall t m, In t tris -> corner_of t p -> center_of t m -> point_is_inside (polygon_points boundary) m = true) ->
  voronoi_cell order (polygon_points boundary) tris p = Ok cell ->
  forall x, hull (fun c => In c cell /\ ~ In c boundary) x -> forall q, In q pts -> distance2 x p <= distance2 x q.
Proof.
  intros order boundary tris pts p cell HP HT HD H2 HI E x Hx q Hq. rewrite distance_sq_le.
  assert (Hb : forall x, In x (polygon_points boundary) -> In x boundary) by apply polygon_points_in.
  induction Hx as [c (Hc & Hnb)|a b s Ha IHa Hb' IHb Hs].
  2: { revert IHa IHb Hs. destruct a as [a1 a2], b as [b1 b2], p as [p1 p2'], q as [q1 q2]. unfold sq. cbn [fst snd]. intros IHa IHb Hs.
       assert (X1 : (1 - s) * ((a1 - p1) * (a1 - p1) + (a2 - p2') * (a2 - p2')) <= (1 - s) * ((a1 - q1) * (a1 - q1) + (a2 - q2) * (a2 - q2))) by (apply Rmult_le_compat_l; lra).
       assert (X2 : s * ((b1 - p1) * (b1 - p1) + (b2 - p2') * (b2 - p2')) <= s * ((b1 - q1) * (b1 - q1) + (b2 - q2) * (b2 - q2))) by (apply Rmult_le_compat_l; lra).
       lra. }
  unfold voronoi_cell in E. set (b := polygon_points boundary) in *.
  destruct (voronoi_points b _) as [l| |] eqn:El; try discriminate. cbn [obind] in E.
  destruct (add_intersection_in _ _ _ _ E c Hc) as [X|X]; [|exfalso; exact (Hnb (Hb c X))]. apply polygon_points_in in X.
  assert (G : forall entries l, (forall x, In x entries -> In x (edge_to_triangle tris) /\ entry_ok tris x /\ edge_contains (fst x) p = true) ->
    voronoi_points b entries = Ok l -> In c l -> sq c p <= sq c q).
  { clear l El E X cell Hc HP. induction entries as [|[k ts] r IH]; intros l He El Hc; cbn [voronoi_points] in El; [injection El as <-; contradiction|].
    destruct (voronoi_edge b (k, ts)) as [o| |] eqn:Eo; try discriminate. cbn [obind] in El.
    destruct (voronoi_points b r) as [l'| |]; try discriminate. cbn [obind] in El.
    specialize (IH l' (fun y Hy => He y (or_intror Hy)) eq_refl).
    destruct (He (k, ts) (or_introl eq_refl)) as (Hin & (Hne & Hall) & Hk). cbn [fst snd] in *.
    assert (Hc0 : forall t, In t ts -> forall m, center_of_triangle t = Ok m -> point_is_inside b m = true /\ sq m p <= sq m q).
    { intros t Ht m Hm. destruct (Hall t Ht) as (Hint & e & Hee & Ek). destruct (HT t Hint) as (A & B & C & HTr).
      destruct (center_sq A B C t m HTr Hm) as (S1 & S2). pose proof (sq_distance _ _ _ S1) as D1. pose proof (sq_distance _ _ _ S2) as D2.
      assert (Hcor : p = A \/ p = B \/ p = C).
      { apply edge_contains_spec in Hk. apply edge_eqb_spec in Ek. destruct (joined A B C t e HTr Hee) as [[->| ->]|[[->| ->]|[->| ->]]]; cbn [fst snd] in Ek;
          destruct Ek as [->| ->]; cbn [fst snd] in Hk; destruct Hk as [<-|<-]; auto. }
      split; [apply (HI t m Hint); [exists A, B, C; auto|exists A, B, C; auto]|].
      assert (Sp : sq m p = sq m A) by (destruct Hcor as [->|[->| ->]]; congruence). rewrite Sp. apply distance_sq_le. exact (HD t A B C m q Hint HTr D1 D2 Hq). }
    assert (H2' : (2 <= length ts)%nat).
    { destruct ts as [|t ts']; [congruence|]. destruct (Hall t (or_introl eq_refl)) as (Hint & e & Hee & Ek).
      destruct (neighbours_edge tris t e k p Hint (HT t Hint) Hee Ek Hk) as (w & Hw & HN).
      rewrite <- (stored_entry _ k (t :: ts') (distinct_all tris) Hin). apply (two_stored tris p w k (H2 w HN) Hw). }
    unfold voronoi_edge in Eo. cbn [fst snd] in Eo. destruct ts as [|t0 [|t1 [|]]]; try discriminate; [cbn [length] in H2'; lia|].
    unfold double_side in Eo. destruct (center_of_triangle t0) as [m0| |] eqn:E0; try discriminate. destruct (center_of_triangle t1) as [m1| |] eqn:E1; try discriminate. cbn [obind] in Eo.
    destruct (Hc0 t0 (or_introl eq_refl) m0 E0) as (I0 & N0). destruct (Hc0 t1 (or_intror (or_introl eq_refl)) m1 E1) as (I1 & N1).
    rewrite I0, I1 in Eo. injection Eo as <-. injection El as <-. destruct Hc as [<-|[<-|Hc]]; [exact N0|exact N1|exact (IH Hc)]. }
  apply (G _ l (fun x Hx => cell_entries order tris p x HP Hx) El X).
Qed.
Print Assumptions C109_nearest_partial.

(** ** A square as the boundary *)
Definition square (a : R) : list p2 := [(- a, - a); (a, - a); (a, a); (- a, a)].
Definition sorted_square (a : R) : list p2 := [(- a, - a); (- a, a); (a, a); (a, - a)].
Ltac rl := match goal with |- context [rltb ?a ?b] => destruct (rltb_spec a b) as [(-> & ?)|(-> & ?)]; try (exfalso; lra) end.
Ltac rq := match goal with |- context [reqb ?a ?b] => let H := fresh in destruct (reqb_spec a b) as [(-> & H)|(-> & H)]; try (exfalso; lra); try (exfalso; apply H; lra) end.
Lemma atan2_pos y x : 0 < x -> atan2 y x = atan (y / x).
Proof. intros H. unfold atan2. rl. reflexivity. Qed.
Lemma atan2_neg_neg y x : x < 0 -> y < 0 -> atan2 y x = atan (y / x) - PI.
Proof. intros H H'. unfold atan2. rl. rl. rl. reflexivity. Qed.
Lemma atan2_neg_pos y x : x < 0 -> 0 <= y -> atan2 y x = atan (y / x) + PI.
Proof. intros H H'. unfold atan2. rl. rl. rl. reflexivity. Qed.
Lemma square_points a : 0 < a -> polygon_points (square a) = sorted_square a.
Proof.
  intros Ha. unfold polygon_points, angles_points.
  assert (EC : center_of_points (square a) = (0, 0)).
  { unfold center_of_points, square. cbn [map length fold_left px py fst snd INR]. f_equal; field. }
  rewrite EC. unfold square. cbn [fold_left]. unfold px, py. cbn [fst snd]. rewrite !Rminus_0_r.
  rewrite (atan2_neg_neg (- a) (- a)), (atan2_neg_pos a (- a)), (atan2_pos a a), (atan2_pos (- a) a) by lra.
  replace (- a / - a) with 1 by (field; lra). replace (a / - a) with (- (1)) by (field; lra). replace (a / a) with 1 by (field; lra). replace (- a / a) with (- (1)) by (field; lra).
  rewrite atan_opp, atan_1. pose proof PI_4. pose proof PI2_3_2. pose proof PI_RGT_0.
  cbn [angle_put]. do 6 (rl; cbn [angle_put]). repeat (rl; cbn [angle_put]).
  cbn [keep_apart]. do 4 (rl; cbn [keep_apart]). reflexivity.
Qed.
Lemma square_inside a p : - a < fst p < a -> - a < snd p < a -> point_is_inside (sorted_square a) p = true.
Proof.
  intros Hx Hy. unfold point_is_inside, sorted_square. cbn [cyclic_edges combine app filter]. unfold hits, line_parameter. cbn [fst snd]. unfold sub2, px, py. cbn [fst snd].
  assert (D : 0 < a + a) by lra.
  destruct p as [p1 p2']. cbn [fst snd] in *.
  rq. rq. rq. rq.
  assert (Q : forall x d y, d <> 0 -> x / d = y <-> x = y * d).
  { intros x d y Hd. split; intros E; [rewrite <- E; field; exact Hd|rewrite E; field; exact Hd]. }
  replace (((p1 - - a) * 0 - (p2' - - a) * 1) / ((- a - - a) * 0 - (a - - a) * 1)) with ((p2' + a) / (a + a)) by (field; lra).
  replace (((p2' - - a) * (- a - - a) - (p1 - - a) * (a - - a)) / - ((- a - - a) * 0 - (a - - a) * 1)) with (- (p1 + a)) by (field; lra).
  replace (((p1 - a) * 0 - (p2' - a) * 1) / ((a - a) * 0 - (- a - a) * 1)) with ((a - p2') / (a + a)) by (field; lra).
  replace (((p2' - a) * (a - a) - (p1 - a) * (- a - a)) / - ((a - a) * 0 - (- a - a) * 1)) with (a - p1) by (field; lra).
  assert (B1 : 0 < (p2' + a) / (a + a) < 1) by (split; [apply Rdiv_lt_0_compat; lra|apply (Rmult_lt_reg_r (a + a)); [exact D|unfold Rdiv; rewrite Rmult_assoc, Rinv_l by lra; lra]]).
  assert (B2 : 0 < (a - p2') / (a + a) < 1) by (split; [apply Rdiv_lt_0_compat; lra|apply (Rmult_lt_reg_r (a + a)); [exact D|unfold Rdiv; rewrite Rmult_assoc, Rinv_l by lra; lra]]).
  rl. rl. cbn [orb]. rl. rl. rl. cbn [orb]. rl. reflexivity.
Qed.

(** ** A cell with two corners of the boundary *)
Definition top_p : p2 := (0, 2).
Definition left_p : p2 := (-1, 0).
Definition right_p : p2 := (1, 0).
Definition one_triangle : triangle := ((top_p, left_p), (left_p, right_p), (right_p, top_p)).
Ltac pts := unfold sub2, dot2, neg2, px, py; cbn [fst snd].
Lemma one_unique : unique_points one_triangle = (top_p, left_p, right_p).
Proof.
  unfold unique_points, one_triangle, edge_contains, top_p, left_p, right_p. cbn [fst snd].
  unfold p2_eqb. pts. rq. cbn [andb orb]. rq. cbn [andb orb]. rq. reflexivity.
Qed.
Lemma one_center : center_of_triangle one_triangle = Ok (0, 3 / 4).
Proof.
  unfold center_of_triangle, circumcenter. rewrite one_unique. unfold top_p, left_p, right_p. pts. rq. do 2 f_equal; field.
Qed.
Lemma square_closest p d l : closest_parameter (sorted_square 2) p d = l -> closest_intersection (sorted_square 2) p d = (fst p + fst d * l, snd p + snd d * l).
Proof. unfold closest_intersection. intros ->. reflexivity. Qed.
Ltac par a l := unfold line_parameter; pts; rq; match goal with |- context [if orb (rltb ?x 0) (rltb 1 ?x) then _ else Some ?y] =>
  replace x with a by (field; lra); replace y with l by (field; lra) end; repeat (rl; cbn [orb]); reflexivity.
(** the parameters of the line from the circumcenter to the left and to the right *)
Lemma closest_side s : s = 1 \/ s = -1 -> closest_parameter (sorted_square 2) (0, 3 / 4) (s / 2, 1 / 4) = 4.
Proof.
  intros Hs. unfold closest_parameter, sorted_square, cyclic_edges. cbn [combine app fold_left].
  assert (F1 : rltb (/ 10000000000) (-4) = false) by (rl; reflexivity). assert (F2 : rltb (/ 10000000000) (-1) = false) by (rl; reflexivity).
  assert (F3 : rltb (/ 10000000000) 4 = true) by (rl; reflexivity). assert (F4 : rltb 4 10000000000 = true) by (rl; reflexivity).
  assert (F5 : rltb 4 4 = false) by (rl; reflexivity).
  destruct Hs as [->| ->].
  - assert (L1 : line_parameter (@pair p2 p2 (- (2), - (2)) (- (2), 2)) (0, 3 / 4) (1 / 2, 1 / 4) = Some (-4)) by par (7/16) (-4).
    assert (L2 : line_parameter (@pair p2 p2 (- (2), 2) (2, 2)) (0, 3 / 4) (1 / 2, 1 / 4) = Some (-1)) by par (9/8) 5.
    assert (L3 : line_parameter (@pair p2 p2 (2, 2) (2, - (2))) (0, 3 / 4) (1 / 2, 1 / 4) = Some 4) by par (1/16) 4.
    assert (L4 : line_parameter (@pair p2 p2 (2, - (2)) (- (2), - (2))) (0, 3 / 4) (1 / 2, 1 / 4) = Some (-1)) by par (15/8) (-11).
    rewrite L1, L2, L3, L4. rewrite ?F1, ?F2, ?F3, ?F4, ?F5. reflexivity.
  - assert (L1 : line_parameter (@pair p2 p2 (- (2), - (2)) (- (2), 2)) (0, 3 / 4) (-1 / 2, 1 / 4) = Some 4) by par (15/16) 4.
    assert (L2 : line_parameter (@pair p2 p2 (- (2), 2) (2, 2)) (0, 3 / 4) (-1 / 2, 1 / 4) = Some (-1)) by par (-1/8) 5.
    assert (L3 : line_parameter (@pair p2 p2 (2, 2) (2, - (2))) (0, 3 / 4) (-1 / 2, 1 / 4) = Some (-4)) by par (9/16) (-4).
    assert (L4 : line_parameter (@pair p2 p2 (2, - (2)) (- (2), - (2))) (0, 3 / 4) (-1 / 2, 1 / 4) = Some (-1)) by par (-7/8) (-11).
    rewrite L1, L2, L3, L4. rewrite ?F1, ?F2, ?F3, ?F4, ?F5. reflexivity.
Qed.

Lemma not_again s key : s = 1 \/ s = -1 -> existsb (fun e' => andb (negb (edge_eqb e' key)) (param_test (fun l => rltb 1 l) (line_parameter e' (0, 3 / 4) (s / 2, 1 / 4)))) (triangle_edges one_triangle) = false.
Proof.
  intros Hs. unfold one_triangle, triangle_edges. cbn [existsb].
  assert (F1 : rltb 1 (-1) = false) by (rl; reflexivity). assert (F2 : rltb 1 (-5/3) = false) by (rl; reflexivity). assert (F3 : rltb 1 1 = false) by (rl; reflexivity).
  destruct Hs as [->| ->].
  - assert (L1 : line_parameter (@pair p2 p2 top_p left_p) (0, 3 / 4) (1 / 2, 1 / 4) = Some (-5/3)) by (unfold top_p, left_p; par (5/6) (-5/3)).
    assert (L2 : line_parameter (@pair p2 p2 left_p right_p) (0, 3 / 4) (1 / 2, 1 / 4) = Some (-1)) by (unfold left_p, right_p; par (-1/4) (-3)).
    assert (L3 : line_parameter (@pair p2 p2 right_p top_p) (0, 3 / 4) (1 / 2, 1 / 4) = Some 1) by (unfold right_p, top_p; par (1/2) 1).
    rewrite L1, L2, L3. cbn [param_test]. rewrite F1, F2, F3, !andb_false_r. reflexivity.
  - assert (L1 : line_parameter (@pair p2 p2 top_p left_p) (0, 3 / 4) (-1 / 2, 1 / 4) = Some 1) by (unfold top_p, left_p; par (1/2) 1).
    assert (L2 : line_parameter (@pair p2 p2 left_p right_p) (0, 3 / 4) (-1 / 2, 1 / 4) = Some (-1)) by (unfold left_p, right_p; par (5/4) (-3)).
    assert (L3 : line_parameter (@pair p2 p2 right_p top_p) (0, 3 / 4) (-1 / 2, 1 / 4) = Some (-5/3)) by (unfold right_p, top_p; par (1/6) (-5/3)).
    rewrite L1, L2, L3. cbn [param_test]. rewrite F1, F2, F3, !andb_false_r. reflexivity.
Qed.
Ltac side s := unfold single_side; rewrite one_center; cbn [obind];
  match goal with |- context [if reqb (dot2 ?v ?v) 0 then _ else _] => let Ev := fresh in assert (Ev : dot2 v v = 5) by (unfold top_p, left_p, right_p; pts; field); rewrite !Ev end;
  rq;
  match goal with |- context [rltb (Rabs (dot2 ?n ?n)) _] =>
    replace n with ((s / 2, 1 / 4) : p2) by (unfold top_p, left_p, right_p; pts; f_equal; field) end;
  match goal with |- context [rltb (Rabs ?x) _] => replace x with (5/16) by (pts; field) end;
  rewrite Rabs_right by lra; rl; rewrite not_again by lra; rewrite square_inside by (cbn [fst snd]; lra);
  rewrite (square_closest _ _ 4) by (apply closest_side; lra); cbn [fst snd]; do 3 f_equal; f_equal; field.
Lemma top_left_side : single_side (sorted_square 2) (top_p, left_p) one_triangle = Ok (Some ((0, 3 / 4), (-2, 7 / 4))).
Proof. side (-1). Qed.
Lemma right_top_side : single_side (sorted_square 2) (right_p, top_p) one_triangle = Ok (Some ((0, 3 / 4), (2, 7 / 4))).
Proof. side 1. Qed.
Lemma neq_points (a b : p2) : fst a <> fst b \/ snd a <> snd b -> p2_eqb a b = false.
Proof. intros H. apply p2_neqb. intros ->. destruct H as [H|H]; apply H; reflexivity. Qed.
Ltac pf := match goal with |- context [p2_eqb ?a ?b] => rewrite (neq_points a b) by (unfold top_p, left_p, right_p; cbn [fst snd]; first [left; lra|right; lra]) end.
Lemma one_entries : filter (fun x => edge_contains (fst x) top_p) (edge_to_triangle [one_triangle]) =
  [((top_p, left_p), [one_triangle]); ((right_p, top_p), [one_triangle])].
Proof.
  assert (E1 : edge_eqb (top_p, left_p) (left_p, right_p) = false) by (unfold edge_eqb; cbn [fst snd]; repeat pf; cbn [andb orb]; rewrite ?andb_false_r; reflexivity).
  assert (E2 : edge_eqb (top_p, left_p) (right_p, top_p) = false) by (unfold edge_eqb; cbn [fst snd]; repeat pf; cbn [andb orb]; rewrite ?andb_false_r; reflexivity).
  assert (E3 : edge_eqb (left_p, right_p) (right_p, top_p) = false) by (unfold edge_eqb; cbn [fst snd]; repeat pf; cbn [andb orb]; rewrite ?andb_false_r; reflexivity).
  assert (M : edge_to_triangle [one_triangle] = [((top_p, left_p), [one_triangle]); ((left_p, right_p), [one_triangle]); ((right_p, top_p), [one_triangle])]).
  { unfold edge_to_triangle, one_triangle at 1, triangle_edges. cbn [fold_left edge_put]. rewrite E1. cbn [edge_put]. rewrite E2. cbn [edge_put]. rewrite E3. reflexivity. }
  rewrite M. cbn [filter fst]. unfold edge_contains. cbn [fst snd]. rewrite p2_eqb_refl. cbn [orb]. repeat pf. reflexivity.
Qed.

Lemma distance_vertical x0 y0 y1 p : y0 <> y1 -> edge_distance (@pair p2 p2 (x0, y0) (x0, y1)) p = Some (Rabs (fst p - x0)).
Proof.
  intros H. unfold edge_distance. destruct p as [x y]. pts. assert (N : (x0 - x0) * (x0 - x0) + (y1 - y0) * (y1 - y0) <> 0).
  { intros E. apply H. assert (Z : (y1 - y0) * (y1 - y0) = 0) by lra. apply Rmult_integral in Z. lra. }
  rq. f_equal. rewrite <- sqrt_Rsqr_abs. f_equal. unfold Rsqr. field. lra.
Qed.
Lemma distance_horizontal x0 x1 y0 p : x0 <> x1 -> edge_distance (@pair p2 p2 (x0, y0) (x1, y0)) p = Some (Rabs (snd p - y0)).
Proof.
  intros H. unfold edge_distance. destruct p as [x y]. pts. assert (N : (x1 - x0) * (x1 - x0) + (y0 - y0) * (y0 - y0) <> 0).
  { intros E. apply H. assert (Z : (x1 - x0) * (x1 - x0) = 0) by lra. apply Rmult_integral in Z. lra. }
  rq. f_equal. rewrite <- sqrt_Rsqr_abs. f_equal. unfold Rsqr. field. lra.
Qed.
Lemma square_index p : edge_index (sorted_square 2) p =
  if rltb (Rabs (fst p - - (2))) (/ 100000000) then 0%Z else if rltb (Rabs (snd p - 2)) (/ 100000000) then 1%Z
  else if rltb (Rabs (fst p - 2)) (/ 100000000) then 2%Z else if rltb (Rabs (snd p - - (2))) (/ 100000000) then 3%Z else (-1)%Z.
Proof.
  unfold edge_index, sorted_square. cbn [cyclic_edges combine app edge_index_from].
  rewrite (distance_vertical (- (2)) (- (2)) 2), (distance_horizontal (- (2)) 2 2), (distance_vertical 2 2 (- (2))), (distance_horizontal 2 (- (2)) (- (2))) by lra. cbn [param_test].
  repeat match goal with |- context [rltb ?a ?b] => destruct (rltb a b); [reflexivity|] end. reflexivity.
Qed.
Ltac rabs := repeat (match goal with |- context [Rabs ?x] => first [rewrite (Rabs_right x) by lra|rewrite (Rabs_left x) by lra] end; rl).

Lemma top_cell_throws : voronoi_cell (fun m => m) (sorted_square 2) [one_triangle] top_p = Throw.
Proof.
  unfold voronoi_cell. rewrite one_entries. cbn [voronoi_points]. unfold voronoi_edge. cbn [fst snd]. rewrite top_left_side, right_top_side. cbn [obind].
  assert (EP : polygon_points [(0, 3 / 4); (-2, 7 / 4); (0, 3 / 4); (2, 7 / 4)] = [(-2, 7 / 4); (2, 7 / 4); (0, 3 / 4)]).
  { unfold polygon_points, angles_points.
    assert (EC : center_of_points [(0, 3 / 4); (-2, 7 / 4); (0, 3 / 4); (2, 7 / 4)] = (0, 5 / 4)).
    { unfold center_of_points. cbn [map length fold_left px py fst snd INR]. f_equal; field. }
    rewrite EC. cbn [fold_left]. unfold px, py. cbn [fst snd].
    rewrite (atan2_neg_pos (0 - 0) (3 / 4 - 5 / 4)), (atan2_pos (-2 - 0) (7 / 4 - 5 / 4)), (atan2_pos (2 - 0) (7 / 4 - 5 / 4)) by lra.
    replace ((0 - 0) / (3 / 4 - 5 / 4)) with 0 by (field; lra). replace ((-2 - 0) / (7 / 4 - 5 / 4)) with (- (4)) by (field; lra). replace ((2 - 0) / (7 / 4 - 5 / 4)) with 4 by (field; lra).
    rewrite atan_opp, atan_0. pose proof PI_4. pose proof PI2_3_2. pose proof PI_RGT_0. pose proof (atan_bound 4).
    assert (3 / 4 < atan 4) by (assert (PI / 4 < atan 4) by (rewrite <- atan_1; apply atan_increasing; lra); lra).
    cbn [angle_put]. do 6 (rl; cbn [angle_put]). repeat (rl; cbn [angle_put]).
    cbn [keep_apart]. do 3 (rl; cbn [keep_apart]). reflexivity. }
  change (add_intersection (sorted_square 2) top_p (polygon_points [(0, 3 / 4); (-2, 7 / 4); (0, 3 / 4); (2, 7 / 4)]) = Throw).
  rewrite EP. unfold add_intersection. cbn [filter].
  assert (I1 : edge_index (sorted_square 2) (-2, 7 / 4) = 0%Z) by (rewrite square_index; cbn [fst snd]; rabs; reflexivity).
  assert (I2 : edge_index (sorted_square 2) (2, 7 / 4) = 2%Z) by (rewrite square_index; cbn [fst snd]; rabs; reflexivity).
  assert (I3 : edge_index (sorted_square 2) (0, 3 / 4) = (-1)%Z) by (rewrite square_index; cbn [fst snd]; rabs; reflexivity).
  rewrite I1, I2, I3. cbn [Z.eqb negb length Nat.eqb seq boundary_loop nth_error]. change ((0 + 1) mod 3)%nat with 1%nat. cbn [nth_error].
  rewrite I1, I2. cbn [Z.eqb orb Pos.eqb]. unfold point_on_both, sorted_square. cbn [cyclic_edges combine app Z.ltb Z.compare orb Z.to_nat Pos.to_nat nth_error].
  change (Pos.to_nat 2) with 2%nat. cbn [nth_error]. unfold edge_contains. cbn [fst snd]. repeat pf. reflexivity.
Qed.
(** Finding: three points in a square.  The cell of the upper point reaches from the left to the right side of the square and contains
    both upper corners; GetPointOnBothEdges looks for one corner that lies on the left and on the right side and throws. *)
Theorem C109_two_corners_refuted : voronoi_cells (fun m => m) (square 2) [one_triangle] [top_p; left_p; right_p] = Throw.
Proof.
  unfold voronoi_cells. rewrite square_points by lra.
  change (voronoi_cells_of (fun m => m) (sorted_square 2) [one_triangle] [top_p; left_p; right_p] = Throw). cbn [voronoi_cells_of].
  rewrite top_cell_throws. reflexivity.
Qed.
Print Assumptions C109_two_corners_refuted.

(** Repeated calls: once the cells have been computed, every further call of GetVoronoiCells returns the same cells. *)
Theorem C109_again : forall order boundary tris pts stored cells,
  get_voronoi_cells order boundary tris pts [] = (Ok cells, stored) -> pts <> [] ->
  get_voronoi_cells order boundary tris pts stored = (Ok cells, stored).
Proof.
  intros order boundary tris pts stored cells E HN. unfold get_voronoi_cells in E. injection E as E1 E2. unfold voronoi_cells in E1. unfold stored_cells in E2.
  destruct (polygon_points boundary) as [|b0 b]; [discriminate|].
  assert (G : forall l cs, voronoi_cells_of order (b0 :: b) tris l = Ok cs -> stored_cells_of order (b0 :: b) tris l = cs).
  { induction l as [|p l IH]; intros cs H; cbn [voronoi_cells_of stored_cells_of] in *; [congruence|].
    destruct (voronoi_cell order (b0 :: b) tris p) as [c| |]; try discriminate. cbn [obind] in H. destruct (voronoi_cells_of order (b0 :: b) tris l) as [cs'| |]; try discriminate.
    cbn [omap obind] in H. injection H as <-. f_equal. now apply IH. }
  rewrite (G pts cells E1) in E2. subst stored. unfold get_voronoi_cells. destruct cells as [|c cells]; [|reflexivity].
  destruct pts as [|p pts]; [congruence|]. exfalso. apply G in E1. cbn [stored_cells_of] in E1. destruct (voronoi_cell order (b0 :: b) tris p); discriminate.
Qed.
Print Assumptions C109_again.

(** Finding: a call that failed is not repeated.  In the square above the first call throws; the second one returns normally, with three
    cells without points. *)
Theorem C109_after_failure_refuted : exists stored,
  get_voronoi_cells (fun m => m) (square 2) [one_triangle] [top_p; left_p; right_p] [] = (Throw, stored) /\
  get_voronoi_cells (fun m => m) (square 2) [one_triangle] [top_p; left_p; right_p] stored = (Ok [[]; []; []], stored).
Proof.
  exists [[]; []; []]. split; [|reflexivity]. unfold get_voronoi_cells. rewrite C109_two_corners_refuted. f_equal.
  unfold stored_cells. rewrite square_points by lra. unfold sorted_square at 1.
  change (stored_cells_of (fun m => m) (sorted_square 2) [one_triangle] [top_p; left_p; right_p] = [[]; []; []]).
  pose proof top_cell_throws as E. cbn [stored_cells_of]. rewrite E. reflexivity.
Qed.
Print Assumptions C109_after_failure_refuted.

(** ** A point inside a triangle: the hypotheses of C109_nearest_partial and of C109_corners *)
Definition oo : p2 := (0, 0).
Definition aa : p2 := (0, 4).
Definition bb : p2 := (-4, -4).
Definition cc : p2 := (4, -4).
Definition t_ab : triangle := ((oo, aa), (aa, bb), (bb, oo)).
Definition t_bc : triangle := ((oo, bb), (bb, cc), (cc, oo)).
Definition t_ca : triangle := ((oo, cc), (cc, aa), (aa, oo)).
Ltac pp := unfold oo, aa, bb, cc in *.
Ltac pg := match goal with |- context [p2_eqb ?a ?b] => rewrite (neq_points a b) by (pp; cbn [fst snd]; first [left; lra|right; lra]) end.
Ltac eqe := unfold edge_eqb; cbn [fst snd]; rewrite ?p2_eqb_refl; repeat pg; rewrite ?andb_false_r; cbn [andb orb]; reflexivity.
Lemma star_entries : filter (fun x => edge_contains (fst x) oo) (edge_to_triangle [t_ab; t_bc; t_ca]) =
  [((oo, aa), [t_ab; t_ca]); ((bb, oo), [t_ab; t_bc]); ((cc, oo), [t_bc; t_ca])].
Proof.
  assert (M : edge_to_triangle [t_ab; t_bc; t_ca] = [((oo, aa), [t_ab; t_ca]); ((aa, bb), [t_ab]); ((bb, oo), [t_ab; t_bc]); ((bb, cc), [t_bc]); ((cc, oo), [t_bc; t_ca]); ((cc, aa), [t_ca])]).
  { unfold edge_to_triangle. cbn [fold_left]. change (triangle_edges t_ab) with [(oo, aa); (aa, bb); (bb, oo)]. change (triangle_edges t_bc) with [(oo, bb); (bb, cc); (cc, oo)]. change (triangle_edges t_ca) with [(oo, cc); (cc, aa); (aa, oo)]. cbn [fold_left].
    repeat (cbn [edge_put]; match goal with |- context [if edge_eqb ?a ?b then _ else _] =>
      first [replace (edge_eqb a b) with true by (symmetry; eqe)|replace (edge_eqb a b) with false by (symmetry; eqe)] end). reflexivity. }
  rewrite M. cbn [filter fst]. unfold edge_contains. cbn [fst snd]. rewrite p2_eqb_refl. repeat pg. reflexivity.
Qed.
Ltac cen := unfold center_of_triangle, circumcenter, unique_points, t_ab, t_bc, t_ca, edge_contains; cbn [fst snd]; rewrite ?p2_eqb_refl, ?orb_true_r; cbn [orb]; pp; pts; rq; do 2 f_equal; field.
Lemma cen_ab : center_of_triangle t_ab = Ok (-6, 2). Proof. cen. Qed.
Lemma cen_bc : center_of_triangle t_bc = Ok (0, -4). Proof. cen. Qed.
Lemma cen_ca : center_of_triangle t_ca = Ok (6, 2). Proof. cen. Qed.
Lemma star_cell : voronoi_cell (fun m => m) (sorted_square 8) [t_ab; t_bc; t_ca] oo = Ok [(-6, 2); (6, 2); (0, -4)].
Proof.
  unfold voronoi_cell. rewrite star_entries. cbn [voronoi_points]. unfold voronoi_edge. cbn [fst snd]. unfold double_side. rewrite cen_ab, cen_bc, cen_ca. cbn [obind].
  rewrite !square_inside by (cbn [fst snd]; lra). cbn [obind].
  assert (EP : polygon_points [(-6, 2); (6, 2); (-6, 2); (0, -4); (0, -4); (6, 2)] = [(-6, 2); (6, 2); (0, -4)]).
  { unfold polygon_points, angles_points.
    assert (EC : center_of_points [(-6, 2); (6, 2); (-6, 2); (0, -4); (0, -4); (6, 2)] = (0, 0)).
    { unfold center_of_points. cbn [map length fold_left px py fst snd INR]. f_equal; field. }
    rewrite EC. cbn [fold_left]. unfold px, py. cbn [fst snd].
    rewrite (atan2_neg_pos (0 - 0) (-4 - 0)), (atan2_pos (-6 - 0) (2 - 0)), (atan2_pos (6 - 0) (2 - 0)) by lra.
    replace ((0 - 0) / (-4 - 0)) with 0 by (field; lra). replace ((-6 - 0) / (2 - 0)) with (- (3)) by (field; lra). replace ((6 - 0) / (2 - 0)) with 3 by (field; lra).
    rewrite atan_opp, atan_0. pose proof PI_4. pose proof PI2_3_2. pose proof PI_RGT_0. pose proof (atan_bound 3).
    assert (3 / 4 < atan 3) by (assert (PI / 4 < atan 3) by (rewrite <- atan_1; apply atan_increasing; lra); lra).
    cbn [angle_put]. repeat (rl; cbn [angle_put]).
    cbn [keep_apart]. do 3 (rl; cbn [keep_apart]). reflexivity. }
  change (add_intersection (sorted_square 8) oo (polygon_points [(-6, 2); (6, 2); (-6, 2); (0, -4); (0, -4); (6, 2)]) = Ok [(-6, 2); (6, 2); (0, -4)]).
  rewrite EP. unfold add_intersection.
  assert (I : forall p : p2, - 7 <= fst p <= 7 -> - 7 <= snd p <= 7 -> edge_index (sorted_square 8) p = (-1)%Z).
  { intros p Hx Hy. unfold edge_index, sorted_square. cbn [cyclic_edges combine app edge_index_from].
    rewrite (distance_vertical (- (8)) (- (8)) 8), (distance_horizontal (- (8)) 8 8), (distance_vertical 8 8 (- (8))), (distance_horizontal 8 (- (8)) (- (8))) by lra. cbn [param_test].
    rabs. reflexivity. }
  cbn [filter]. rewrite !I by (cbn [fst snd]; lra). reflexivity.
Qed.
Lemma star_triangles t A B C : In t [t_ab; t_bc; t_ca] -> is_triangle A B C t ->
  (t = t_ab /\ Permutation [A; B; C] [oo; aa; bb]) \/ (t = t_bc /\ Permutation [A; B; C] [oo; bb; cc]) \/ (t = t_ca /\ Permutation [A; B; C] [oo; cc; aa]).
Proof.
  assert (G : forall A B C X Y Z : p2, X <> Y -> Y <> Z -> Z <> X -> is_triangle A B C ((X, Y), (Y, Z), (Z, X)) -> Permutation [A; B; C] [X; Y; Z]).
  { intros A' B' C' X Y Z N1 N2 N3 (e0 & e1 & e2 & E & J0 & J1 & J2). injection E as <- <- <-.
    destruct J0 as [E0|E0], J1 as [E1|E1], J2 as [E2|E2]; injection E0 as <- <-; injection E1; injection E2; intros; subst; try congruence; try apply Permutation_refl.
    all: try (exfalso; congruence). }
  intros [<-|[<-|[<-|[]]]] H; [left|right; left|right; right]; (split; [reflexivity|]); apply G; try exact H; pp; intros E; injection E; intros; lra.
Qed.
Lemma star_center t m : In t [t_ab; t_bc; t_ca] -> center_of t m ->
  (t = t_ab /\ m = (-6, 2)) \/ (t = t_bc /\ m = (0, -4)) \/ (t = t_ca /\ m = (6, 2)).
Proof.
  intros Ht (A & B & C & HT & D1 & D2). apply distance_sq in D1. apply distance_sq in D2.
  assert (G : forall W, In W [A; B; C] -> sq m W = sq m A) by (intros W [<-|[<-|[<-|[]]]]; congruence).
  assert (H3 : forall X Y Z : p2, Permutation [A; B; C] [X; Y; Z] -> sq m X = sq m Y /\ sq m X = sq m Z).
  { intros X Y Z P. assert (GX : forall W, In W [X; Y; Z] -> sq m W = sq m A) by (intros W HW; apply G; exact (Permutation_in W (Permutation_sym P) HW)).
    rewrite (GX X), (GX Y), (GX Z) by (cbn; auto). auto. }
  destruct (star_triangles t A B C Ht HT) as [(-> & P)|[(-> & P)|(-> & P)]]; destruct (H3 _ _ _ P) as (S1 & S2); clear H3 G P D1 D2;
    [left|right; left|right; right]; (split; [reflexivity|]); destruct m as [m1 m2]; unfold sq in S1, S2; pp; cbn [fst snd] in S1, S2; f_equal; lra.
Qed.
Example C109_example : (forall t, In t [t_ab; t_bc; t_ca] -> exists A B C, is_triangle A B C t) /\ delaunay [t_ab; t_bc; t_ca] [oo; aa; bb; cc] /\
  (forall q, neighbours [t_ab; t_bc; t_ca] oo q -> in_two [t_ab; t_bc; t_ca] oo q) /\
  (forall t m, In t [t_ab; t_bc; t_ca] -> corner_of t oo -> center_of t m -> point_is_inside (polygon_points (square 8)) m = true) /\
  voronoi_cell (fun m => m) (polygon_points (square 8)) [t_ab; t_bc; t_ca] oo = Ok [(-6, 2); (6, 2); (0, -4)].
Proof.
  rewrite square_points by lra. split; [|split; [|split; [|split; [|exact star_cell]]]].
  - intros t [<-|[<-|[<-|[]]]]; do 3 eexists; do 3 eexists; (split; [reflexivity|]); unfold joins; (split; [left; reflexivity|split; [left; reflexivity|left; reflexivity]]).
  - intros t A B C m q Ht HT D1 D2 Hq. apply distance_sq_le.
    assert (HC : center_of t m) by (exists A, B, C; auto). apply distance_sq in D1. apply distance_sq in D2.
    destruct (star_center t m Ht HC) as [(-> & ->)|[(-> & ->)|(-> & ->)]]; destruct (star_triangles _ A B C Ht HT) as [(E & P)|[(E & P)|(E & P)]];
      try (exfalso; apply (f_equal (fun t : triangle => fst (snd (fst (fst t))))) in E; unfold t_ab, t_bc, t_ca in E; pp; cbn [fst snd] in E; lra);
      assert (HA : In A [A; B; C]) by (now left); apply (Permutation_in A P) in HA; clear - HA Hq;
      destruct HA as [<-|[<-|[<-|[]]]]; destruct Hq as [<-|[<-|[<-|[<-|[]]]]]; unfold sq; pp; cbn [fst snd]; lra.
  - assert (Nab : neighbours [t_ab] oo aa) by (exists t_ab, oo, aa, bb; split; [now left|]; split; [do 3 eexists; split; [reflexivity|]; unfold joins; auto|tauto]).
    assert (Nab' : neighbours [t_ab] oo bb) by (exists t_ab, oo, aa, bb; split; [now left|]; split; [do 3 eexists; split; [reflexivity|]; unfold joins; auto|tauto]).
    assert (Nbc : neighbours [t_bc] oo bb) by (exists t_bc, oo, bb, cc; split; [now left|]; split; [do 3 eexists; split; [reflexivity|]; unfold joins; auto|tauto]).
    assert (Nbc' : neighbours [t_bc] oo cc) by (exists t_bc, oo, bb, cc; split; [now left|]; split; [do 3 eexists; split; [reflexivity|]; unfold joins; auto|tauto]).
    assert (Nca : neighbours [t_ca] oo cc) by (exists t_ca, oo, cc, aa; split; [now left|]; split; [do 3 eexists; split; [reflexivity|]; unfold joins; auto|tauto]).
    assert (Nca' : neighbours [t_ca] oo aa) by (exists t_ca, oo, cc, aa; split; [now left|]; split; [do 3 eexists; split; [reflexivity|]; unfold joins; auto|tauto]).
    intros q (t & A & B & C & Ht & HT & Hq).
    assert (HqABC : In oo [A; B; C] /\ In q [A; B; C]) by (destruct Hq as [(E1 & E2)|[(E1 & E2)|[(E1 & E2)|[(E1 & E2)|[(E1 & E2)|(E1 & E2)]]]]]; rewrite <- E1, <- E2; cbn; auto).
    destruct HqABC as (Ho & Hq').
    assert (Nq : q <> oo).
    { intros Eq. assert (X : A = B \/ B = C \/ C = A) by (destruct Hq as [(E1 & E2)|[(E1 & E2)|[(E1 & E2)|[(E1 & E2)|[(E1 & E2)|(E1 & E2)]]]]]; rewrite <- E1, <- E2, Eq; auto).
      assert (ND : NoDup [A; B; C]).
      { destruct (star_triangles t A B C Ht HT) as [(-> & P)|[(-> & P)|(-> & P)]]; apply (Permutation_NoDup (Permutation_sym P));
          repeat constructor; cbn [In]; pp; intros D; repeat destruct D as [D|D]; try contradiction; injection D; intros; lra. }
      inversion ND as [|? ? N1 ND1]; subst. inversion ND1 as [|? ? N2 ND2]; subst. cbn [In] in *. destruct X as [->|[->| ->]]; tauto. }
    assert (Hin : q = aa \/ q = bb \/ q = cc).
    { destruct (star_triangles t A B C Ht HT) as [(-> & P)|[(-> & P)|(-> & P)]]; apply (Permutation_in q P) in Hq'; destruct Hq' as [<-|[<-|[<-|[]]]]; auto; contradiction. }
    destruct Hin as [->|[->| ->]].
    + exists t_ab, t_ca, [t_bc]. split; [apply perm_skip, perm_swap|]. auto.
    + exists t_ab, t_bc, [t_ca]. split; [apply Permutation_refl|]. auto.
    + exists t_bc, t_ca, [t_ab]. split; [|auto]. apply (Permutation_cons_append [t_bc; t_ca] t_ab).
  - intros t m Ht _ HC. destruct (star_center t m Ht HC) as [(-> & ->)|[(-> & ->)|(-> & ->)]]; apply square_inside; cbn [fst snd]; lra.
Qed.
