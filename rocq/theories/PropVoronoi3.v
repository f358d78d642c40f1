(** C109: cells next to a right triangle at the hull *)
From Coq Require Import Reals ZArith List Bool Arith Lia Lra Psatz Permutation.
From Verif Require Import PropDelaunay Outcome AdaptiveModel AdaptiveProofs CollisionModel CollisionProofs2 DelaunayModel DelaunaySpec DelaunayProofs StarProofs3
  PolygonModel PolygonSpec PropPolygon VoronoiCellModel VoronoiCellSpec VoronoiCellProofs PropVoronoiCell VoronoiHull.
Import ListNotations.
Local Open Scope R_scope.

(** ** Points at the hull *)
(** the middle between two points *)
Definition middle (p q : point) : point := ((fst p + fst q) / 2, (snd p + snd q) / 2).
(** [r] is the third corner of a triangle with the side from [p] to [q] *)
Definition third_corner (t : (point * point) * (point * point) * (point * point)) (p q r : point) : Prop :=
  exists A B C, is_triangle A B C t /\ Permutation [A; B; C] [p; q; r].

Lemma three_points {T} (a b c p q r : T) : Permutation [a; b; c] [p; q; r] ->
  (a = p /\ (b = q /\ c = r \/ b = r /\ c = q)) \/ (a = q /\ (b = p /\ c = r \/ b = r /\ c = p)) \/ (a = r /\ (b = p /\ c = q \/ b = q /\ c = p)).
Proof.
  intros P. assert (Ha : In a [p; q; r]) by (apply (Permutation_in a P); now left).
  destruct Ha as [<-|[<-|[<-|[]]]].
  - apply Permutation_cons_inv in P. apply Permutation_length_2_inv in P. destruct P as [E|E]; injection E; intros; subst; tauto.
  - assert (P' : Permutation [q; b; c] [q; p; r]) by (eapply Permutation_trans; [exact P|apply perm_swap]). apply Permutation_cons_inv in P'.
    apply Permutation_length_2_inv in P'. destruct P' as [E|E]; injection E; intros; subst; tauto.
  - assert (P' : Permutation [r; b; c] [r; p; q]) by (eapply Permutation_trans; [exact P|]; apply Permutation_sym, (Permutation_cons_append [p; q] r)). apply Permutation_cons_inv in P'.
    apply Permutation_length_2_inv in P'. destruct P' as [E|E]; injection E; intros; subst; tauto.
Qed.
Lemma third_edges t p q r : third_corner t p q r ->
  (forall e, In e (triangle_edges t) -> joins p q e \/ joins p r e \/ joins q r e) /\
  (exists e, In e (triangle_edges t) /\ joins p r e) /\ (exists e, In e (triangle_edges t) /\ joins q r e).
Proof.
  intros (A & B & C & (e0 & e1 & e2 & -> & J0 & J1 & J2) & P). unfold triangle_edges, joins in *.
  destruct (three_points _ _ _ _ _ _ P) as [(-> & [(-> & ->)|(-> & ->)])|[(-> & [(-> & ->)|(-> & ->)])|(-> & [(-> & ->)|(-> & ->)])]];
    (split; [intros e [<-|[<-|[<-|[]]]]; tauto|]); split;
    first [exists e0; split; [cbn; tauto|tauto]|exists e1; split; [cbn; tauto|tauto]|exists e2; split; [cbn; tauto|tauto]].
Qed.
Lemma third_center t p q r m : third_corner t p q r -> center_of_triangle t = Ok m -> sq m p = sq m q /\ sq m p = sq m r /\ orient p q r <> 0.
Proof.
  intros (A & B & C & HT & P) E. destruct (center_sq A B C t m HT E) as (S1 & S2).
  assert (G : forall W, In W [p; q; r] -> sq m W = sq m A).
  { intros W HW. apply (Permutation_in W (Permutation_sym P)) in HW. destruct HW as [<-|[<-|[<-|[]]]]; congruence. }
  rewrite (G p), (G q), (G r) by (cbn; auto). split; [reflexivity|]. split; [reflexivity|].
  destruct (unique_of_triangle A B C t HT) as (X & Y & Z & [(EU & PU)|(EU & D)]); unfold center_of_triangle in E; rewrite EU in E; fold (det_of X Y Z) in E.
  - destruct (reqb_spec (det_of X Y Z) 0) as [(Eb & _)|(Eb & ND)]; rewrite Eb in E; [discriminate|].
    intros O. apply ND. assert (PX : Permutation [X; Y; Z] [p; q; r]) by (eapply Permutation_trans; eassumption). clear - O PX.
    assert (O' : 2 * orient p q r = 0) by (rewrite O; ring). unfold orient in O'. unfold det_of, px, py.
    destruct (three_points _ _ _ _ _ _ PX) as [(-> & [(-> & ->)|(-> & ->)])|[(-> & [(-> & ->)|(-> & ->)])|(-> & [(-> & ->)|(-> & ->)])]]; lra.
  - rewrite D in E. destruct (reqb_spec 0 0) as [(Eb & _)|(Eb & ND)]; [rewrite Eb in E; discriminate|exfalso; auto].
Qed.
Lemma segment_sym X Y Q : on_segment X Y Q -> on_segment Y X Q.
Proof. intros (l & Hl & E1 & E2). exists (1 - l). split; [lra|]. rewrite E1, E2. split; ring. Qed.
Lemma parallel_sym X Y d : parallel X Y d -> parallel Y X d.
Proof. unfold parallel. lra. Qed.

(** the ray from a circumcenter over a hull edge stays closest to the ends of the edge *)
Lemma single_outward boundary A B C t m : third_corner t A B C -> center_of_triangle t = Ok m -> point_is_inside boundary m = true ->
  / 10000 <= distance2 m (middle A B) -> exists c, single_side boundary (A, B) t = Ok (Some (m, c)) /\
  forall x, 0 <= orient A B x * orient A B C -> sq m A <= sq m x -> sq c A <= sq c x.
Proof.
  intros HT Em HI HF. destruct (third_center t A B C m HT Em) as (S1 & S2 & N). destruct (third_edges t A B C HT) as (HE & (eAC & IAC & JAC) & (eBC & IBC & JBC)).
  assert (far : / 100000000 <= sq (middle A B) m).
  { unfold distance2, Rsqr in HF. fold (sq m (middle A B)) in HF.
    assert (X : / 10000 * / 10000 <= sqrt (sq m (middle A B)) * sqrt (sq m (middle A B))) by (apply Rmult_le_compat; lra).
    rewrite sqrt_sqrt in X by apply sq_pos. replace (sq (middle A B) m) with (sq m (middle A B)) by (unfold sq; ring). lra. }
  set (n0 := sub2 ((fst A + fst B) / 2, (snd A + snd B) / 2) m).
  assert (EN : dot2 n0 n0 = sq (middle A B) m) by reflexivity.
  assert (far0 : 0 < dot2 n0 n0) by lra.
  unfold single_side. rewrite Em. cbn [obind fst snd]. pose proof (v_pos A B C m S1 S2 N far0) as V.
  destruct (reqb_spec (dot2 (sub2 B A) (sub2 B A)) 0) as [(-> & Z)|(-> & _)]; [exfalso; lra|].
  rewrite (n_is_edge_point A B C m S1 S2 N far0). fold n0.
  destruct (rltb_spec (Rabs (dot2 n0 n0)) (/ 100000000)) as [(_ & Z)|(-> & _)]; [exfalso; rewrite Rabs_right in Z by lra; lra|].
  match goal with |- context [if ?b then neg2 n0 else n0] => set (again := b) end.
  assert (HA : again = true -> 0 < dot2 n0 (sub2 C A)).
  { unfold again. intros H. apply existsb_exists in H. destruct H as ((U, W) & Hin & H). apply andb_true_iff in H. destruct H as (H1 & H2).
    apply negb_true_iff in H1. destruct (line_parameter (U, W) m n0) as [l|] eqn:El; [|discriminate]. cbn [param_test] in H2.
    destruct (rltb_spec 1 l) as [(_ & Hl)|(E & _)]; [|congruence].
    assert (NP : ~ parallel U W n0) by (intros P; discriminate (eq_trans (eq_sym El) (parameter_parallel U W m n0 P))).
    assert (Hl0 : 0 < l) by lra. apply (proj1 (parameter_iff U W m n0 l NP Hl0)) in El.
    destruct (HE (U, W) Hin) as [J|[J|J]].
    - assert (X : edge_eqb (U, W) (A, B) = true) by (apply edge_eqb_spec; exact J). congruence.
    - apply (crossing_behind A B C m S1 S2 N far0 A l); [now left|exact Hl|]. destruct J as [J|J]; injection J as -> ->; auto.
    - apply (crossing_behind A B C m S1 S2 N far0 B l); [now right|exact Hl|]. destruct J as [J|J]; injection J as -> ->; auto. }
  assert (HB : again = false -> dot2 n0 (sub2 C A) <= 0).
  { intros H. destruct (Rle_or_lt (dot2 n0 (sub2 C A)) 0) as [L|L]; [exact L|]. exfalso.
    destruct (behind_crossing A B C m S1 S2 N far0 L) as (X & l & HX & Hl & NP & Hs).
    assert (HU : exists U W, In (U, W) (triangle_edges t) /\ joins X C (U, W)).
    { destruct HX as [->| ->]; [destruct eAC as (U, W)|destruct eBC as (U, W)]; exists U, W; auto. }
    destruct HU as (U & W & Hin & J).
    assert (El : line_parameter (U, W) m n0 = Some l).
    { destruct J as [J|J]; injection J as -> ->; apply parameter_iff; trivial; try lra; [intros P; apply NP, parallel_sym, P|apply segment_sym; exact Hs]. }
    assert (HC : C <> A /\ C <> B) by (split; intros ->; apply N; unfold orient; ring). destruct HC as (NA & NB).
    assert (NE : edge_eqb (U, W) (A, B) = false).
    { apply not_true_iff_false. intros E. apply edge_eqb_spec in E. cbn [fst snd] in E.
      destruct J as [J|J], E as [E|E]; injection J as -> ->; injection E; intros; congruence. }
    assert (T : again = true); [|congruence]. unfold again. apply existsb_exists. exists (U, W). split; [exact Hin|]. rewrite NE, El. cbn [negb andb param_test].
    destruct (rltb_spec 1 l) as [(-> & _)|(_ & Z)]; [reflexivity|lra]. }
  clearbody again. rewrite HI.
  set (n := if again then neg2 n0 else n0).
  assert (Hn : (n = n0 \/ n = neg2 n0) /\ dot2 n (sub2 C A) <= 0).
  { unfold n. destruct again; [|auto]. split; [now right|]. specialize (HA eq_refl). replace (dot2 (neg2 n0) (sub2 C A)) with (- dot2 n0 (sub2 C A)) by (unfold neg2; pts; ring). lra. }
  destruct Hn as (Hn & HS). exists (closest_intersection boundary m n). split; [reflexivity|]. intros x Hx Hsx.
  exact (away_nearest A B C m S1 S2 N far0 n (closest_parameter boundary m n) x Hn HS (closest_nonneg boundary m n) Hx Hsx).
Qed.

(** In a Delaunay triangulation: the circumcenters of the triangles at [p] are inside the boundary, and every edge at [p] belongs to two
    triangles or is an edge of the hull, with all points on the side of its triangle, that keeps a distance from the circumcenter
    of this triangle.  Then all points of the cell spanned by its corners (without corners of the boundary) are at least as close
    to [p] as to any other point. *)
Theorem C109_hull_partial : forall order boundary tris pts p cell, (forall m, Permutation (order m) m) ->
  (forall t, In t tris -> exists A B C, is_triangle A B C t) -> delaunay tris pts ->
  (forall t q r, In t tris -> third_corner t p q r -> in_two tris p q \/
    ((forall x, In x pts -> 0 <= orient p q x * orient p q r) /\ forall m, center_of t m -> / 10000 <= distance2 m (middle p q))) ->
  (forall t m, In t tris -> corner_of t p -> center_of t m -> point_is_inside (polygon_points boundary) m = true) ->
  voronoi_cell order (polygon_points boundary) tris p = Ok cell ->
  forall x, hull (fun c => In c cell /\ ~ In c boundary) x -> forall q, In q pts -> distance2 x p <= distance2 x q.
Proof.
  intros order boundary tris pts p cell HP HT HD H2 HI E x Hx q Hq. rewrite distance_sq_le.
  assert (Hb : forall x, In x (polygon_points boundary) -> In x boundary) by apply polygon_points_in.
  induction Hx as [c (Hc & Hnb)|a b s Ha IHa Hb' IHb Hs].
  2: { revert IHa IHb Hs. destruct a as [a1 a2], b as [b1 b2], p as [p1 p2'], q as [q1 q2]. unfold sq. cbn [fst snd]. intros IHa IHb Hs.
       assert (X1 : (1 - s) * ((a1 - p1) * (a1 - p1) + (a2 - p2') * (a2 - p2')) <= (1 - s) * ((a1 - q1) * (a1 - q1) + (a2 - q2) * (a2 - q2))) by (apply Rmult_le_compat_l; lra).
       assert (X2 : s * ((b1 - p1) * (b1 - p1) + (b2 - p2') * (b2 - p2')) <= s * ((b1 - q1) * (b1 - q1) + (b2 - q2) * (b2 - q2))) by (apply Rmult_le_compat_l; lra).
       lra. }
  unfold voronoi_cell in E. set (b := polygon_points boundary) in *.
  destruct (voronoi_points b _) as [l| |] eqn:El; try discriminate. cbn [obind] in E.
  destruct (add_intersection_in _ _ _ _ E c Hc) as [X|X]; [|exfalso; exact (Hnb (Hb c X))]. apply polygon_points_in in X.
  assert (G : forall entries l, (forall x, In x entries -> In x (edge_to_triangle tris) /\ entry_ok tris x /\ edge_contains (fst x) p = true) ->
    voronoi_points b entries = Ok l -> In c l -> sq c p <= sq c q).
  { clear l El E X cell Hc HP. induction entries as [|[k ts] r IH]; intros l He El Hc; cbn [voronoi_points] in El; [injection El as <-; contradiction|].
    destruct (voronoi_edge b (k, ts)) as [o| |] eqn:Eo; try discriminate. cbn [obind] in El.
    destruct (voronoi_points b r) as [l'| |]; try discriminate. cbn [obind] in El.
    specialize (IH l' (fun y Hy => He y (or_intror Hy)) eq_refl).
    destruct (He (k, ts) (or_introl eq_refl)) as (Hin & (Hne & Hall) & Hk). cbn [fst snd] in *.
    assert (Hc0 : forall t, In t ts -> forall m, center_of_triangle t = Ok m -> point_is_inside b m = true /\ sq m p <= sq m q).
    { intros t Ht m Hm. destruct (Hall t Ht) as (Hint & e & Hee & Ek). destruct (HT t Hint) as (A & B & C & HTr).
      destruct (center_sq A B C t m HTr Hm) as (S1 & S2). pose proof (sq_distance _ _ _ S1) as D1. pose proof (sq_distance _ _ _ S2) as D2.
      assert (Hcor : p = A \/ p = B \/ p = C).
      { apply edge_contains_spec in Hk. apply edge_eqb_spec in Ek. destruct (joined A B C t e HTr Hee) as [[->| ->]|[[->| ->]|[->| ->]]]; cbn [fst snd] in Ek;
          destruct Ek as [->| ->]; cbn [fst snd] in Hk; destruct Hk as [<-|<-]; auto. }
      split; [apply (HI t m Hint); [exists A, B, C; auto|exists A, B, C; auto]|].
      assert (Sp : sq m p = sq m A) by (destruct Hcor as [->|[->| ->]]; congruence). rewrite Sp. apply distance_sq_le. exact (HD t A B C m q Hint HTr D1 D2 Hq). }
    unfold voronoi_edge in Eo. cbn [fst snd] in Eo. destruct ts as [|t0 [|t1 [|]]]; try discriminate.
    - (* one triangle: an edge of the hull *)
      destruct (Hall t0 (or_introl eq_refl)) as (Hint & e & Hee & Ek).
      destruct (neighbours_edge tris t0 e k p Hint (HT t0 Hint) Hee Ek Hk) as (w & Hw & HN).
      destruct (HT t0 Hint) as (A & B & C & HTr).
      assert (H3 : exists r', third_corner t0 p w r').
      { apply edge_eqb_spec in Ek. assert (J : joins p w e) by (unfold joins in *; destruct e as (e1, e2); cbn [fst snd] in Ek; destruct Hw as [->| ->], Ek as [E'|E']; injection E' as -> ->; auto).
        destruct (joined A B C t0 e HTr Hee) as [J'|[J'|J']].
        - exists C, A, B, C. split; [exact HTr|]. destruct J as [->| ->], J' as [J'|J']; injection J' as -> ->; first [apply Permutation_refl|apply perm_swap].
        - exists A, A, B, C. split; [exact HTr|]. destruct J as [->| ->], J' as [J'|J']; injection J' as -> ->.
          + apply (Permutation_cons_append [_; _]).
          + eapply Permutation_trans; [apply (Permutation_cons_append [_; _])|apply perm_swap].
          + eapply Permutation_trans; [apply (Permutation_cons_append [_; _])|apply perm_swap].
          + apply (Permutation_cons_append [_; _]).
        - exists B, A, B, C. split; [exact HTr|]. destruct J as [->| ->], J' as [J'|J']; injection J' as -> ->.
          + eapply Permutation_trans; [apply perm_skip, perm_swap|apply perm_swap].
          + apply perm_skip, perm_swap.
          + apply perm_skip, perm_swap.
          + eapply Permutation_trans; [apply perm_skip, perm_swap|apply perm_swap]. }
      destruct H3 as (r' & H3).
      destruct (H2 t0 w r' Hint H3) as [Two|(HS & HF)].
      { pose proof (two_stored tris p w k Two Hw) as X. rewrite (stored_entry _ k [t0] (distinct_all tris) Hin) in X. cbn [length] in X. lia. }
      destruct (center_of_triangle t0) as [m| |] eqn:Em; [|unfold single_side in Eo; rewrite Em in Eo; discriminate|unfold single_side in Eo; rewrite Em in Eo; discriminate].
      destruct (Hc0 t0 (or_introl eq_refl) m Em) as (I0 & N0). destruct (third_center t0 p w r' m H3 Em) as (S1 & S2 & _).
      assert (HCm : center_of t0 m) by (destruct (center_sq A B C t0 m HTr Em) as (Q1 & Q2); exists A, B, C; auto using sq_distance).
      specialize (HF m HCm). specialize (HS q Hq).
      assert (Ho : exists c', single_side b k t0 = Ok (Some (m, c')) /\ sq c' p <= sq c' q).
      { destruct Hw as [->| ->].
        - destruct (single_outward b p w r' t0 m H3 Em I0 HF) as (c' & Ec & Hc'). exists c'. split; [exact Ec|]. exact (Hc' q HS N0).
        - assert (H3' : third_corner t0 w p r') by (destruct H3 as (A' & B' & C' & X1 & X2); exists A', B', C'; split; [exact X1|]; eapply Permutation_trans; [exact X2|apply perm_swap]).
          assert (HF' : / 10000 <= distance2 m (middle w p)) by (replace (middle w p) with (middle p w) by (unfold middle; f_equal; lra); exact HF).
          destruct (single_outward b w p r' t0 m H3' Em I0 HF') as (c' & Ec & Hc'). exists c'. split; [exact Ec|].
          assert (Sw : sq c' w = sq c' p).
          { apply (single_sq b (w, p) t0 m c'); [|exact Ec]. intros c0 E0. rewrite Em in E0. injection E0 as <-. cbn [fst snd]. congruence. }
          rewrite <- Sw. apply Hc'; [|rewrite <- S1; exact N0].
          replace (orient w p q * orient w p r') with (orient p w q * orient p w r') by (unfold orient; ring). exact HS. }
      destruct Ho as (c' & Ec & Hc'). rewrite Ec in Eo. injection Eo as <-. injection El as <-. destruct Hc as [<-|[<-|Hc]]; [exact N0|exact Hc'|exact (IH Hc)].
    - unfold double_side in Eo. destruct (center_of_triangle t0) as [m0| |] eqn:E0; try discriminate. destruct (center_of_triangle t1) as [m1| |] eqn:E1; try discriminate. cbn [obind] in Eo.
      destruct (Hc0 t0 (or_introl eq_refl) m0 E0) as (I0 & N0). destruct (Hc0 t1 (or_intror (or_introl eq_refl)) m1 E1) as (I1 & N1).
      rewrite I0, I1 in Eo. injection Eo as <-. injection El as <-. destruct Hc as [<-|[<-|Hc]]; [exact N0|exact N1|exact (IH Hc)]. }
  apply (G _ l (fun x Hx => cell_entries order tris p x HP Hx) El X).
Qed.
Print Assumptions C109_hull_partial.

(** ** A right triangle *)
Definition ra : p2 := (0, 0).
Definition rb : p2 := (2, 0).
Definition rc : p2 := (0, 4).
(** the triangle as push_triangles builds it when the points are inserted in the order ra, rb, rc *)
Definition right_triangle : triangle := ((rb, ra), (rc, rb), (rc, ra)).
Definition outline : list p2 := [(-15, 10); (10, -15); (5, 5)].
Definition sorted_outline : list p2 := [(-15, 10); (5, 5); (10, -15)].

Lemma outline_points : polygon_points outline = sorted_outline.
Proof.
  unfold polygon_points, angles_points.
  assert (EC : center_of_points outline = (0, 0)).
  { unfold center_of_points, outline. cbn [map length fold_left px py fst snd INR]. f_equal; field. }
  rewrite EC. unfold outline. cbn [fold_left]. unfold px, py. cbn [fst snd]. rewrite !Rminus_0_r.
  rewrite (atan2_pos (-15) 10), (atan2_neg_pos 10 (-15)), (atan2_pos 5 5) by lra.
  replace (-15 / 10) with (- (3 / 2)) by field. replace (10 / -15) with (- (2 / 3)) by field. replace (5 / 5) with 1 by field.
  rewrite !atan_opp, atan_1. pose proof PI_4. pose proof PI2_3_2. pose proof PI_RGT_0. pose proof (atan_bound (3 / 2)).
  assert (0 < atan (2 / 3)) by (rewrite <- atan_0; apply atan_increasing; lra).
  assert (atan (2 / 3) < PI / 4) by (rewrite <- atan_1; apply atan_increasing; lra).
  assert (0 < atan (3 / 2)) by (rewrite <- atan_0; apply atan_increasing; lra).
  cbn [angle_put]. repeat (rl; cbn [angle_put]).
  cbn [keep_apart]. do 3 (rl; cbn [keep_apart]). reflexivity.
Qed.
Ltac rp := unfold ra, rb, rc in *.
Ltac rg := match goal with |- context [p2_eqb ?a ?b] => rewrite (neq_points a b) by (rp; cbn [fst snd]; first [left; lra|right; lra]) end.
Ltac req := unfold edge_eqb; cbn [fst snd]; rewrite ?p2_eqb_refl; repeat rg; rewrite ?andb_false_r; cbn [andb orb]; reflexivity.
Lemma right_map : edge_to_triangle [right_triangle] = [((rb, ra), [right_triangle]); ((rc, rb), [right_triangle]); ((rc, ra), [right_triangle])].
Proof.
  unfold edge_to_triangle. cbn [fold_left]. change (triangle_edges right_triangle) with [(rb, ra); (rc, rb); (rc, ra)]. cbn [fold_left].
  repeat (cbn [edge_put]; match goal with |- context [if edge_eqb ?a ?b then _ else _] =>
    first [replace (edge_eqb a b) with true by (symmetry; req)|replace (edge_eqb a b) with false by (symmetry; req)] end). reflexivity.
Qed.
Lemma right_entries : filter (fun x => edge_contains (fst x) rb) (edge_to_triangle [right_triangle]) =
  [((rb, ra), [right_triangle]); ((rc, rb), [right_triangle])].
Proof.
  rewrite right_map. cbn [filter fst]. unfold edge_contains. cbn [fst snd]. rewrite !p2_eqb_refl, ?orb_true_r. repeat rg. reflexivity.
Qed.
Lemma right_center : center_of_triangle right_triangle = Ok (1, 2).
Proof.
  unfold center_of_triangle, circumcenter, unique_points, right_triangle, edge_contains; cbn [fst snd].
  rewrite ?p2_eqb_refl, ?orb_true_r; cbn [orb]. repeat rg. cbn [orb]. rp. pts. rq. do 2 f_equal; field.
Qed.
Ltac ri := match goal with |- context [rltb ?a ?b] => lazymatch b with context [rltb] => fail | _ => destruct (rltb_spec a b) as [(-> & ?)|(-> & ?)]; try (exfalso; lra) end end.
Lemma right_inside : point_is_inside sorted_outline (1, 2) = true.
Proof.
  unfold point_is_inside, sorted_outline. cbn [cyclic_edges combine app filter]. unfold hits.
  assert (L1 : line_parameter (@pair p2 p2 (-15, 10) (5, 5)) (1, 2) (1, 0) = Some (-1)) by par (8/5) (16).
  assert (L2 : line_parameter (@pair p2 p2 (5, 5) (10, -15)) (1, 2) (1, 0) = Some (19/4)) by par (3/20) (19/4).
  assert (L3 : line_parameter (@pair p2 p2 (10, -15) (-15, 10)) (1, 2) (1, 0) = Some (-8)) by par (17/25) (-8).
  rewrite L1, L2, L3. repeat ri. reflexivity.
Qed.
Lemma inside_a : point_is_inside sorted_outline (0, 0) = true.
Proof.
  unfold point_is_inside, sorted_outline. cbn [cyclic_edges combine app filter]. unfold hits.
  assert (L1 : line_parameter (@pair p2 p2 (-15, 10) (5, 5)) (0, 0) (1, 0) = Some (-1)) by par (2) (25).
  assert (L2 : line_parameter (@pair p2 p2 (5, 5) (10, -15)) (0, 0) (1, 0) = Some (25/4)) by par (1/4) (25/4).
  assert (L3 : line_parameter (@pair p2 p2 (10, -15) (-15, 10)) (0, 0) (1, 0) = Some (-5)) by par (3/5) (-5).
  rewrite L1, L2, L3. repeat ri. reflexivity.
Qed.
Lemma inside_b : point_is_inside sorted_outline (2, 0) = true.
Proof.
  unfold point_is_inside, sorted_outline. cbn [cyclic_edges combine app filter]. unfold hits.
  assert (L1 : line_parameter (@pair p2 p2 (-15, 10) (5, 5)) (2, 0) (1, 0) = Some (-1)) by par (2) (23).
  assert (L2 : line_parameter (@pair p2 p2 (5, 5) (10, -15)) (2, 0) (1, 0) = Some (17/4)) by par (1/4) (17/4).
  assert (L3 : line_parameter (@pair p2 p2 (10, -15) (-15, 10)) (2, 0) (1, 0) = Some (-7)) by par (3/5) (-7).
  rewrite L1, L2, L3. repeat ri. reflexivity.
Qed.
Lemma inside_c : point_is_inside sorted_outline (0, 4) = true.
Proof.
  unfold point_is_inside, sorted_outline. cbn [cyclic_edges combine app filter]. unfold hits.
  assert (L1 : line_parameter (@pair p2 p2 (-15, 10) (5, 5)) (0, 4) (1, 0) = Some (-1)) by par (6/5) (9).
  assert (L2 : line_parameter (@pair p2 p2 (5, 5) (10, -15)) (0, 4) (1, 0) = Some (21/4)) by par (1/20) (21/4).
  assert (L3 : line_parameter (@pair p2 p2 (10, -15) (-15, 10)) (0, 4) (1, 0) = Some (-9)) by par (19/25) (-9).
  rewrite L1, L2, L3. repeat ri. reflexivity.
Qed.
Lemma closest_down : closest_parameter sorted_outline (1, 2) (0, -2) = 4.
Proof.
  unfold closest_parameter, sorted_outline, cyclic_edges. cbn [combine app fold_left].
  assert (L1 : line_parameter (@pair p2 p2 (-15, 10) (5, 5)) (1, 2) (0, -2) = Some (-2)) by par (4/5) (-2).
  assert (L2 : line_parameter (@pair p2 p2 (5, 5) (10, -15)) (1, 2) (0, -2) = Some (-1)) by par (-4/5) (-19/2).
  assert (L3 : line_parameter (@pair p2 p2 (10, -15) (-15, 10)) (1, 2) (0, -2) = Some (4)) by par (9/25) (4).
  rewrite L1, L2, L3. repeat ri. reflexivity.
Qed.
Lemma closest_in : closest_parameter sorted_outline (1, 2) (-4, -2) = 4/3.
Proof.
  unfold closest_parameter, sorted_outline, cyclic_edges. cbn [combine app fold_left].
  assert (L1 : line_parameter (@pair p2 p2 (-15, 10) (5, 5)) (1, 2) (-4, -2) = Some (-1)) by par (16/15) (-4/3).
  assert (L2 : line_parameter (@pair p2 p2 (5, 5) (10, -15)) (1, 2) (-4, -2) = Some (-19/18)) by par (2/45) (-19/18).
  assert (L3 : line_parameter (@pair p2 p2 (10, -15) (-15, 10)) (1, 2) (-4, -2) = Some (4/3)) by par (43/75) (4/3).
  rewrite L1, L2, L3. repeat ri. reflexivity.
Qed.
Lemma not_again_down key : existsb (fun e' => andb (negb (edge_eqb e' key)) (param_test (fun l => rltb 1 l) (line_parameter e' (1, 2) (0, -2)))) (triangle_edges right_triangle) = false.
Proof.
  unfold right_triangle, triangle_edges. cbn [existsb].
  assert (L1 : line_parameter (@pair p2 p2 rb ra) (1, 2) (0, -2) = Some 1) by (rp; par (1/2) 1).
  assert (L2 : line_parameter (@pair p2 p2 rc rb) (1, 2) (0, -2) = Some 0) by (rp; par (1/2) 0).
  assert (L3 : line_parameter (@pair p2 p2 rc ra) (1, 2) (0, -2) = None) by (rp; unfold line_parameter; pts; rq; reflexivity).
  rewrite L1, L2, L3. cbn [param_test]. repeat rl. rewrite !andb_false_r. reflexivity.
Qed.
Lemma not_again_in key : existsb (fun e' => andb (negb (edge_eqb e' key)) (param_test (fun l => rltb 1 l) (line_parameter e' (1, 2) (-4, -2)))) (triangle_edges right_triangle) = false.
Proof.
  unfold right_triangle, triangle_edges. cbn [existsb].
  assert (L1 : line_parameter (@pair p2 p2 rb ra) (1, 2) (-4, -2) = Some (-1)) by (rp; par (5/2) 1).
  assert (L2 : line_parameter (@pair p2 p2 rc rb) (1, 2) (-4, -2) = Some 0) by (rp; par (1/2) 0).
  assert (L3 : line_parameter (@pair p2 p2 rc ra) (1, 2) (-4, -2) = Some (1/4)) by (rp; par (5/8) (1/4)).
  rewrite L1, L2, L3. cbn [param_test]. repeat rl. rewrite !andb_false_r. reflexivity.
Qed.
Lemma down_side : single_side sorted_outline (rb, ra) right_triangle = Ok (Some ((1, 2), (1, -6))).
Proof.
  unfold single_side. rewrite right_center. cbn [obind].
  match goal with |- context [if reqb (dot2 ?v ?v) 0 then _ else _] => assert (Ev : dot2 v v = 4) by (rp; pts; field); rewrite !Ev end. rq.
  match goal with |- context [rltb (Rabs (dot2 ?n ?n)) _] => replace n with ((0, -2) : p2) by (rp; pts; f_equal; field) end.
  match goal with |- context [rltb (Rabs ?x) _] => replace x with 4 by (pts; field) end.
  rewrite Rabs_right by lra. rl. rewrite not_again_down, right_inside. unfold closest_intersection. rewrite closest_down. pts. do 3 f_equal; f_equal; field.
Qed.
Lemma in_side : single_side sorted_outline (rc, rb) right_triangle = Ok (Some ((1, 2), (-13/3, -2/3))).
Proof.
  unfold single_side. rewrite right_center. cbn [obind].
  match goal with |- context [if reqb (dot2 ?v ?v) 0 then _ else _] => assert (Ev : dot2 v v = 20) by (rp; pts; field); rewrite !Ev end. rq.
  match goal with |- context [rltb (Rabs (dot2 ?n ?n)) _] => replace n with ((0, 0) : p2) by (rp; pts; f_equal; field) end.
  match goal with |- context [rltb (Rabs ?x) _] => replace x with 0 by (pts; field) end.
  rewrite Rabs_R0. rl.
  match goal with |- context [existsb (fun e' => andb _ (param_test _ (line_parameter e' _ ?n))) _] => replace n with ((-4, -2) : p2) by (rp; pts; f_equal; field) end.
  rewrite not_again_in, right_inside. unfold closest_intersection. rewrite closest_in. pts. do 3 f_equal; f_equal; field.
Qed.
Lemma cell_sorted : polygon_points [(1, 2); (1, -6); (1, 2); (-13/3, -2/3)] = [(-13/3, -2/3); (1, 2); (1, -6)].
Proof.
  unfold polygon_points, angles_points.
  assert (EC : center_of_points [(1, 2); (1, -6); (1, 2); (-13/3, -2/3)] = (-1/3, -2/3)).
  { unfold center_of_points. cbn [map length fold_left px py fst snd INR]. f_equal; field. }
  rewrite EC. cbn [fold_left]. unfold px, py. cbn [fst snd].
  rewrite (atan2_pos (1 - -1/3) (2 - -2/3)), (atan2_neg_pos (1 - -1/3) (-6 - -2/3)) by lra.
  assert (E2 : atan2 (-13/3 - -1/3) (-2/3 - -2/3) = - PI / 2) by (unfold atan2; repeat rl; lra).
  rewrite E2.
  replace ((1 - -1/3) / (2 - -2/3)) with (/ 2) by field. replace ((1 - -1/3) / (-6 - -2/3)) with (- (/ 4)) by field.
  rewrite atan_opp. pose proof PI_4. pose proof PI2_3_2. pose proof PI_RGT_0. pose proof (atan_bound (/ 2)). 
  assert (0 < atan (/ 4)) by (rewrite <- atan_0; apply atan_increasing; lra).
  assert (atan (/ 4) < PI / 4) by (rewrite <- atan_1; apply atan_increasing; lra).
  assert (0 < atan (/ 2)) by (rewrite <- atan_0; apply atan_increasing; lra).
  assert (atan (/ 2) < PI / 4) by (rewrite <- atan_1; apply atan_increasing; lra).
  cbn [angle_put]. repeat (rl; cbn [angle_put]).
  cbn [keep_apart]. do 3 (rl; cbn [keep_apart]). reflexivity.
Qed.
Lemma distance_line x0 y0 x1 y1 x y : 0 < (x1 - x0) * (x1 - x0) + (y1 - y0) * (y1 - y0) ->
  edge_distance (@pair p2 p2 (x0, y0) (x1, y1)) (x, y) =
  Some (sqrt (((x - x0) * (y1 - y0) - (y - y0) * (x1 - x0)) * ((x - x0) * (y1 - y0) - (y - y0) * (x1 - x0)) / ((x1 - x0) * (x1 - x0) + (y1 - y0) * (y1 - y0)))).
Proof. intros H. unfold edge_distance. pts. rq. do 2 f_equal. field. lra. Qed.
Lemma off_line q : 1 <= q -> rltb (sqrt q) (/ 100000000) = false.
Proof. intros H. assert (1 <= sqrt q) by (rewrite <- sqrt_1; apply sqrt_le_1; lra). rl. reflexivity. Qed.
Lemma on_line q : q = 0 -> rltb (sqrt q) (/ 100000000) = true.
Proof. intros ->. rewrite sqrt_0. rl. reflexivity. Qed.
Ltac idx := unfold edge_index, sorted_outline; cbn [cyclic_edges combine app edge_index_from]; rewrite !distance_line by lra; cbn [param_test];
  repeat first [rewrite off_line by lra|rewrite on_line by lra]; reflexivity.
Lemma right_cell : voronoi_cell (fun m => m) sorted_outline [right_triangle] rb = Ok [(-13/3, -2/3); (1, 2); (1, -6)].
Proof.
  unfold voronoi_cell. rewrite right_entries. cbn [voronoi_points]. unfold voronoi_edge. cbn [fst snd]. rewrite down_side, in_side. cbn [obind].
  change (add_intersection sorted_outline rb (polygon_points [(1, 2); (1, -6); (1, 2); (-13/3, -2/3)]) = Ok [(-13/3, -2/3); (1, 2); (1, -6)]).
  rewrite cell_sorted. unfold add_intersection.
  assert (I1 : edge_index sorted_outline (-13/3, -2/3) = 2%Z) by idx.
  assert (I2 : edge_index sorted_outline (1, 2) = (-1)%Z) by idx.
  assert (I3 : edge_index sorted_outline (1, -6) = 2%Z) by idx.
  cbn [filter]. rewrite I1, I2, I3. cbn [Z.eqb negb length Nat.eqb seq boundary_loop nth_error]. change ((0 + 1) mod 3)%nat with 1%nat. change ((1 + 1) mod 3)%nat with 2%nat. change ((2 + 1) mod 3)%nat with 0%nat. cbn [nth_error].
  rewrite I1, I2, I3. reflexivity.
Qed.

Lemma right_corners A B C : is_triangle A B C right_triangle -> Permutation [A; B; C] [ra; rb; rc].
Proof.
  assert (G : forall X Y Z : p2, X <> Y -> Y <> Z -> Z <> X -> is_triangle A B C ((Y, X), (Z, Y), (Z, X)) -> Permutation [A; B; C] [X; Y; Z]).
  { intros X Y Z N1 N2 N3 (e0 & e1 & e2 & E & J0 & J1 & J2). injection E as <- <- <-.
    destruct J0 as [E0|E0], J1 as [E1|E1], J2 as [E2|E2]; injection E0 as <- <-; injection E1; injection E2; intros; subst; try congruence; try apply Permutation_refl.
    all: try (exfalso; congruence). }
  apply G; rp; intros E; injection E; intros; lra.
Qed.

Lemma right_delaunay : delaunay [right_triangle] [ra; rb; rc].
Proof.
  intros t A B C m q [<-|[]] (e0 & e1 & e2 & E & J0 & J1 & J2) D1 D2 Hq. apply distance_sq in D1. apply distance_sq in D2. apply distance_sq_le.
  assert (H3 : Permutation [A; B; C] [ra; rb; rc]) by (apply right_corners; exists e0, e1, e2; auto).
  assert (G : forall W, In W [ra; rb; rc] -> sq m W = sq m A).
  { intros W HW. apply (Permutation_in W (Permutation_sym H3)) in HW. destruct HW as [<-|[<-|[<-|[]]]]; congruence. }
  rewrite <- (G q Hq). lra.
Qed.

(** Finding: a right triangle with its longest side at the hull.  Its circumcenter lies on that side, the direction of the edge of the
    Voronoi cell is then chosen by the order of the two ends of the side, and the test that should turn it around looks for a
    crossing beyond the side itself, with a parameter above 1, that a right triangle never has.  With the triangle that the
    triangulation builds from the points (0, 0), (2, 0), (0, 4) in this order, the edge between (2, 0) and (0, 4) runs back through
    the triangle: the cell of (2, 0) gets a corner that is closer to (0, 0), and (2, 0) is not in its own cell: all corners of the
    cell have an x coordinate of at most 1. *)
Theorem C109_right_triangle_refuted : exists boundary tris pts p q m cell,
  delaunay tris pts /\ (forall t, In t tris -> exists A B C, is_triangle A B C t) /\
  (forall x, In x pts -> point_is_inside (polygon_points boundary) x = true) /\ In p pts /\ In q pts /\
  voronoi_cell (fun e => e) (polygon_points boundary) tris p = Ok cell /\ In m cell /\ distance2 m q < distance2 m p /\
  (forall x, In x cell -> fst x + 1 <= fst p).
Proof.
  exists outline, [right_triangle], [ra; rb; rc], rb, ra, (-13/3, -2/3), [(-13/3, -2/3); (1, 2); (1, -6)]. rewrite outline_points.
  split; [|split; [|split; [|split; [|split; [|split; [exact right_cell|split; [now left|split]]]]]]].
  - exact right_delaunay.
  - intros t [<-|[]]. exists ra, rb, rc. do 3 eexists. split; [reflexivity|]. unfold joins. auto.
  - intros x [<-|[<-|[<-|[]]]]; [exact inside_a|exact inside_b|exact inside_c].
  - cbn; auto.
  - cbn; auto.
  - rp. unfold distance2, Rsqr. cbn [fst snd]. apply sqrt_lt_1; lra.
  - intros x [<-|[<-|[<-|[]]]]; rp; cbn [fst snd]; lra.
Qed.
Print Assumptions C109_right_triangle_refuted.

(** The hypotheses of C109_hull_partial hold for the corner with the right angle: both edges at this corner belong to one triangle,
    and its cell reaches from the circumcenter to the boundary. *)
Lemma closest_left : closest_parameter sorted_outline (1, 2) (-1, 0) = 8.
Proof.
  unfold closest_parameter, sorted_outline, cyclic_edges. cbn [combine app fold_left].
  assert (L1 : line_parameter (@pair p2 p2 (-15, 10) (5, 5)) (1, 2) (-1, 0) = Some (-1)) by par (8/5) (-16).
  assert (L2 : line_parameter (@pair p2 p2 (5, 5) (10, -15)) (1, 2) (-1, 0) = Some (-19/4)) by par (3/20) (-19/4).
  assert (L3 : line_parameter (@pair p2 p2 (10, -15) (-15, 10)) (1, 2) (-1, 0) = Some (8)) by par (17/25) (8).
  rewrite L1, L2, L3. repeat ri. reflexivity.
Qed.
Lemma not_again_left key : existsb (fun e' => andb (negb (edge_eqb e' key)) (param_test (fun l => rltb 1 l) (line_parameter e' (1, 2) (-1, 0)))) (triangle_edges right_triangle) = false.
Proof.
  unfold right_triangle, triangle_edges. cbn [existsb].
  assert (L1 : line_parameter (@pair p2 p2 rb ra) (1, 2) (-1, 0) = None) by (rp; unfold line_parameter; pts; rq; reflexivity).
  assert (L2 : line_parameter (@pair p2 p2 rc rb) (1, 2) (-1, 0) = Some 0) by (rp; par (1/2) 0).
  assert (L3 : line_parameter (@pair p2 p2 rc ra) (1, 2) (-1, 0) = Some 1) by (rp; par (1/2) 1).
  rewrite L1, L2, L3. cbn [param_test]. repeat rl. rewrite !andb_false_r. reflexivity.
Qed.
Lemma left_side : single_side sorted_outline (rc, ra) right_triangle = Ok (Some ((1, 2), (-7, 2))).
Proof.
  unfold single_side. rewrite right_center. cbn [obind].
  match goal with |- context [if reqb (dot2 ?v ?v) 0 then _ else _] => assert (Ev : dot2 v v = 16) by (rp; pts; field); rewrite !Ev end. rq.
  match goal with |- context [rltb (Rabs (dot2 ?n ?n)) _] => replace n with ((-1, 0) : p2) by (rp; pts; f_equal; field) end.
  match goal with |- context [rltb (Rabs ?x) _] => replace x with 1 by (pts; field) end.
  rewrite Rabs_right by lra. rl. rewrite not_again_left, right_inside. unfold closest_intersection. rewrite closest_left. pts. do 3 f_equal; f_equal; field.
Qed.
Lemma corner_entries : filter (fun x => edge_contains (fst x) ra) (edge_to_triangle [right_triangle]) =
  [((rb, ra), [right_triangle]); ((rc, ra), [right_triangle])].
Proof.
  rewrite right_map. cbn [filter fst]. unfold edge_contains. cbn [fst snd]. rewrite !p2_eqb_refl, ?orb_true_r. repeat rg. reflexivity.
Qed.
Lemma corner_sorted : polygon_points [(1, 2); (1, -6); (1, 2); (-7, 2)] = [(-7, 2); (1, 2); (1, -6)].
Proof.
  unfold polygon_points, angles_points.
  assert (EC : center_of_points [(1, 2); (1, -6); (1, 2); (-7, 2)] = (-1, 0)).
  { unfold center_of_points. cbn [map length fold_left px py fst snd INR]. f_equal; field. }
  rewrite EC. cbn [fold_left]. unfold px, py. cbn [fst snd].
  rewrite (atan2_pos (1 - -1) (2 - 0)), (atan2_neg_pos (1 - -1) (-6 - 0)), (atan2_pos (-7 - -1) (2 - 0)) by lra.
  replace ((1 - -1) / (2 - 0)) with 1 by field. replace ((1 - -1) / (-6 - 0)) with (- (/ 3)) by field. replace ((-7 - -1) / (2 - 0)) with (- (3)) by field.
  rewrite !atan_opp, atan_1. pose proof PI_4. pose proof PI2_3_2. pose proof PI_RGT_0. pose proof (atan_bound 3).
  assert (0 < atan (/ 3)) by (rewrite <- atan_0; apply atan_increasing; lra).
  assert (atan (/ 3) < PI / 4) by (rewrite <- atan_1; apply atan_increasing; lra).
  assert (PI / 4 < atan 3) by (rewrite <- atan_1; apply atan_increasing; lra).
  cbn [angle_put]. repeat (rl; cbn [angle_put]).
  cbn [keep_apart]. do 3 (rl; cbn [keep_apart]). reflexivity.
Qed.
Lemma corner_cell : voronoi_cell (fun m => m) sorted_outline [right_triangle] ra = Ok [(-7, 2); (1, 2); (1, -6)].
Proof.
  unfold voronoi_cell. rewrite corner_entries. cbn [voronoi_points]. unfold voronoi_edge. cbn [fst snd]. rewrite down_side, left_side. cbn [obind].
  change (add_intersection sorted_outline ra (polygon_points [(1, 2); (1, -6); (1, 2); (-7, 2)]) = Ok [(-7, 2); (1, 2); (1, -6)]).
  rewrite corner_sorted. unfold add_intersection.
  assert (I1 : edge_index sorted_outline (-7, 2) = 2%Z) by idx.
  assert (I2 : edge_index sorted_outline (1, 2) = (-1)%Z) by idx.
  assert (I3 : edge_index sorted_outline (1, -6) = 2%Z) by idx.
  cbn [filter]. rewrite I1, I2, I3. cbn [Z.eqb negb length Nat.eqb seq boundary_loop nth_error]. change ((0 + 1) mod 3)%nat with 1%nat. change ((1 + 1) mod 3)%nat with 2%nat. change ((2 + 1) mod 3)%nat with 0%nat. cbn [nth_error].
  rewrite I1, I2, I3. reflexivity.
Qed.
Lemma right_center_of m : center_of right_triangle m -> m = (1, 2).
Proof.
  intros (A & B & C & HT & D1 & D2). apply distance_sq in D1. apply distance_sq in D2. pose proof (right_corners A B C HT) as P.
  assert (G : forall W, In W [ra; rb; rc] -> sq m W = sq m A).
  { intros W HW. apply (Permutation_in W (Permutation_sym P)) in HW. destruct HW as [<-|[<-|[<-|[]]]]; congruence. }
  assert (E1 : sq m ra = sq m rb) by (rewrite (G ra), (G rb) by (cbn; auto); reflexivity). assert (E2 : sq m ra = sq m rc) by (rewrite (G ra), (G rc) by (cbn; auto); reflexivity).
  clear - E1 E2. destruct m as [m1 m2]. unfold sq in *. rp. cbn [fst snd] in *. f_equal; lra.
Qed.
Example C109_hull_case : (forall t, In t [right_triangle] -> exists A B C, is_triangle A B C t) /\ delaunay [right_triangle] [ra; rb; rc] /\
  (forall t q r, In t [right_triangle] -> third_corner t ra q r -> in_two [right_triangle] ra q \/
    ((forall x, In x [ra; rb; rc] -> 0 <= orient ra q x * orient ra q r) /\ forall m, center_of t m -> / 10000 <= distance2 m (middle ra q))) /\
  (forall t m, In t [right_triangle] -> corner_of t ra -> center_of t m -> point_is_inside (polygon_points outline) m = true) /\
  voronoi_cell (fun m => m) (polygon_points outline) [right_triangle] ra = Ok [(-7, 2); (1, 2); (1, -6)] /\
  ~ In (-7, 2) outline.
Proof.
  rewrite outline_points. split; [|split; [exact right_delaunay|split; [|split; [|split; [exact corner_cell|]]]]].
  - intros t [<-|[]]. exists ra, rb, rc. do 3 eexists. split; [reflexivity|]. unfold joins. auto.
  - intros t q r [<-|[]] (A & B & C & HT & P). right. pose proof (Permutation_trans (Permutation_sym (right_corners A B C HT)) P) as P'.
    apply Permutation_cons_inv in P'. apply Permutation_length_2_inv in P'. split.
    + intros x [<-|[<-|[<-|[]]]]; destruct P' as [E|E]; injection E as -> ->; unfold orient; rp; cbn [fst snd]; lra.
    + intros m Hm. rewrite (right_center_of m Hm). unfold distance2, middle, Rsqr. destruct P' as [E|E]; injection E as -> ->; rp; cbn [fst snd];
        (rewrite <- (sqrt_square (/ 10000)) by lra); apply sqrt_le_1; lra.
  - intros t m [<-|[]] _ Hm. rewrite (right_center_of m Hm). exact right_inside.
  - unfold outline. intros [E|[E|[E|[]]]]; injection E; intros; lra.
Qed.
