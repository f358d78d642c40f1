(** C69 circumscribed circle, C70 point in polygon, C79 memory safety of the Delaunay triangulation. *)
From Coq Require Import Reals List Bool Arith Lia Lra Psatz.
From Verif Require Import Outcome AdaptiveModel AdaptiveProofs CollisionModel CollisionProofs2 DelaunayModel DelaunaySpec
  DelaunayProofs DelaunayProofs2 DelaunayProofs3 StarProofs2 StarProofs3.
Import ListNotations.
Local Open Scope R_scope.

(** ** C69 *)
(** [t] is made of three edges of the triangle A B C, the second one not the first one reversed; each edge in any direction *)
Definition edges_of_triangle (A B C : p2) (t : triangle) : Prop :=
  exists e0 e1 e2, t = (e0, e1, e2) /\ (e0 = (A, B) \/ e0 = (B, A)) /\
    (e1 = (B, C) \/ e1 = (C, B) \/ e1 = (A, C) \/ e1 = (C, A)).

Lemma p2_neq : forall A B : p2, A <> B -> p2_eqb A B = false.
Proof. intros A B H. destruct (p2_eqb A B) eqn:E; trivial. apply p2_eqb_spec in E. contradiction. Qed.
Lemma orient_neq : forall A B C, orient A B C <> 0 -> A <> B /\ C <> A /\ C <> B.
Proof.
  intros A B C H. unfold orient in H. split; [|split]; intros ->; apply H; ring.
Qed.
Lemma unique_of : forall A B C t, orient A B C <> 0 -> edges_of_triangle A B C t ->
  unique_points t = (A, B, C) \/ unique_points t = (B, A, C).
Proof.
  intros A B C t HO (e0 & e1 & e2 & -> & H0 & H1). destruct (orient_neq A B C HO) as (N1 & N2 & N3).
  unfold unique_points, edge_contains.
  destruct H0 as [->| ->]; [left|right];
    destruct H1 as [->|[->|[->| ->]]]; cbn [fst snd]; rewrite ?p2_eqb_refl, ?orb_true_r; cbn [orb]; trivial;
    rewrite (p2_neq A C), (p2_neq B C) by congruence; reflexivity.
Qed.
Lemma circum_center : forall A B C, orient A B C <> 0 ->
  let d := 2 * (px A * (py B - py C) + px B * (py C - py A) + px C * (py A - py B)) in
  d <> 0 /\ d = 2 * orient A B C.
Proof.
  intros [a1 a2] [b1 b2] [c1 c2] H. unfold orient, px, py in *. cbn [fst snd] in *. cbv zeta.
  split; [|ring]. intro E. apply H. nra.
Qed.
(** power of a point with respect to the circle around O through A *)
Definition power (O A D : p2) : R := (px O - px A)² + (py O - py A)² - ((px O - px D)² + (py O - py D)²).
Lemma center_of : forall A B C t, orient A B C <> 0 -> unique_points t = (A, B, C) ->
  let O := circumcenter t in power O A B = 0 /\ power O A C = 0.
Proof.
  intros A B C t HO EU. destruct (circum_center A B C HO) as (Hd & _). unfold circumcenter. rewrite EU.
  destruct A as [a1 a2], B as [b1 b2], C as [c1 c2]. unfold power, dot2, px, py, Rsqr in *. cbn [fst snd] in *. cbv zeta in *.
  split; field; intro E; apply Hd; lra.
Qed.
Lemma det_power : forall O A B C D, power O A B = 0 -> power O A C = 0 ->
  (let '(a, b, c) := circle_row A D in let '(d, e, f) := circle_row B D in let '(g, h, i) := circle_row C D in
   det3 a b c d e f g h i) = power O A D * orient A B C.
Proof.
  intros [o1 o2] [a1 a2] [b1 b2] [c1 c2] [d1 d2] HB HC. unfold power, circle_row, det3, orient, px, py, Rsqr in *. cbn [fst snd] in *.
  assert (EB : b1 * b1 - d1 * d1 + b2 * b2 - d2 * d2 =
    2 * o1 * (b1 - d1) + 2 * o2 * (b2 - d2) +
    ((o1 - a1) * (o1 - a1) + (o2 - a2) * (o2 - a2) - ((o1 - d1) * (o1 - d1) + (o2 - d2) * (o2 - d2)))) by lra.
  assert (EC : c1 * c1 - d1 * d1 + c2 * c2 - d2 * d2 =
    2 * o1 * (c1 - d1) + 2 * o2 * (c2 - d2) +
    ((o1 - a1) * (o1 - a1) + (o2 - a2) * (o2 - a2) - ((o1 - d1) * (o1 - d1) + (o2 - d2) * (o2 - d2)))) by lra.
  rewrite EB, EC. ring.
Qed.
Lemma dist_power : forall O A D, distance2 O D < distance2 O A <-> 0 < power O A D.
Proof.
  intros O A D. unfold distance2, power, px, py.
  set (a := (fst O - fst A)² + (snd O - snd A)²). set (d := (fst O - fst D)² + (snd O - snd D)²).
  assert (0 <= a) by (unfold a; pose proof (Rle_0_sqr (fst O - fst A)); pose proof (Rle_0_sqr (snd O - snd A)); lra).
  assert (0 <= d) by (unfold d; pose proof (Rle_0_sqr (fst O - fst D)); pose proof (Rle_0_sqr (snd O - snd D)); lra).
  split; intro HH.
  - assert (d < a); [|lra]. now apply sqrt_lt_0_alt.
  - apply sqrt_lt_1; lra.
Qed.
Lemma dist_power0 : forall O A D, power O A D = 0 -> distance2 O A = distance2 O D.
Proof. intros O A D H. unfold distance2. f_equal. unfold power, px, py in H. lra. Qed.

Lemma contains_power : forall A B C t D, orient A B C <> 0 -> unique_points t = (A, B, C) ->
  circle_contains t D = true <-> 0 < power (circumcenter t) A D.
Proof.
  intros A B C t D HO EU. destruct (center_of A B C t HO EU) as (PB & PC).
  set (O := circumcenter t) in *. clearbody O. unfold circle_contains. rewrite EU.
  change (px (sub2 B A) * py (sub2 C A) - py (sub2 B A) * px (sub2 C A)) with (orient A B C).
  assert (Corner : D = A \/ D = B \/ D = C -> power O A D = 0).
  { intros [->|[->| ->]]; trivial. unfold power. ring. }
  destruct (rltb_spec (orient A B C) 0) as [(-> & Hs)|(-> & Hs)].
  - destruct (p2_eqb A D || (p2_eqb C D || p2_eqb B D)) eqn:EC.
    + split; [discriminate|]. rewrite !orb_true_iff, !p2_eqb_spec in EC. rewrite Corner by intuition. lra.
    + pose proof (det_power O A C B D PC PB) as E.
      destruct (circle_row A D) as [[a b] c], (circle_row C D) as [[d e] f], (circle_row B D) as [[g h] i]. rewrite E.
      replace (orient A C B) with (- orient A B C) by (unfold orient; ring).
      destruct (rltb_spec 0 (power O A D * - orient A B C)) as [(-> & H)|(-> & H)]; split; trivial; try discriminate; intro; nra.
  - destruct (p2_eqb A D || (p2_eqb B D || p2_eqb C D)) eqn:EC.
    + split; [discriminate|]. rewrite !orb_true_iff, !p2_eqb_spec in EC. rewrite Corner by intuition. lra.
    + pose proof (det_power O A B C D PB PC) as E.
      destruct (circle_row A D) as [[a b] c], (circle_row B D) as [[d e] f], (circle_row C D) as [[g h] i]. rewrite E.
      destruct (rltb_spec 0 (power O A D * orient A B C)) as [(-> & H)|(-> & H)]; split; trivial; try discriminate; intro; nra.
Qed.

(** The circumcenter is equally far from the three corners, and CircumcircleContainsPoint is true exactly for the points closer
    to it than the corners; the corners may be listed in any order (no sign is required of [orient A B C]). *)
Theorem C69_circumcircle : forall A B C t, orient A B C <> 0 -> edges_of_triangle A B C t ->
  let O := circumcenter t in
  distance2 O A = distance2 O B /\ distance2 O A = distance2 O C /\
  forall D, circle_contains t D = true <-> distance2 O D < distance2 O A.
Proof.
  intros A B C t HO HT O. destruct (unique_of A B C t HO HT) as [EU|EU].
  - destruct (center_of A B C t HO EU) as (PB & PC). split; [now apply dist_power0|]. split; [now apply dist_power0|].
    intro D. rewrite dist_power. now apply (contains_power A B C).
  - assert (HO' : orient B A C <> 0).
    { intro E. apply HO. unfold orient in *. nra. }
    destruct (center_of B A C t HO' EU) as (PB & PC). apply dist_power0 in PB. apply dist_power0 in PC. fold O in PB, PC.
    split; [congruence|]. split; [congruence|]. intro D. rewrite <- PB, dist_power. now apply (contains_power B A C).
Qed.
Print Assumptions C69_circumcircle.
Example C69_example : let t : triangle := (((0, 0), (2, 0)), ((0, 2), (2, 0)), ((0, 2), (0, 0))) in
  orient (0, 0) (2, 0) (0, 2) <> 0 /\ edges_of_triangle (0, 0) (2, 0) (0, 2) t /\
  circle_contains t (1, 2) = true /\ circle_contains t (2, 2) = false.
Proof.
  cbv zeta. assert (HO : orient (0, 0) (2, 0) (0, 2) <> 0) by (unfold orient; cbn [fst snd]; lra). split; trivial.
  assert (HT : edges_of_triangle (0, 0) (2, 0) (0, 2) (((0, 0), (2, 0)), ((0, 2), (2, 0)), ((0, 2), (0, 0)))).
  { eexists _, _, _. split; [reflexivity|]. auto. }
  split; trivial. 
  assert (EU : unique_points (((0, 0), (2, 0)), ((0, 2), (2, 0)), ((0, 2), (0, 0))) = ((0, 0), (2, 0), (0, 2))).
  { destruct (unique_of _ _ _ _ HO HT) as [E|E]; trivial. exfalso. apply (f_equal (fun x => px (fst (fst x)))) in E. unfold px in E. cbn in E. lra. }
  assert (EO : circumcenter (((0, 0), (2, 0)), ((0, 2), (2, 0)), ((0, 2), (0, 0))) = (1, 1)).
  { unfold circumcenter. rewrite EU. unfold dot2, px, py. cbn [fst snd]. f_equal; field. }
  split.
  - apply (contains_power _ _ _ _ _ HO EU). rewrite EO. unfold power, px, py, Rsqr. cbn [fst snd]. lra.
  - apply not_true_iff_false. intro H. apply (contains_power _ _ _ _ _ HO EU) in H. rewrite EO in H.
    unfold power, px, py, Rsqr in H. cbn [fst snd] in H. lra.
Qed.

(** ** C70 *)
(** For a strictly convex polygon whose corners are stored in either direction and a point that is not at the height of a corner,
    PointIsInside tells the inside from the outside. *)
Theorem C70_convex_partial : forall s ps P, s = 1 \/ s = -1 -> strictly_convex s ps ->
  (forall A, In A ps -> snd A <> snd P) ->
  (strictly_inside s ps P -> point_is_inside ps P = true) /\
  (strictly_outside s ps P -> point_is_inside ps P = false).
Proof.
  intros s ps P Hs (HL & ND & HC) HG. unfold point_is_inside. rewrite parity_count.
  assert (HG' : forall b, In b ps -> generic P b) by exact HG.
  destruct Hs as [->| ->].
  - destruct (convex_ccw ps P HL ND) as (X & Y); trivial.
    + intros A B C HE Hc N1 N2. apply side_of_edges in HE. specialize (HC A B C HE Hc N1 N2). lra.
    + split.
      * intro H. apply X. intros A B HE. apply side_of_edges in HE. specialize (H A B HE). lra.
      * intros (A & B & HE & H). apply (Y A B); [now apply side_of_edges|lra].
  - destruct (convex_cw ps P HL ND) as (X & Y); trivial.
    + intros A B C HE Hc N1 N2. apply side_of_edges in HE. specialize (HC A B C HE Hc N1 N2). lra.
    + split.
      * intro H. apply X. intros A B HE. apply side_of_edges in HE. specialize (H A B HE). lra.
      * intros (A & B & HE & H). apply (Y A B); [now apply side_of_edges|lra].
Qed.
Print Assumptions C70_convex_partial.

Lemma side_square : forall a b c d A B : p2, side_of [a; b; c; d] A B ->
  (A = a /\ B = b) \/ (A = b /\ B = c) \/ (A = c /\ B = d) \/ (A = d /\ B = a).
Proof.
  intros a b c d A B (i & H1 & H2). destruct i as [|[|[|[|i]]]]; cbn [nth_error length] in *.
  - injection H1 as <-. destruct H2 as [H2|(H2 & _)]; [injection H2 as <-; auto|discriminate].
  - injection H1 as <-. destruct H2 as [H2|(H2 & _)]; [injection H2 as <-; auto|discriminate].
  - injection H1 as <-. destruct H2 as [H2|(H2 & _)]; [injection H2 as <-; auto|discriminate].
  - injection H1 as <-. destruct H2 as [H2|(_ & H2)]; [discriminate|injection H2 as <-; auto 6].
  - destruct i; discriminate.
Qed.
Ltac pneq := let E := fresh in intro E; apply (f_equal (fun p : R * R => (fst p, snd p))) in E; cbn [fst snd] in E; injection E; intros; lra.
Example C70_square : let ps := [(0, 0); (1, 0); (1, 1); (0, 1)] in
  strictly_convex 1 ps /\ strictly_inside 1 ps (1 / 2, 1 / 3) /\ strictly_outside 1 ps (2, 1 / 3) /\
  (forall A, In A ps -> snd A <> 1 / 3).
Proof.
  cbv zeta. split; [|split; [|split]].
  - split; [cbn; lia|]. split.
    + repeat (apply NoDup_cons; [cbn [In]; let H := fresh in intro H; repeat destruct H as [H|H]; try contradiction; revert H; pneq|]). apply NoDup_nil.
    + intros A B C HE HC N1 N2. apply side_square in HE. cbn [In] in HC.
      destruct HE as [(-> & ->)|[(-> & ->)|[(-> & ->)|(-> & ->)]]]; destruct HC as [<-|[<-|[<-|[<-|[]]]]]; try congruence;
        unfold orient; cbn [fst snd]; lra.
  - intros A B HE. apply side_square in HE.
    destruct HE as [(-> & ->)|[(-> & ->)|[(-> & ->)|(-> & ->)]]]; unfold orient; cbn [fst snd]; lra.
  - exists (1, 0), (1, 1). split; [exists 1%nat; cbn; auto|]. unfold orient; cbn [fst snd]; lra.
  - intros A [<-|[<-|[<-|[<-|[]]]]]; cbn [snd]; lra.
Qed.

(** The same for every polygon that is star-shaped around some point, convex or not: the point is inside if it lies in the triangle
    of the center and a side, and not on the side.  Missing for the full claim: points at the height of a corner (refuted below) *)
Theorem C70_star_partial : forall s c ps P, s = 1 \/ s = -1 -> star_shaped s c ps -> (forall A, In A ps -> snd A <> snd P) ->
  (star_inside s c ps P -> point_is_inside ps P = true) /\ (star_outside s c ps P -> point_is_inside ps P = false).
Proof. exact star_theorem. Qed.
Print Assumptions C70_star_partial.

(** The constructor sorts the points around their mean: the polygon it stores has exactly the given points as corners, each once, and is
    star-shaped (clockwise) around the mean; if no point is the mean, not all points lie on one line, and different points are seen from the mean
    at angles that differ by more than the 1e-6 of the code. *)
Theorem C70_constructor : forall pts c, is_mean pts c ->
  (exists p q r, In p pts /\ In q pts /\ In r pts /\ orient p q r <> 0) -> (forall p, In p pts -> p <> c) ->
  (forall p q a b, In p pts -> In q pts -> p <> q -> seen_at c p a -> seen_at c q b -> / 1000000 < Rabs (a - b)) ->
  star_shaped (-1) c (polygon_points pts) /\ forall p, In p (polygon_points pts) <-> In p pts.
Proof. exact polygon_star. Qed.
Print Assumptions C70_constructor.

(** both together: Polygon(points).PointIsInside(P) *)
Theorem C70_polygon_partial : forall pts c P, is_mean pts c ->
  (exists p q r, In p pts /\ In q pts /\ In r pts /\ orient p q r <> 0) -> (forall p, In p pts -> p <> c) ->
  (forall p q a b, In p pts -> In q pts -> p <> q -> seen_at c p a -> seen_at c q b -> / 1000000 < Rabs (a - b)) ->
  (forall p, In p pts -> snd p <> snd P) ->
  exists ps, polygon_points pts = ps /\ star_shaped (-1) c ps /\ (forall p, In p ps <-> In p pts) /\
    (star_inside (-1) c ps P -> point_is_inside ps P = true) /\ (star_outside (-1) c ps P -> point_is_inside ps P = false).
Proof.
  intros pts c P HM HL HN HD HG. destruct (polygon_star pts c HM HL HN HD) as (H1 & H2). exists (polygon_points pts).
  split; [reflexivity|]. split; [exact H1|]. split; [exact H2|]. apply star_theorem; auto. intros A HA. apply HG. now apply H2.
Qed.
Print Assumptions C70_polygon_partial.

(** an arrow, not convex at (0, -2), meets the hypotheses; (0, -3) lies in its notch *)
Lemma far_apart : forall c p q a b, seen_at c p a -> seen_at c q b ->
  (let x := fst p - fst c in let y := snd p - snd c in let u := fst q - fst c in let v := snd q - snd c in
   (x * x + y * y) * (u * u + v * v) < 1000000000000 * ((x * v - y * u) * (x * v - y * u)) \/ x * u + y * v < 0) -> / 1000000 < Rabs (a - b).
Proof.
  intros c p q a b (_ & r & R0 & X1 & Y1) (_ & r' & R1 & X2 & Y2). cbv zeta. rewrite X1, Y1, X2, Y2. intro H. apply Rnot_le_lt. intro L.
  assert (SA : (sin a * sin a + cos a * cos a) = 1) by (pose proof (sin2_cos2 a) as Z; unfold Rsqr in Z; exact Z).
  assert (SB : (sin b * sin b + cos b * cos b) = 1) by (pose proof (sin2_cos2 b) as Z; unfold Rsqr in Z; exact Z).
  pose proof (Rmult_lt_0_compat r r' R0 R1) as RP. destruct H as [H|H].
  - assert (SS : sin (a - b) * sin (a - b) <= (a - b) * (a - b)).
    { assert (SL : forall x, 0 <= x -> sin x <= x).
      { intros x [X| <-]; [left; now apply sin_lt_x|rewrite sin_0; lra]. }
      destruct (Rle_or_lt 0 (a - b)) as [L0|L0].
      - assert (sin (a - b) <= a - b) by (now apply SL). assert (0 <= sin (a - b)).
        { apply sin_ge_0; [exact L0|]. rewrite Rabs_pos_eq in L by exact L0. pose proof PI2_3_2. lra. }
        apply Rmult_le_compat; lra.
      - assert (sin (- (a - b)) <= - (a - b)) by (apply SL; lra). assert (0 <= sin (- (a - b))).
        { apply sin_ge_0; [lra|]. rewrite Rabs_left in L by exact L0. pose proof PI2_3_2. lra. }
        rewrite sin_neg in *. nra. }
    assert (L2 : (a - b) * (a - b) <= / 1000000 * / 1000000).
    { replace ((a - b) * (a - b)) with (Rabs (a - b) * Rabs (a - b)) by (rewrite <- Rabs_mult; apply Rabs_pos_eq; nra).
      pose proof (Rabs_pos (a - b)). apply Rmult_le_compat; lra. }
    replace ((r * sin a * (r * sin a) + r * cos a * (r * cos a)) * (r' * sin b * (r' * sin b) + r' * cos b * (r' * cos b)))
      with ((r * r') * (r * r') * (sin a * sin a + cos a * cos a) * (sin b * sin b + cos b * cos b)) in H by ring.
    replace ((r * sin a * (r' * cos b) - r * cos a * (r' * sin b)) * (r * sin a * (r' * cos b) - r * cos a * (r' * sin b)))
      with ((r * r') * (r * r') * (sin (a - b) * sin (a - b))) in H by (rewrite sin_minus; ring).
    rewrite SA, SB in H. pose proof (Rmult_lt_0_compat _ _ RP RP). nra.
  - replace (r * sin a * (r' * sin b) + r * cos a * (r' * cos b)) with ((r * r') * cos (a - b)) in H by (rewrite cos_minus; ring).
    assert (0 < cos (a - b)); [|nra]. apply cos_gt_0; pose proof PI2_3_2; pose proof (Rle_abs (a - b)); pose proof (Rle_abs (- (a - b))); rewrite Rabs_Ropp in *; lra.
Qed.
Definition arrow : list (R * R) := [(0, 4); (4, -4); (0, -2); (-4, -4)].
Ltac arrow_side H := apply side_square in H; destruct H as [(-> & ->)|[(-> & ->)|[(-> & ->)|(-> & ->)]]].
Example C70_arrow : star_shaped (-1) (0, -3/2) arrow /\ star_inside (-1) (0, -3/2) arrow (1, 0) /\ star_outside (-1) (0, -3/2) arrow (0, -3) /\
  (forall A, In A arrow -> snd A <> 0 /\ snd A <> -3).
Proof.
  unfold arrow. split; [|split; [|split]].
  - split; [discriminate|]. split; [|split].
    + repeat (apply NoDup_cons; [cbn [In]; let H := fresh in intro H; repeat destruct H as [H|H]; try contradiction; revert H; pneq|]). apply NoDup_nil.
    + intros A B H. arrow_side H; unfold orient; cbn [fst snd]; lra.
    + intros A B A' B' Q H H' T T'. unfold in_open_triangle, orient in T, T'.
      arrow_side H; arrow_side H'; try reflexivity; exfalso; cbn [fst snd] in T, T'; lra.
  - exists (0, 4), (4, -4). split; [exists 0%nat; cbn; auto|]. unfold orient; cbn [fst snd]; lra.
  - intros A B H. arrow_side H; unfold orient; cbn [fst snd]; lra.
  - intros A [<-|[<-|[<-|[<-|[]]]]]; cbn [snd]; lra.
Qed.
Example C70_arrow_points : is_mean arrow (0, -3/2) /\ (exists p q r, In p arrow /\ In q arrow /\ In r arrow /\ orient p q r <> 0) /\
  (forall p, In p arrow -> p <> (0, -3/2)) /\
  (forall p q a b, In p arrow -> In q arrow -> p <> q -> seen_at (0, -3/2) p a -> seen_at (0, -3/2) q b -> / 1000000 < Rabs (a - b)).
Proof.
  unfold arrow. split; [|split; [|split]].
  - unfold is_mean; cbn; split; lra.
  - exists (0, 4), (4, -4), (0, -2). split; [now left|]. split; [now right; left|]. split; [now right; right; left|]. unfold orient; cbn [fst snd]; lra.
  - intros p [<-|[<-|[<-|[<-|[]]]]]; pneq.
  - intros p q a b Hp Hq N Sp Sq. apply (far_apart _ _ _ _ _ Sp Sq). clear Sp Sq.
    destruct Hp as [<-|[<-|[<-|[<-|[]]]]]; destruct Hq as [<-|[<-|[<-|[<-|[]]]]]; cbv zeta; cbn [fst snd]; solve [congruence|left; lra|right; lra].
Qed.

(** A ray that passes through a corner counts both sides that meet there: the center of a diamond is reported outside. *)
Theorem C70_ray_through_corner_refuted : exists ps P,
  strictly_convex (-1) ps /\ strictly_inside (-1) ps P /\ point_is_inside ps P = false.
Proof.
  exists [(1, 0); (0, -1); (-1, 0); (0, 1)], (0, 0). split; [|split].
  - split; [cbn; lia|]. split.
    + repeat (apply NoDup_cons; [cbn [In]; let H := fresh in intro H; repeat destruct H as [H|H]; try contradiction; revert H; pneq|]). apply NoDup_nil.
    + intros A B C HE HC N1 N2. apply side_square in HE. cbn [In] in HC.
      destruct HE as [(-> & ->)|[(-> & ->)|[(-> & ->)|(-> & ->)]]]; destruct HC as [<-|[<-|[<-|[<-|[]]]]]; try congruence;
        unfold orient; cbn [fst snd]; lra.
  - intros A B HE. apply side_square in HE.
    destruct HE as [(-> & ->)|[(-> & ->)|[(-> & ->)|(-> & ->)]]]; unfold orient; cbn [fst snd]; lra.
  - unfold point_is_inside. cbn [cyclic_edges combine List.app filter].
    assert (H : forall a b c d, b - d <> 0 -> hits (0, 0) ((c, d), (a, b)) =
      if orb (rltb (d / (d - b)) 0) (rltb 1 (d / (d - b))) then false else rltb 0 ((c * b - a * d) / (b - d))).
    { intros a b c d N. unfold hits, line_parameter, sub2, px, py. cbn [fst snd].
      destruct (reqb_spec ((a - c) * 0 - (b - d) * 1) 0) as [(-> & E)|(-> & E)]; [exfalso; lra|].
      replace (((0 - c) * 0 - (0 - d) * 1) / ((a - c) * 0 - (b - d) * 1)) with (d / (d - b)) by (field; lra).
      replace (((0 - d) * (a - c) - (0 - c) * (b - d)) / - ((a - c) * 0 - (b - d) * 1)) with ((c * b - a * d) / (b - d)) by (field; lra).
      destruct (orb _ _); [|reflexivity].
      destruct (rltb_spec 0 (-1)) as [(_ & X)|(-> & X)]; [exfalso; lra|reflexivity]. }
    rewrite !H by lra.
    repeat match goal with |- context [rltb ?a ?b] =>
      let X := fresh in destruct (rltb_spec a b) as [(-> & X)|(-> & X)]; try (exfalso; clear - X; lra) end;
      cbn [orb]; try reflexivity.
Qed.
Print Assumptions C70_ray_through_corner_refuted.

(** ** C79 *)
(** Whatever the points, as long as they do not all have the same x or all the same y, the triangulation dereferences a pointer to
    a triangle that it has already erased: a triangle with two corners of the enclosing quad is listed twice for removal.  (An
    empty set of points reads mPoints[0]: [triangulate [] = UB] as well.) *)
Theorem C79_every_triangulation_reads_freed_memory_refuted : forall pts,
  (exists p q, In p pts /\ In q pts /\ fst p < fst q) -> (exists p q, In p pts /\ In q pts /\ snd p < snd q) ->
  triangulate pts = UB.
Proof. intros pts Hx Hy. now apply triangulate_ub. Qed.
Print Assumptions C79_every_triangulation_reads_freed_memory_refuted.
Example C79_example : triangulate [(0, 0); (1, 0); (0, 1)] = UB.
Proof.
  apply C79_every_triangulation_reads_freed_memory_refuted.
  - exists (0, 0), (1, 0). cbn [In fst]. repeat split; auto. lra.
  - exists (0, 0), (0, 1). cbn [In snd]. repeat split; auto. lra.
Qed.
