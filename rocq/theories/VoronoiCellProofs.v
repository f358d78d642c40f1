(** Proofs about the Voronoi cells *)
From Coq Require Import Reals ZArith List Bool Arith Lia Lra Psatz Permutation.
From Verif Require Import Outcome AdaptiveModel AdaptiveProofs CollisionModel CollisionProofs2 DelaunayModel DelaunaySpec DelaunayProofs
  PolygonModel VoronoiCellModel VoronoiCellSpec.
Import ListNotations.
Local Open Scope R_scope.

Definition sq (a b : p2) : R := (fst a - fst b) * (fst a - fst b) + (snd a - snd b) * (snd a - snd b).
Lemma sq_distance a b c : sq a b = sq a c -> distance2 a b = distance2 a c.
Proof. unfold distance2, Rsqr, sq. intros E. f_equal. exact E. Qed.
Lemma sq_pos a b : 0 <= sq a b.
Proof. exact (Rplus_le_le_0_compat _ _ (Rle_0_sqr (fst a - fst b)) (Rle_0_sqr (snd a - snd b))). Qed.
Lemma distance_sq a b c : distance2 a b = distance2 a c -> sq a b = sq a c.
Proof.
  unfold distance2, Rsqr. intros E. apply sqrt_inj; [apply sq_pos|apply sq_pos|exact E].
Qed.
Lemma distance_sq_le a b c : distance2 a b <= distance2 a c <-> sq a b <= sq a c.
Proof.
  unfold distance2, Rsqr. split; intros E.
  - apply sqrt_le_0; [apply sq_pos|apply sq_pos|exact E].
  - apply sqrt_le_1; [apply sq_pos|apply sq_pos|exact E].
Qed.

(** points of a polygon are among those it is made of *)
Lemma angle_put_in k v m x : In x (map snd (angle_put k v m)) -> x = v \/ In x (map snd m).
Proof.
  induction m as [|(k', v') m IH]; cbn [angle_put map].
  - cbn [map snd In]. intros [<-|[]]. now left.
  - destruct (rltb k k'); [cbn [map snd In]; intros [<-|H]; [now left|now right]|].
    destruct (rltb k' k); cbn [map snd In]; intros [<-|H].
    + right. now left.
    + destruct (IH H) as [->|H']; [now left|right; now right].
    + now left.
    + right. now right.
Qed.
Lemma keep_apart_in last m x : In x (keep_apart last m) -> In x (map snd m).
Proof.
  revert last. induction m as [|(k, v) m IH]; intros last; [contradiction|]. cbn [keep_apart map snd].
  destruct (rltb _ _); [intros [<-|H]; [now left|right; exact (IH _ H)]|intros H; right; exact (IH _ H)].
Qed.
Lemma polygon_points_in pts x : In x (polygon_points pts) -> In x pts.
Proof.
  unfold polygon_points, angles_points. intros H. apply keep_apart_in in H.
  assert (G : forall l m, (forall y, In y (map snd m) -> In y pts) -> (forall y, In y l -> In y pts) ->
     In x (map snd (fold_left (fun m p => angle_put (atan2 (px p - px (center_of_points pts)) (py p - py (center_of_points pts))) p m) l m)) -> In x pts).
  { induction l as [|p l IH]; intros m Hm Hl; cbn [fold_left]; [apply Hm|]. apply IH.
    - intros y Hy. apply angle_put_in in Hy. destruct Hy as [->|Hy]; [apply Hl; now left|exact (Hm y Hy)].
    - intros y Hy. apply Hl. now right. }
  apply (G pts []); [intros y []|auto|exact H].
Qed.

(** ** Triangles *)
Lemma edge_eqb_spec a b : edge_eqb a b = true <-> joins (fst b) (snd b) a.
Proof.
  unfold edge_eqb, joins. rewrite orb_true_iff, !andb_true_iff, !p2_eqb_spec. destruct a as [a1 a2], b as [b1 b2]. cbn [fst snd]. split.
  - intros [(-> & ->)|(-> & ->)]; auto.
  - intros [E|E]; injection E as -> ->; auto.
Qed.
Lemma edge_contains_spec e p : edge_contains e p = true <-> fst e = p \/ snd e = p.
Proof. unfold edge_contains. rewrite orb_true_iff, !p2_eqb_spec. reflexivity. Qed.

Definition det_of (A B C : p2) : R := 2 * (px A * (py B - py C) + px B * (py C - py A) + px C * (py A - py B)).
Lemma circum_sq A B C : det_of A B C <> 0 ->
  let d := det_of A B C in
  let x := dot2 A A * (py B - py C) + dot2 B B * (py C - py A) + dot2 C C * (py A - py B) in
  let y := dot2 A A * (px C - px B) + dot2 B B * (px A - px C) + dot2 C C * (px B - px A) in
  sq (x / d, y / d) A = sq (x / d, y / d) B /\ sq (x / d, y / d) A = sq (x / d, y / d) C.
Proof.
  destruct A as [a1 a2], B as [b1 b2], C as [c1 c2]. unfold det_of, sq, dot2, px, py. cbn [fst snd]. intros H. cbv zeta. split; field; lra.
Qed.
Lemma unique_of_triangle A B C t : is_triangle A B C t -> exists X Y Z, unique_points t = (X, Y, Z) /\ Permutation [X; Y; Z] [A; B; C] \/
  unique_points t = (X, Y, Z) /\ det_of X Y Z = 0.
Proof.
  intros (e0 & e1 & e2 & -> & H0 & H1 & _). unfold unique_points, edge_contains.
  destruct (p2_dec A B) as [<-|N1].
  { destruct H0 as [->| ->]; cbn [fst snd]; do 3 eexists; right; (split; [reflexivity|]); unfold det_of; ring. }
  destruct (p2_dec A C) as [<-|N2].
  { destruct H0 as [->| ->], H1 as [->| ->]; cbn [fst snd]; rewrite ?p2_eqb_refl, ?orb_true_r; cbn [orb]; do 3 eexists; right; (split; [reflexivity|]); unfold det_of; ring. }
  destruct (p2_dec B C) as [<-|N3].
  { destruct H0 as [->| ->], H1 as [->| ->]; cbn [fst snd]; rewrite ?p2_eqb_refl, ?orb_true_r; cbn [orb]; do 3 eexists; right; (split; [reflexivity|]); unfold det_of; ring. }
  assert (E1 : p2_eqb A C = false) by (apply p2_neqb; exact N2). assert (E2 : p2_eqb B C = false) by (apply p2_neqb; exact N3).
  destruct H0 as [->| ->], H1 as [->| ->]; cbn [fst snd]; rewrite ?p2_eqb_refl, ?E1, ?E2, ?orb_true_r; cbn [orb]; do 3 eexists; left; (split; [reflexivity|]);
    first [apply Permutation_refl|apply perm_swap].
Qed.
(** the circumcenter has the same distance to the three corners *)
Lemma center_sq A B C t c : is_triangle A B C t -> center_of_triangle t = Ok c -> sq c A = sq c B /\ sq c A = sq c C.
Proof.
  intros HT E. destruct (unique_of_triangle A B C t HT) as (X & Y & Z & [(EU & P)|(EU & D)]); unfold center_of_triangle in E; rewrite EU in E;
    fold (det_of X Y Z) in E.
  - destruct (reqb_spec (det_of X Y Z) 0) as [(Eb & _)|(Eb & N)]; rewrite Eb in E; [discriminate|]. injection E as <-.
    unfold circumcenter. rewrite EU. fold (det_of X Y Z). destruct (circum_sq X Y Z N) as (S1 & S2). cbv zeta in S1, S2 |- *.
    match type of S1 with sq ?o _ = _ => set (O := o) in *; clearbody O end.
    assert (G : forall W, In W [A; B; C] -> sq O W = sq O X).
    { intros W HW. apply (Permutation_in W (Permutation_sym P)) in HW. destruct HW as [<-|[<-|[<-|[]]]]; auto. }
    rewrite (G A), (G B), (G C) by (cbn; auto). auto.
  - rewrite D in E. destruct (reqb_spec 0 0) as [(Eb & _)|(Eb & N)]; [rewrite Eb in E; discriminate|exfalso; auto].
Qed.
Lemma joined A B C t e : is_triangle A B C t -> In e (triangle_edges t) ->
  joins A B e \/ joins B C e \/ joins C A e.
Proof. intros (e0 & e1 & e2 & -> & H0 & H1 & H2) [<-|[<-|[<-|[]]]]; auto. Qed.
Lemma center_edge t c e k : (exists A B C, is_triangle A B C t) -> center_of_triangle t = Ok c -> In e (triangle_edges t) -> edge_eqb k e = true ->
  sq c (fst k) = sq c (snd k).
Proof.
  intros (A & B & C & HT) E He Hk. destruct (center_sq A B C t c HT E) as (S1 & S2). apply edge_eqb_spec in Hk.
  assert (G : sq c (fst e) = sq c (snd e)).
  { destruct (joined A B C t e HT He) as [[->| ->]|[[->| ->]|[->| ->]]]; cbn [fst snd]; congruence. }
  destruct Hk as [->| ->]; cbn [fst snd]; congruence.
Qed.
Lemma neighbours_edge tris t e k p : In t tris -> (exists A B C, is_triangle A B C t) -> In e (triangle_edges t) -> edge_eqb k e = true ->
  edge_contains k p = true -> exists q, (k = (p, q) \/ k = (q, p)) /\ neighbours tris p q.
Proof.
  intros Ht (A & B & C & HT) He Hk Hp. apply edge_eqb_spec in Hk. apply edge_contains_spec in Hp.
  pose proof (joined A B C t e HT He) as HJ.
  assert (G : forall X Y, joins X Y k -> (forall p q, (p = X /\ q = Y) \/ (p = Y /\ q = X) -> neighbours tris p q) ->
     exists q, (k = (p, q) \/ k = (q, p)) /\ neighbours tris p q).
  { intros X Y [->| ->] HN; cbn [fst snd] in Hp; destruct Hp as [<-|<-]; eexists; (split; [eauto|]); apply HN; auto. }
  assert (HJ' : joins A B k \/ joins B C k \/ joins C A k).
  { unfold joins in *. destruct Hk as [->| ->], HJ as [[->| ->]|[[->| ->]|[->| ->]]]; cbn [fst snd]; auto. }
  destruct HJ' as [H|[H|H]]; [apply (G A B H)|apply (G B C H)|apply (G C A H)]; intros x y Hxy; exists t, A, B, C; split; [exact Ht| |exact Ht| |exact Ht|]; (split; [exact HT|]);
    destruct Hxy as [(-> & ->)|(-> & ->)]; tauto.
Qed.

(** ** The map of edges *)
Definition entry_ok (tris : list triangle) (x : edge * list triangle) : Prop :=
  snd x <> [] /\ forall t, In t (snd x) -> In t tris /\ exists e, In e (triangle_edges t) /\ edge_eqb (fst x) e = true.
Lemma edge_eqb_refl e : edge_eqb e e = true.
Proof. apply edge_eqb_spec. left. destruct e; reflexivity. Qed.
Lemma edge_put_ok tris e t m : In t tris -> In e (triangle_edges t) -> (forall x, In x m -> entry_ok tris x) -> forall x, In x (edge_put e t m) -> entry_ok tris x.
Proof.
  intros Ht He. induction m as [|(k, ts) m IH]; intros Hm x; cbn [edge_put].
  - intros [<-|[]]. split; [discriminate|]. cbn [fst snd]. intros t' [<-|[]]. split; [exact Ht|]. exists e. split; [exact He|apply edge_eqb_refl].
  - destruct (edge_eqb k e) eqn:E.
    + intros [<-|H]; [|apply Hm; now right]. destruct (Hm (k, ts) (or_introl eq_refl)) as (_ & H). cbn [fst snd] in *. split.
      * cbn [snd]. destruct ts; discriminate.
      * cbn [fst snd]. intros t' Ht'. apply in_app_iff in Ht'. destruct Ht' as [Ht'|[<-|[]]]; [exact (H t' Ht')|]. split; [exact Ht|]. exists e. auto.
    + intros [<-|H]; [apply Hm; now left|]. apply IH; [intros y Hy; apply Hm; now right|exact H].
Qed.
Lemma edge_map_ok tris x : In x (edge_to_triangle tris) -> entry_ok tris x.
Proof.
  unfold edge_to_triangle.
  assert (G : forall l m, (forall t, In t l -> In t tris) -> (forall x, In x m -> entry_ok tris x) ->
     forall x, In x (fold_left (fun m t => fold_left (fun m e => edge_put e t m) (triangle_edges t) m) l m) -> entry_ok tris x).
  { induction l as [|t l IH]; intros m Hl Hm; cbn [fold_left]; [exact Hm|]. apply IH; [intros u Hu; apply Hl; now right|].
    assert (Ht : In t tris) by (apply Hl; now left).
    assert (G2 : forall es m, (forall e, In e es -> In e (triangle_edges t)) -> (forall x, In x m -> entry_ok tris x) ->
      forall x, In x (fold_left (fun m e => edge_put e t m) es m) -> entry_ok tris x).
    { induction es as [|e es IHe]; intros m' He Hm'; cbn [fold_left]; [exact Hm'|]. apply IHe; [intros e' He'; apply He; now right|].
      apply edge_put_ok; [exact Ht|apply He; now left|exact Hm']. }
    apply G2; [auto|exact Hm]. }
  apply (G tris []); [auto|intros y []].
Qed.

(** ** The ends of the Voronoi edges lie on the bisector *)
Lemma closest_sq boundary p d k : sq p (fst k) = sq p (snd k) -> dot2 d (sub2 (snd k) (fst k)) = 0 ->
  sq (closest_intersection boundary p d) (fst k) = sq (closest_intersection boundary p d) (snd k).
Proof.
  unfold closest_intersection. generalize (closest_parameter boundary p d). intros l.
  destruct p as [p1 p2'], d as [d1 d2], k as [[a1 a2] [b1 b2]]. unfold sq, dot2, sub2, px, py. cbn [fst snd]. intros E D.
  assert (X : d1 * (b1 - a1) * l + d2 * (b2 - a2) * l = 0) by (rewrite <- Rmult_plus_distr_r, D; ring). nra.
Qed.
Lemma single_sq boundary k t a b : (forall c, center_of_triangle t = Ok c -> sq c (fst k) = sq c (snd k)) ->
  single_side boundary k t = Ok (Some (a, b)) -> sq a (fst k) = sq a (snd k) /\ sq b (fst k) = sq b (snd k).
Proof.
  intros HC. unfold single_side. destruct (center_of_triangle t) as [p0| |]; try discriminate. cbn [obind]. specialize (HC p0 eq_refl).
  destruct (reqb_spec (dot2 (sub2 (snd k) (fst k)) (sub2 (snd k) (fst k))) 0) as [(-> & _)|(-> & N)]; [discriminate|].
  match goal with |- context [if rltb (Rabs ?x) _ then _ else ?n] => set (n0 := n) end.
  assert (D0 : dot2 n0 (sub2 (snd k) (fst k)) = 0).
  { unfold n0. destruct p0 as [q1 q2], k as [[a1 a2] [b1 b2]]. unfold dot2, sub2, px, py in *. cbn [fst snd] in *. field. exact N. }
  match goal with |- context [if existsb ?f ?l then neg2 ?n else _] => set (n1 := n) end.
  assert (D1 : dot2 n1 (sub2 (snd k) (fst k)) = 0).
  { unfold n1. destruct (rltb _ _); [|exact D0]. unfold dot2, px, py. cbn [fst snd]. ring. }
  clearbody n1. clear D0 n0.
  match goal with |- context [if ?b then neg2 n1 else _] => destruct b end.
  - assert (D2 : dot2 (neg2 n1) (sub2 (snd k) (fst k)) = 0).
    { rewrite <- Ropp_0, <- D1. unfold dot2, neg2, px, py. cbn [fst snd]. ring. }
    destruct (point_is_inside boundary p0); [|discriminate]. intros E. injection E as <- <-. split; [exact HC|apply closest_sq; assumption].
  - destruct (point_is_inside boundary p0); intros E; injection E as <- <-; (split; [|repeat (apply closest_sq; [|exact D1]); exact HC]).
    + exact HC.
    + apply closest_sq; assumption.
Qed.
Lemma difference_sq p q k : sq p (fst k) = sq p (snd k) -> sq q (fst k) = sq q (snd k) -> dot2 (sub2 q p) (sub2 (snd k) (fst k)) = 0.
Proof.
  destruct p as [p1 p2'], q as [q1 q2], k as [[a1 a2] [b1 b2]]. unfold sq, dot2, sub2, px, py. cbn [fst snd]. intros E1 E2. nra.
Qed.
Lemma double_sq boundary k t0 t1 a b : (forall c, center_of_triangle t0 = Ok c -> sq c (fst k) = sq c (snd k)) ->
  (forall c, center_of_triangle t1 = Ok c -> sq c (fst k) = sq c (snd k)) ->
  double_side boundary t0 t1 = Ok (Some (a, b)) -> sq a (fst k) = sq a (snd k) /\ sq b (fst k) = sq b (snd k).
Proof.
  intros HC0 HC1. unfold double_side. destruct (center_of_triangle t0) as [p0| |]; try discriminate. destruct (center_of_triangle t1) as [p1| |]; try discriminate.
  cbn [obind]. specialize (HC0 p0 eq_refl). specialize (HC1 p1 eq_refl).
  assert (G : forall q0, sq q0 (fst k) = sq q0 (snd k) -> let q1 := if point_is_inside boundary p1 then p1 else closest_intersection boundary p1 (sub2 q0 p1) in
     sq q1 (fst k) = sq q1 (snd k)).
  { intros q0 H0. cbv zeta. destruct (point_is_inside boundary p1); [exact HC1|]. apply closest_sq; [exact HC1|apply difference_sq; assumption]. }
  destruct (point_is_inside boundary p0).
  - intros E. injection E as <- <-. split; [exact HC0|apply G; exact HC0].
  - destruct (segment_intersects boundary p0 p1); [|discriminate]. intros E. injection E as <- <-.
    assert (H0 : sq (closest_intersection boundary p0 (sub2 p1 p0)) (fst k) = sq (closest_intersection boundary p0 (sub2 p1 p0)) (snd k))
      by (apply closest_sq; [exact HC0|apply difference_sq; assumption]).
    split; [exact H0|apply G; exact H0].
Qed.
Lemma voronoi_edge_sq boundary tris x a b : (forall t, In t tris -> exists A B C, is_triangle A B C t) -> entry_ok tris x ->
  voronoi_edge boundary x = Ok (Some (a, b)) -> sq a (fst (fst x)) = sq a (snd (fst x)) /\ sq b (fst (fst x)) = sq b (snd (fst x)).
Proof.
  intros HT (_ & Hx). destruct x as (k, ts). cbn [fst snd] in *.
  assert (HC : forall t, In t ts -> forall c, center_of_triangle t = Ok c -> sq c (fst k) = sq c (snd k)).
  { intros t Ht c Hc. destruct (Hx t Ht) as (Hin & e & He & Ek). exact (center_edge t c e k (HT t Hin) Hc He Ek). }
  unfold voronoi_edge. cbn [fst snd]. destruct ts as [|t0 [|t1 [|]]]; try discriminate.
  - apply single_sq. apply HC. now left.
  - apply double_sq; apply HC; cbn; auto.
Qed.
Lemma voronoi_points_sq boundary tris p entries l : (forall t, In t tris -> exists A B C, is_triangle A B C t) ->
  (forall x, In x entries -> entry_ok tris x /\ edge_contains (fst x) p = true) -> voronoi_points boundary entries = Ok l ->
  forall c, In c l -> exists q, neighbours tris p q /\ sq c p = sq c q.
Proof.
  intros HT. revert l. induction entries as [|x r IH]; intros l Hx E c Hc; cbn [voronoi_points] in E; [injection E as <-; contradiction|].
  destruct (voronoi_edge boundary x) as [o| |] eqn:Eo; try discriminate. cbn [obind] in E.
  destruct (voronoi_points boundary r) as [l'| |]; try discriminate. cbn [obind] in E.
  specialize (IH l' (fun y Hy => Hx y (or_intror Hy)) eq_refl).
  destruct o as [(a, b)|]; [|injection E as <-; exact (IH c Hc)]. injection E as <-.
  destruct (Hx x (or_introl eq_refl)) as (Ok1 & Ec).
  assert (G : forall c, sq c (fst (fst x)) = sq c (snd (fst x)) -> exists q, neighbours tris p q /\ sq c p = sq c q).
  { intros c' Hs. destruct Ok1 as (Hne & Hall). destruct (snd x) as [|t ts] eqn:Ex; [congruence|]. destruct (Hall t (or_introl eq_refl)) as (Hin & e & He & Ek).
    destruct (neighbours_edge tris t e (fst x) p Hin (HT t Hin) He Ek Ec) as (q & Hq & HN). exists q. split; [exact HN|].
    destruct Hq as [Hq|Hq]; rewrite Hq in Hs; cbn [fst snd] in Hs; congruence. }
  destruct (voronoi_edge_sq boundary tris x a b HT Ok1 Eo) as (Ha & Hb). destruct Hc as [<-|[<-|Hc]]; [exact (G a Ha)|exact (G b Hb)|exact (IH c Hc)].
Qed.

(** ** The corners of the boundary *)
Lemma cyclic_edges_in ps e : In e (cyclic_edges ps) -> In (fst e) ps /\ In (snd e) ps.
Proof.
  unfold cyclic_edges. destruct ps as [|p0 ps]; [contradiction|]. destruct e as (a, b). intros H. pose proof (in_combine_l _ _ _ _ H) as H1. apply in_combine_r in H.
  cbn [fst snd]. split; [exact H1|]. apply in_app_iff in H. destruct H as [H|[<-|[]]]; [now right|now left].
Qed.
Lemma other_points_in p ps l x : other_points p ps = Ok l -> In x l -> In x ps.
Proof.
  revert l. induction ps as [|q ps IH]; intros l E Hx; cbn [other_points] in E; [discriminate|].
  destruct (p2_eqb q p); [injection E as <-; now right|]. destruct (other_points p ps) as [l'| |]; try discriminate. injection E as <-.
  destruct Hx as [<-|Hx]; [now left|right; exact (IH l' eq_refl Hx)].
Qed.
Lemma boundary_loop_in boundary ip num todo : forall ps l, boundary_loop boundary ip num todo ps = Ok l -> forall x, In x l -> In x ps \/ In x boundary.
Proof.
  induction todo as [|i todo IH]; intros ps l E x Hx; cbn [boundary_loop] in E; [injection E as <-; now left|].
  destruct (nth_error ps i) as [a|]; [|discriminate]. destruct (nth_error ps ((i + 1) mod num)) as [b|]; [|discriminate].
  destruct (orb _ _); [exact (IH ps l E x Hx)|].
  destruct (point_on_both (cyclic_edges boundary) (edge_index boundary a) (edge_index boundary b)) as [c| |] eqn:Ep; try discriminate. cbn [obind] in E.
  assert (Hc : In c boundary).
  { unfold point_on_both in Ep. destruct (orb _ _); [discriminate|].
    destruct (nth_error (cyclic_edges boundary) _) as [e1|] eqn:N1; [|discriminate]. destruct (nth_error (cyclic_edges boundary) (Z.to_nat (edge_index boundary b))) as [e2|]; [|discriminate].
    apply nth_error_In, cyclic_edges_in in N1. destruct (edge_contains e2 (fst e1)); [injection Ep as <-; tauto|]. destruct (edge_contains e2 (snd e1)); [injection Ep as <-; tauto|discriminate]. }
  destruct (point_is_inside _ ip).
  - injection E as <-. apply polygon_points_in, in_app_iff in Hx. destruct Hx as [Hx|[<-|[]]]; auto.
  - destruct (other_points c boundary) as [os| |] eqn:Eo; try discriminate. cbn [obind] in E.
    destruct (IH _ _ E x Hx) as [H|H]; [|now right]. apply polygon_points_in, in_app_iff in H. destruct H as [H|H]; [now left|right; exact (other_points_in _ _ _ _ Eo H)].
Qed.
Lemma add_intersection_in boundary ip ps l : add_intersection boundary ip ps = Ok l -> forall x, In x l -> In x ps \/ In x boundary.
Proof. unfold add_intersection. destruct (Nat.eqb _ 2); [apply boundary_loop_in|intros E; injection E as <-; auto]. Qed.
