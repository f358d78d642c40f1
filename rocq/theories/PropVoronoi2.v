(** C109: the cells of inner points are exactly the points closest to them *)
From Coq Require Import Reals ZArith List Bool Arith Lia Lra Psatz Permutation.
From Verif Require Import PropDelaunay Outcome AdaptiveModel AdaptiveProofs CollisionModel CollisionProofs2 DelaunayModel DelaunaySpec DelaunayProofs StarProofs3
  PolygonModel PolygonSpec PropPolygon VoronoiCellModel VoronoiCellSpec VoronoiCellProofs PropVoronoiCell VoronoiCover.
Import ListNotations.
Local Open Scope R_scope.

(** ** Specification *)
(** the circumcenters of the triangles with the corner [p], one for each triangle *)
Inductive circumcenters (p : point) : list ((point * point) * (point * point) * (point * point)) -> list point -> Prop :=
| cc_nil : circumcenters p [] []
| cc_in t ts m ms : corner_of t p -> center_of t m -> circumcenters p ts ms -> circumcenters p (t :: ts) (m :: ms)
| cc_out t ts ms : ~ corner_of t p -> circumcenters p ts ms -> circumcenters p (t :: ts) ms.
(** every direction from [p] runs into one of the triangles: it lies between the two sides of a triangle at [p] *)
Definition surrounded (tris : list ((point * point) * (point * point) * (point * point))) (p : point) : Prop :=
  forall a b, exists t A B C q q' s r, In t tris /\ is_triangle A B C t /\ Permutation [A; B; C] [p; q; q'] /\ 0 <= s /\ 0 <= r /\
    a = s * (fst q - fst p) + r * (fst q' - fst p) /\ b = s * (snd q - snd p) + r * (snd q' - snd p).

(** ** The triangles at p, with repetitions *)
Definition at_p (p : p2) (m : edge_map) : list triangle := flat_map snd (filter (fun x => edge_contains (fst x) p) m).
Definition sides_at (p : p2) (t : triangle) : list triangle := map (fun _ => t) (filter (fun e => edge_contains e p) (triangle_edges t)).

Lemma contains_eqb k e p : edge_eqb k e = true -> edge_contains k p = edge_contains e p.
Proof.
  intros H. apply edge_eqb_spec in H. apply eq_iff_eq_true. rewrite !edge_contains_spec. destruct H as [->| ->]; cbn [fst snd]; tauto.
Qed.
Lemma at_put p e t m : Permutation (at_p p (edge_put e t m)) ((if edge_contains e p then [t] else []) ++ at_p p m).
Proof.
  unfold at_p. induction m as [|(k, ts) m IH]; cbn [edge_put].
  - cbn [filter fst]. destruct (edge_contains e p); cbn [flat_map snd app]; apply Permutation_refl.
  - destruct (edge_eqb k e) eqn:E.
    + cbn [filter fst]. rewrite (contains_eqb k e p E). destruct (edge_contains e p); cbn [flat_map snd app]; [|apply Permutation_refl].
      rewrite <- app_assoc. cbn [app]. symmetry. apply Permutation_middle.
    + cbn [filter fst]. destruct (edge_contains k p); [|exact IH]. cbn [flat_map snd].
      eapply Permutation_trans; [apply Permutation_app_head, IH|]. rewrite !app_assoc. apply Permutation_app_tail, Permutation_app_comm.
Qed.
Lemma at_all p tris : Permutation (at_p p (edge_to_triangle tris)) (flat_map (sides_at p) tris).
Proof.
  unfold edge_to_triangle.
  assert (G1 : forall t es m, Permutation (at_p p (fold_left (fun m e => edge_put e t m) es m)) (map (fun _ => t) (filter (fun e => edge_contains e p) es) ++ at_p p m)).
  { intros t. induction es as [|e es IH]; intros m; cbn [fold_left filter map app]; [apply Permutation_refl|].
    eapply Permutation_trans; [apply IH|]. eapply Permutation_trans; [apply Permutation_app_head, at_put|].
    destruct (edge_contains e p); cbn [map app]; [|apply Permutation_refl]. symmetry. apply Permutation_middle. }
  assert (G : forall l m, Permutation (at_p p (fold_left (fun m t => fold_left (fun m e => edge_put e t m) (triangle_edges t) m) l m)) (flat_map (sides_at p) l ++ at_p p m)).
  { induction l as [|t l IH]; intros m; cbn [fold_left flat_map app]; [apply Permutation_refl|].
    eapply Permutation_trans; [apply IH|]. eapply Permutation_trans; [apply Permutation_app_head, G1|]. fold (sides_at p t).
    rewrite !app_assoc. apply Permutation_app_tail, Permutation_app_comm. }
  specialize (G tris []). cbn [at_p filter flat_map] in G. rewrite app_nil_r in G. exact G.
Qed.
Lemma at_order p m m' : Permutation m m' -> Permutation (at_p p m) (at_p p m').
Proof.
  unfold at_p. induction 1 as [|x l l' _ IH|x y l|l1 l2 l3 _ IH1 _ IH2]; cbn [filter]; auto.
  - destruct (edge_contains (fst x) p); [cbn [flat_map]; apply Permutation_app_head; exact IH|exact IH].
  - destruct (edge_contains (fst x) p), (edge_contains (fst y) p); cbn [flat_map]; try apply Permutation_refl.
    rewrite !app_assoc. apply Permutation_app_tail, Permutation_app_comm.
  - eapply Permutation_trans; eassumption.
Qed.

(** ** Circumcenters *)
Lemma triangle_corners A B C t m : is_triangle A B C t -> center_of_triangle t = Ok m ->
  A <> B /\ B <> C /\ C <> A /\ (forall m', sq m' A = sq m' B -> sq m' A = sq m' C -> m' = m).
Proof.
  intros HT E. destruct (center_sq A B C t m HT E) as (M1 & M2).
  destruct (unique_of_triangle A B C t HT) as (X & Y & Z & [(EU & P)|(EU & D)]); unfold center_of_triangle in E; rewrite EU in E; fold (det_of X Y Z) in E.
  2: { rewrite D in E. destruct (reqb_spec 0 0) as [(Eb & _)|(Eb & N)]; [rewrite Eb in E; discriminate|exfalso; auto]. }
  destruct (reqb_spec (det_of X Y Z) 0) as [(Eb & _)|(Eb & N)]; rewrite Eb in E; [discriminate|]. clear E Eb.
  assert (ND : NoDup [X; Y; Z]).
  { repeat constructor; cbn [In]; intros F; apply N; unfold det_of.
    - destruct F as [->|[->|[]]]; ring.
    - destruct F as [->|[]]; ring.
    - destruct F. }
  apply (Permutation_NoDup P) in ND. inversion ND as [|? ? N1 ND1]; subst. inversion ND1 as [|? ? N2 _]; subst. cbn [In] in N1, N2.
  split; [intros ->; tauto|]. split; [intros ->; tauto|]. split; [intros ->; tauto|].
  intros m' Q1 Q2.
  assert (G : forall W, In W [X; Y; Z] -> sq m W = sq m A /\ sq m' W = sq m' A).
  { intros W HW. apply (Permutation_in W P) in HW. destruct HW as [<-|[<-|[<-|[]]]]; auto. }
  destruct (G X) as (X1 & X2); [cbn; auto|]. destruct (G Y) as (Y1 & Y2); [cbn; auto|]. destruct (G Z) as (Z1 & Z2); [cbn; auto|].
  assert (A1 : sq m X = sq m Y) by congruence. assert (A2 : sq m X = sq m Z) by congruence.
  assert (B1 : sq m' X = sq m' Y) by congruence. assert (B2 : sq m' X = sq m' Z) by congruence. clear - N A1 A2 B1 B2.
  destruct m as [m1 m2], m' as [k1 k2], X as [x1 x2], Y as [y1 y2], Z as [z1 z2]. unfold sq, det_of, px, py in *. cbn [fst snd] in *.
  assert (E1 : (k1 - m1) * (y1 - x1) + (k2 - m2) * (y2 - x2) = 0) by nra.
  assert (E2 : (k1 - m1) * (z1 - x1) + (k2 - m2) * (z2 - x2) = 0) by nra.
  set (d := 2 * (x1 * (y2 - z2) + y1 * (z2 - x2) + z1 * (x2 - y2))) in *.
  assert (D1 : (k1 - m1) * d = 0).
  { replace ((k1 - m1) * d) with (2 * ((z2 - x2) * ((k1 - m1) * (y1 - x1) + (k2 - m2) * (y2 - x2)) - (y2 - x2) * ((k1 - m1) * (z1 - x1) + (k2 - m2) * (z2 - x2)))) by (unfold d; ring).
    rewrite E1, E2. ring. }
  assert (D2 : (k2 - m2) * d = 0).
  { replace ((k2 - m2) * d) with (2 * ((y1 - x1) * ((k1 - m1) * (z1 - x1) + (k2 - m2) * (z2 - x2)) - (z1 - x1) * ((k1 - m1) * (y1 - x1) + (k2 - m2) * (y2 - x2)))) by (unfold d; ring).
    rewrite E1, E2. ring. }
  apply Rmult_integral in D1, D2. f_equal; destruct D1, D2; try contradiction; lra.
Qed.
Lemma center_unique t m m' : center_of_triangle t = Ok m -> center_of t m' -> m' = m.
Proof.
  intros E (A & B & C & HT & D1 & D2). apply distance_sq in D1. apply distance_sq in D2. destruct (triangle_corners A B C t m HT E) as (_ & _ & _ & U). auto.
Qed.
Lemma sides_two t m p : (exists A B C, is_triangle A B C t) -> corner_of t p -> center_of_triangle t = Ok m -> sides_at p t = [t; t].
Proof.
  intros _ (A & B & C & HT & Hp) E. destruct (triangle_corners A B C t m HT E) as (N1 & N2 & N3 & _). destruct HT as (e0 & e1 & e2 & -> & J0 & J1 & J2).
  unfold sides_at, triangle_edges. cbn [filter].
  assert (Q : forall U V e, joins U V e -> edge_contains e p = true <-> p = U \/ p = V).
  { intros U V e [->| ->]; rewrite edge_contains_spec; cbn [fst snd]; split; intros [F|F]; auto. }
  assert (F : forall U V e, joins U V e -> p <> U -> p <> V -> edge_contains e p = false).
  { intros U V e J X Y. destruct (edge_contains e p) eqn:Ee; [|reflexivity]. apply (Q U V e J) in Ee. destruct Ee; contradiction. }
  destruct Hp as [->|[->| ->]].
  - rewrite (proj2 (Q _ _ _ J0)), (F _ _ _ J1), (proj2 (Q _ _ _ J2)) by auto. reflexivity.
  - rewrite (proj2 (Q _ _ _ J0)), (proj2 (Q _ _ _ J1)), (F _ _ _ J2) by auto. reflexivity.
  - rewrite (F _ _ _ J0), (proj2 (Q _ _ _ J1)), (proj2 (Q _ _ _ J2)) by auto. reflexivity.
Qed.
Lemma sides_none t p : (exists A B C, is_triangle A B C t) -> ~ corner_of t p -> sides_at p t = [].
Proof.
  intros (A & B & C & HT) Hn. unfold sides_at. pose proof HT as (e0 & e1 & e2 & -> & J0 & J1 & J2). unfold triangle_edges. cbn [filter].
  assert (F : forall U V e, joins U V e -> U <> p -> V <> p -> edge_contains e p = false).
  { intros U V e J X Y. destruct (edge_contains e p) eqn:Ee; [|reflexivity]. apply edge_contains_spec in Ee. destruct J as [->| ->]; cbn [fst snd] in Ee; destruct Ee; contradiction. }
  assert (NA : A <> p) by (intros ->; apply Hn; exists p, B, C; auto). assert (NB : B <> p) by (intros ->; apply Hn; exists A, p, C; auto).
  assert (NC : C <> p) by (intros ->; apply Hn; exists A, B, p; auto). rewrite (F _ _ _ J0), (F _ _ _ J1), (F _ _ _ J2) by auto. reflexivity.
Qed.

(** each circumcenter is computed twice *)
Lemma twice p tris ms ks : (forall t, In t tris -> exists A B C, is_triangle A B C t) -> circumcenters p tris ms ->
  Forall2 (fun t m => center_of_triangle t = Ok m) (flat_map (sides_at p) tris) ks -> ks = flat_map (fun m => [m; m]) ms.
Proof.
  intros HT H. revert ks. induction H as [|t ts m ms Hc Hm _ IH|t ts ms Hc _ IH]; intros ks F; cbn [flat_map] in F.
  - inversion F. reflexivity.
  - assert (E : exists m0, center_of_triangle t = Ok m0).
    { destruct (center_of_triangle t) as [m0| |] eqn:E; [eauto| |]; exfalso.
      - assert (X : sides_at p t <> []).
        { destruct Hc as (A & B & C & (e0 & e1 & e2 & -> & J0 & J1 & J2) & Hp). unfold sides_at, triangle_edges. cbn [filter].
          assert (edge_contains e0 p = true \/ edge_contains e1 p = true) as [G|G].
          { rewrite !edge_contains_spec. destruct J0 as [->| ->], J1 as [->| ->]; cbn [fst snd]; destruct Hp as [->|[->| ->]]; auto. }
          - rewrite G. discriminate.
          - rewrite G. destruct (edge_contains e0 p); discriminate. }
        destruct (sides_at p t) as [|t' r] eqn:Es; [congruence|]. assert (t' = t).
        { assert (In t' (sides_at p t)) by (rewrite Es; now left). unfold sides_at in H. apply in_map_iff in H. destruct H as (_ & <- & _). reflexivity. }
        subst t'. cbn [app] in F. inversion F. congruence.
      - assert (X : sides_at p t <> []).
        { destruct Hc as (A & B & C & (e0 & e1 & e2 & -> & J0 & J1 & J2) & Hp). unfold sides_at, triangle_edges. cbn [filter].
          assert (edge_contains e0 p = true \/ edge_contains e1 p = true) as [G|G].
          { rewrite !edge_contains_spec. destruct J0 as [->| ->], J1 as [->| ->]; cbn [fst snd]; destruct Hp as [->|[->| ->]]; auto. }
          - rewrite G. discriminate.
          - rewrite G. destruct (edge_contains e0 p); discriminate. }
        destruct (sides_at p t) as [|t' r] eqn:Es; [congruence|]. assert (t' = t).
        { assert (In t' (sides_at p t)) by (rewrite Es; now left). unfold sides_at in H. apply in_map_iff in H. destruct H as (_ & <- & _). reflexivity. }
        subst t'. cbn [app] in F. inversion F. congruence. }
    destruct E as (m0 & E). pose proof (center_unique t m0 m E Hm) as Emm. rewrite (sides_two t m0 p (HT t (or_introl eq_refl)) Hc E) in F. cbn [app] in F.
    inversion F as [|? k1 ? r1 E1 F1]; subst. inversion F1 as [|? k2 ? r2 E2 F2]; subst. cbn [flat_map app].
    rewrite (IH (fun t' Ht => HT t' (or_intror Ht)) r2 F2). rewrite E in E1, E2. injection E1 as <-. injection E2 as <-. reflexivity.
  - rewrite (sides_none t p (HT t (or_introl eq_refl)) Hc) in F. cbn [app] in F. apply IH; auto. intros t' Ht. apply HT. now right.
Qed.

(** ** The computed points *)
Lemma points_are_centers b entries l : (forall x, In x entries -> (2 <= length (snd x))%nat) ->
  (forall x t m, In x entries -> In t (snd x) -> center_of_triangle t = Ok m -> point_is_inside b m = true) ->
  voronoi_points b entries = Ok l -> Forall2 (fun t m => center_of_triangle t = Ok m) (flat_map snd entries) l.
Proof.
  revert l. induction entries as [|(k, ts) r IH]; intros l H2 HI E; cbn [voronoi_points] in E; [injection E as <-; constructor|].
  destruct (voronoi_edge b (k, ts)) as [o| |] eqn:Eo; try discriminate. cbn [obind] in E.
  destruct (voronoi_points b r) as [l'| |]; try discriminate. cbn [obind] in E.
  assert (IH' : Forall2 (fun t m => center_of_triangle t = Ok m) (flat_map snd r) l').
  { apply IH; [intros x Hx; apply H2; now right|intros x t m Hx; apply HI; now right|reflexivity]. }
  pose proof (H2 (k, ts) (or_introl eq_refl)) as Hl. cbn [snd] in Hl.
  unfold voronoi_edge in Eo. cbn [fst snd] in Eo. destruct ts as [|t0 [|t1 [|]]]; try discriminate; [cbn [length] in Hl; lia|].
  unfold double_side in Eo. destruct (center_of_triangle t0) as [m0| |] eqn:E0; try discriminate. destruct (center_of_triangle t1) as [m1| |] eqn:E1; try discriminate. cbn [obind] in Eo.
  rewrite (HI (k, [t0; t1]) t0 m0), (HI (k, [t0; t1]) t1 m1) in Eo by (cbn [In snd]; auto).
  injection Eo as <-. injection E as <-. cbn [flat_map snd app]. repeat constructor; auto.
Qed.
Lemma sum_perm (f : point -> R) l l' : Permutation l l' -> fold_right Rplus 0 (map f l) = fold_right Rplus 0 (map f l').
Proof. induction 1; cbn [map fold_right]; lra. Qed.
Lemma sum_twice (f : point -> R) l : fold_right Rplus 0 (map f (flat_map (fun m => [m; m]) l)) = 2 * fold_right Rplus 0 (map f l).
Proof. induction l as [|a l IH]; cbn [flat_map app map fold_right]; [lra|]. rewrite IH. lra. Qed.
Lemma forall2_perm {A B} (R : A -> B -> Prop) l1 l2 k1 : Permutation l1 l2 -> Forall2 R l1 k1 -> exists k2, Permutation k1 k2 /\ Forall2 R l2 k2.
Proof.
  intros P. revert k1. induction P as [|x l l' _ IH|x y l|l1 l2 l3 _ IH1 _ IH2]; intros k1 F.
  - inversion F. exists []. auto.
  - inversion F as [|? b ? k Rx F']; subst. destruct (IH k F') as (k2 & P2 & F2). exists (b :: k2). auto.
  - inversion F as [|? b ? k Rx F']; subst. inversion F' as [|? c ? k' Ry F'']; subst. exists (c :: b :: k'). split; [apply perm_swap|auto].
  - destruct (IH1 k1 F) as (k2 & P2 & F2). destruct (IH2 k2 F2) as (k3 & P3 & F3). exists k3. split; [eapply Permutation_trans; eassumption|auto].
Qed.
Lemma no_side b p ps : (forall m, In m ps -> edge_index b m = (-1)%Z) -> add_intersection b p ps = Ok ps.
Proof.
  intros H. unfold add_intersection. replace (filter _ ps) with (@nil p2); [reflexivity|]. symmetry.
  induction ps as [|m ps IH]; [reflexivity|]. cbn [filter]. rewrite (H m (or_introl eq_refl)). cbn [Z.eqb Pos.eqb negb]. apply IH. intros; apply H; now right.
Qed.
Lemma hull_closest (P : point -> Prop) p q x : (forall m, P m -> sq m p <= sq m q) -> hull P x -> sq x p <= sq x q.
Proof.
  intros H Hx. induction Hx as [c Hc|a b s _ IHa _ IHb Hs]; [auto|].
  revert IHa IHb Hs. destruct a as [a1 a2], b as [b1 b2], p as [p1 p2'], q as [q1 q2]. unfold sq. cbn [fst snd]. intros IHa IHb Hs.
  assert (X1 : (1 - s) * ((a1 - p1) * (a1 - p1) + (a2 - p2') * (a2 - p2')) <= (1 - s) * ((a1 - q1) * (a1 - q1) + (a2 - q2) * (a2 - q2))) by (apply Rmult_le_compat_l; lra).
  assert (X2 : s * ((b1 - p1) * (b1 - p1) + (b2 - p2') * (b2 - p2')) <= s * ((b1 - q1) * (b1 - q1) + (b2 - q2) * (b2 - q2))) by (apply Rmult_le_compat_l; lra).
  lra.
Qed.
Lemma three {A} (a b c p q r : A) : Permutation [a; b; c] [p; q; r] ->
  p = a /\ (q = b /\ r = c \/ q = c /\ r = b) \/ p = b /\ (q = a /\ r = c \/ q = c /\ r = a) \/ p = c /\ (q = a /\ r = b \/ q = b /\ r = a).
Proof.
  assert (G : forall x y z, Permutation [x; y; z] [p; q; r] -> p = x -> q = y /\ r = z \/ q = z /\ r = y).
  { intros x y z P ->. apply Permutation_cons_inv in P. apply Permutation_length_2_inv in P. destruct P as [P|P]; injection P as -> ->; auto. }
  intros P. assert (I : In p [a; b; c]) by (apply (Permutation_in p (Permutation_sym P)); now left). destruct I as [<-|[<-|[<-|[]]]].
  - left. split; [reflexivity|]. apply (G a b c P); reflexivity.
  - right. left. split; [reflexivity|]. apply (G b a c); [|reflexivity]. eapply Permutation_trans; [apply perm_swap|exact P].
  - right. right. split; [reflexivity|]. apply (G c a b); [|reflexivity]. eapply Permutation_trans; [|exact P]. apply (Permutation_cons_append [a; b] c).
Qed.
Lemma circumcenters_in p tris ms m : circumcenters p tris ms -> In m ms -> exists t, In t tris /\ corner_of t p /\ center_of t m.
Proof.
  induction 1 as [|t ts k ms Hc Hk _ IH|t ts ms Hc _ IH]; [contradiction| |].
  - intros [<-|H]; [exists t; split; [now left|auto]|]. destruct (IH H) as (t' & Ht & Q). exists t'. split; [now right|exact Q].
  - intros H. destruct (IH H) as (t' & Ht & Q). exists t'. split; [now right|exact Q].
Qed.
Lemma circumcenters_all p tris ms t : circumcenters p tris ms -> In t tris -> corner_of t p -> exists m, In m ms /\ center_of t m.
Proof.
  induction 1 as [|t' ts k ms Hc Hk _ IH|t' ts ms Hc _ IH]; [contradiction| |].
  - intros [<-|H] C; [exists k; split; [now left|auto]|]. destruct (IH H C) as (m & Hm & Q). exists m. split; [now right|exact Q].
  - intros [<-|H] C; [contradiction|exact (IH H C)].
Qed.

(** * The cell of an inner point *)
(** A Delaunay triangulation; the triangles at [p] surround it and each of their edges at [p] belongs to two of them; their circumcenters
    are inside the boundary and on none of its sides, not all on one line, and from their mean they are seen at angles that differ by more
    than the 1e-6 of the code (C70).  Then the corners of the cell of [p] are these circumcenters, and the cell consists exactly of the points
    that are at least as close to [p] as to all other points. *)
Theorem C109_inner_partial : forall order boundary tris pts p ms c cell, (forall m, Permutation (order m) m) ->
  (forall t, In t tris -> exists A B C, is_triangle A B C t) -> delaunay tris pts -> (forall q, neighbours tris p q -> In q pts) ->
  (forall q, neighbours tris p q -> in_two tris p q) -> surrounded tris p -> circumcenters p tris ms ->
  (forall m, In m ms -> point_is_inside (polygon_points boundary) m = true /\ edge_index (polygon_points boundary) m = (-1)%Z) ->
  is_mean ms c -> (exists m m' m'', In m ms /\ In m' ms /\ In m'' ms /\ orient m m' m'' <> 0) -> (forall m, In m ms -> m <> c) ->
  (forall m m' a b, In m ms -> In m' ms -> m <> m' -> seen_at c m a -> seen_at c m' b -> / 1000000 < Rabs (a - b)) ->
  voronoi_cell order (polygon_points boundary) tris p = Ok cell ->
  (forall m, In m cell <-> In m ms) /\
  (forall x, hull (fun m => In m cell) x <-> forall q, In q pts -> distance2 x p <= distance2 x q).
Proof.
  intros order boundary tris pts p ms c cell HP HT HD HQ H2 HS HM HI Hc HL HN HA E. set (b := polygon_points boundary) in *.
  unfold voronoi_cell in E. destruct (voronoi_points b _) as [l| |] eqn:El; try discriminate. cbn [obind] in E.
  assert (HE : forall x, In x (filter (fun x => edge_contains (fst x) p) (order (edge_to_triangle tris))) ->
     In x (edge_to_triangle tris) /\ entry_ok tris x /\ edge_contains (fst x) p = true) by (intros x Hx; exact (cell_entries order tris p x HP Hx)).
  assert (Hcor : forall x t, In x (filter (fun x => edge_contains (fst x) p) (order (edge_to_triangle tris))) -> In t (snd x) -> In t tris /\ corner_of t p).
  { intros (k, ts) t Hx Ht. destruct (HE _ Hx) as (_ & (_ & Hall) & Hk). cbn [fst snd] in *. destruct (Hall t Ht) as (Hint & e & Hee & Ek). split; [exact Hint|].
    destruct (HT t Hint) as (A & B & C & HTr). exists A, B, C. split; [exact HTr|].
    apply edge_contains_spec in Hk. apply edge_eqb_spec in Ek. destruct (joined A B C t e HTr Hee) as [[->| ->]|[[->| ->]|[->| ->]]]; cbn [fst snd] in Ek;
      destruct Ek as [->| ->]; cbn [fst snd] in Hk; destruct Hk as [<-|<-]; auto. }
  assert (F : Forall2 (fun t m => center_of_triangle t = Ok m) (at_p p (order (edge_to_triangle tris))) l).
  { apply (points_are_centers b); [| |exact El].
    - intros (k, ts) Hx. destruct (HE _ Hx) as (Hin & (Hne & Hall) & Hk). cbn [fst snd] in *. destruct ts as [|t ts']; [congruence|].
      destruct (Hall t (or_introl eq_refl)) as (Hint & e & Hee & Ek). destruct (neighbours_edge tris t e k p Hint (HT t Hint) Hee Ek Hk) as (w & Hw & HNb).
      rewrite <- (stored_entry _ k (t :: ts') (distinct_all tris) Hin). apply (two_stored tris p w k (H2 w HNb) Hw).
    - intros x t m Hx Ht Em. destruct (Hcor x t Hx Ht) as (Hint & Hcp). destruct (circumcenters_all p tris ms t HM Hint Hcp) as (m' & Hm' & Hcen).
      rewrite (center_unique t m m' Em Hcen) in Hm'. apply (HI m Hm'). }
  assert (P1 : Permutation (at_p p (order (edge_to_triangle tris))) (flat_map (sides_at p) tris)).
  { eapply Permutation_trans; [apply at_order, HP|apply at_all]. }
  destruct (forall2_perm _ _ _ _ P1 F) as (ks & PK & FK). rewrite (twice p tris ms ks HT HM FK) in PK. clear FK ks.
  assert (IL : forall m, In m l <-> In m ms).
  { intros m. split; intros H.
    - apply (Permutation_in m PK) in H. apply in_flat_map in H. destruct H as (m' & Hm' & [<-|[<-|[]]]); exact Hm'.
    - apply (Permutation_in m (Permutation_sym PK)). apply in_flat_map. exists m. split; [exact H|now left]. }
  destruct (polygon_star l c) as (_ & IP).
  { destruct Hc as (C1 & C2). split; rewrite (sum_perm _ _ _ PK), sum_twice; (etransitivity; [apply f_equal; first [exact C1|exact C2]|ring]). }
  { destruct HL as (m & m' & m'' & A1 & A2 & A3 & O). exists m, m', m''. rewrite !IL. auto. }
  { intros m Hm. apply HN, IL, Hm. }
  { intros m m' a a' Hm Hm'. apply HA; apply IL; assumption. }
  rewrite (no_side b p (polygon_points l)) in E by (intros m Hm; apply HI, IL, IP, Hm). injection E as <-.
  assert (IC : forall m, In m (polygon_points l) <-> In m ms) by (intros m; rewrite IP; apply IL).
  split; [exact IC|]. intros x. split.
  - intros Hx q Hq. apply distance_sq_le. apply (hull_closest _ p q x) in Hx; [exact Hx|]. intros m Hm. apply IC in Hm.
    destruct (circumcenters_in p tris ms m HM Hm) as (t & Ht & (A & B & C & HTr & Hcp) & Hcen).
    assert (Sp : distance2 m A = distance2 m p /\ distance2 m A <= distance2 m q).
    { destruct Hcen as (A' & B' & C' & HTr' & D1 & D2).
      assert (X : forall W, W = A \/ W = B \/ W = C -> W = A' \/ W = B' \/ W = C').
      { destruct HTr as (e0 & e1 & e2 & Et & J0 & J1 & J2), HTr' as (f0 & f1 & f2 & Ef & K0 & K1 & K2). rewrite Et in Ef. injection Ef as <- <- <-.
        intros W [->|[->| ->]].
        - destruct J0 as [->| ->], K0 as [K|K]; injection K as <- <-; auto.
        - destruct J0 as [->| ->], K0 as [K|K]; injection K as <- <-; auto.
        - destruct J2 as [->| ->], K2 as [K|K]; injection K as <- <-; auto. }
      assert (G : forall W, W = A \/ W = B \/ W = C -> distance2 m W = distance2 m A') by (intros W HW; destruct (X W HW) as [->|[->| ->]]; congruence).
      rewrite (G A) by auto. rewrite (G p Hcp). split; [reflexivity|]. exact (HD t A' B' C' m q Ht HTr' D1 D2 Hq). }
    apply distance_sq_le. destruct Sp as (<- & S2). exact S2.
  - intros Hx. apply (cover (polygon_points l) p x (neighbours tris p)); [|intros q Hq; apply distance_sq_le, Hx, HQ, Hq].
    intros a0 b0. destruct (HS a0 b0) as (t & A & B & C & q & q' & s & r & Ht & HTr & Pm & S & T & Ea & Eb).
    assert (Hcp : corner_of t p).
    { exists A, B, C. split; [exact HTr|]. assert (X : In p [A; B; C]) by (apply (Permutation_in p (Permutation_sym Pm)); now left).
      destruct X as [<-|[<-|[<-|[]]]]; auto. }
    destruct (circumcenters_all p tris ms t HM Ht Hcp) as (m & Hm & Hcen).
    assert (Es : exists m0, center_of_triangle t = Ok m0).
    { assert (X : In t (at_p p (order (edge_to_triangle tris)))).
      { apply (Permutation_in t (Permutation_sym P1)). apply in_flat_map. exists t. split; [exact Ht|].
        destruct HTr as (e0 & e1 & e2 & -> & J0 & J1 & J2). unfold sides_at, triangle_edges. cbn [filter].
        assert (In p [A; B; C]) as Hi by (apply (Permutation_in p (Permutation_sym Pm)); now left).
        assert (edge_contains e0 p = true \/ edge_contains e1 p = true) as [G|G].
        { rewrite !edge_contains_spec. destruct J0 as [->| ->], J1 as [->| ->]; cbn [fst snd]; destruct Hi as [->|[->|[->|[]]]]; auto. }
        - rewrite G. cbn [map]. now left.
        - rewrite G. destruct (edge_contains e0 p); cbn [map]; now left. }
      clear - X F. induction F as [|t1 m1 ts l' E1 _ IH]; [contradiction|]. destruct X as [<-|X]; [eauto|auto]. }
    destruct Es as (m0 & Es). rewrite (center_unique t m0 m Es Hcen) in *. clear m Hcen.
    destruct (center_sq A B C t m0 HTr Es) as (S1 & S2).
    assert (G : forall W, In W [p; q; q'] -> sq m0 W = sq m0 A).
    { intros W HW. apply (Permutation_in W (Permutation_sym Pm)) in HW. destruct HW as [<-|[<-|[<-|[]]]]; congruence. }
    assert (NBR : forall w, w = q \/ w = q' -> neighbours tris p w).
    { intros w Hw. exists t, A, B, C. split; [exact Ht|]. split; [exact HTr|].
      destruct (three _ _ _ _ _ _ Pm) as [(-> & X)|[(-> & X)|(-> & X)]]; destruct X as [(-> & ->)|(-> & ->)]; destruct Hw as [->| ->]; tauto. }
    exists q, q', m0, s, r. split; [apply NBR; auto|]. split; [apply NBR; auto|]. split; [apply IC; exact Hm|].
    rewrite (G p), (G q), (G q') by (cbn; auto). auto 10.
Qed.
Print Assumptions C109_inner_partial.
(** the cell of the point in the middle of a triangle in a square: all hypotheses hold, the cell is the triangle of the circumcenters *)
Example C109_inner_case : forall x, hull (fun m => In m [(-6, 2); (6, 2); (0, -4)]) x <-> forall q, In q [oo; aa; bb; cc] -> distance2 x oo <= distance2 x q.
Proof.
  destruct C109_example as (HT & HD & H2 & HI & E).
  assert (CO : forall t, In t [t_ab; t_bc; t_ca] -> corner_of t oo).
  { intros t [<-|[<-|[<-|[]]]]; do 3 eexists; (split; [do 3 eexists; split; [reflexivity|]; unfold joins; split; [left; reflexivity|split; [left; reflexivity|left; reflexivity]]|now left]). }
  assert (CE : center_of t_ab (-6, 2) /\ center_of t_bc (0, -4) /\ center_of t_ca (6, 2)).
  { split; [|split]; do 3 eexists; (split; [do 3 eexists; split; [reflexivity|]; unfold joins; split; [left; reflexivity|split; [left; reflexivity|left; reflexivity]]|]);
      (split; apply sq_distance; unfold sq; pp; cbn [fst snd]; lra). }
  destruct CE as (CE1 & CE2 & CE3).
  apply (C109_inner_partial (fun m => m) (square 8) [t_ab; t_bc; t_ca] [oo; aa; bb; cc] oo [(-6, 2); (0, -4); (6, 2)] (0, 0)); auto.
  - intros q (t & A & B & C & Ht & HTr & Hq).
    assert (X : In q [A; B; C]) by (destruct Hq as [(E1 & E2)|[(E1 & E2)|[(E1 & E2)|[(E1 & E2)|[(E1 & E2)|(E1 & E2)]]]]]; rewrite E2; cbn; auto).
    destruct (star_triangles t A B C Ht HTr) as [(-> & P)|[(-> & P)|(-> & P)]]; apply (Permutation_in q P) in X; cbn [In] in X |- *; tauto.
  - intros a b.
    assert (G : forall t q q' s r, In t [t_ab; t_bc; t_ca] -> is_triangle oo q q' t -> 0 <= s -> 0 <= r -> a = s * fst q + r * fst q' -> b = s * snd q + r * snd q' ->
      exists t A B C q q' s r, In t [t_ab; t_bc; t_ca] /\ is_triangle A B C t /\ Permutation [A; B; C] [oo; q; q'] /\ 0 <= s /\ 0 <= r /\
        a = s * (fst q - fst oo) + r * (fst q' - fst oo) /\ b = s * (snd q - snd oo) + r * (snd q' - snd oo)).
    { intros t q q' s r Ht HTr S R E1 E2. exists t, oo, q, q', q, q', s, r. split; [exact Ht|]. split; [exact HTr|]. split; [apply Permutation_refl|].
      unfold oo. cbn [fst snd]. rewrite E1, E2. repeat split; auto; ring. }
    destruct (Rle_or_lt 0 a) as [La|La].
    + destruct (Rle_or_lt (- a) b) as [Lb|Lb].
      * apply (G t_ca cc aa (a / 4) ((b + a) / 4)); [cbn; auto| | | | |]; try (unfold cc, aa; cbn [fst snd]; lra).
        do 3 eexists. split; [reflexivity|]. unfold joins. auto.
      * apply (G t_bc bb cc ((- b - a) / 8) ((a - b) / 8)); [cbn; auto| | | | |]; try (unfold bb, cc; cbn [fst snd]; lra).
        do 3 eexists. split; [reflexivity|]. unfold joins. auto.
    + destruct (Rle_or_lt a b) as [Lb|Lb].
      * apply (G t_ab aa bb ((b - a) / 4) (- a / 4)); [cbn; auto| | | | |]; try (unfold aa, bb; cbn [fst snd]; lra).
        do 3 eexists. split; [reflexivity|]. unfold joins. auto.
      * apply (G t_bc bb cc ((- b - a) / 8) ((a - b) / 8)); [cbn; auto| | | | |]; try (unfold bb, cc; cbn [fst snd]; lra).
        do 3 eexists. split; [reflexivity|]. unfold joins. auto.
  - repeat (apply cc_in; [apply CO; cbn; auto|assumption|]). apply cc_nil.
  - intros m Hm. split.
    + rewrite square_points by lra. destruct Hm as [<-|[<-|[<-|[]]]]; apply square_inside; cbn [fst snd]; lra.
    + rewrite square_points by lra. destruct Hm as [<-|[<-|[<-|[]]]]; unfold edge_index, sorted_square; cbn [cyclic_edges combine app edge_index_from];
        rewrite (distance_vertical (- (8)) (- (8)) 8), (distance_horizontal (- (8)) 8 8), (distance_vertical 8 8 (- (8))), (distance_horizontal 8 (- (8)) (- (8))) by lra;
        cbn [param_test fst snd]; rabs; reflexivity.
  - split; cbn [map fold_right fst snd]; lra.
  - exists (-6, 2), (0, -4), (6, 2). split; [cbn; auto|]. split; [cbn; auto|]. split; [cbn; auto|]. unfold orient. cbn [fst snd]. lra.
  - intros m [<-|[<-|[<-|[]]]] Q; injection Q; intros; lra.
  - intros p q a b Hp Hq N Sp Sq. apply (far_apart _ _ _ _ _ Sp Sq). clear Sp Sq.
    destruct Hp as [<-|[<-|[<-|[]]]]; destruct Hq as [<-|[<-|[<-|[]]]]; cbv zeta; cbn [fst snd]; solve [congruence|left; lra|right; lra].
Qed.
