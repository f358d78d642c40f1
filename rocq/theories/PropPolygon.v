(** C104: line, segment and boundary queries of polygons. *)
From Coq Require Import Reals ZArith List Bool Arith Lia Lra Psatz.
From Verif Require Import Outcome AdaptiveModel AdaptiveProofs CollisionModel CollisionProofs2 DelaunayModel DelaunaySpec
  DelaunayProofs DelaunayProofs2 PolygonModel PolygonSpec PropDelaunay.
Import ListNotations.
Local Open Scope R_scope.

Lemma parameter_iff : forall A B P d t, ~ parallel A B d -> 0 < t -> (line_parameter (A, B) P d = Some t <-> on_segment A B (along P d t)).
Proof.
  intros [ax ay] [bx by_] [x y] [dx dy] t HP Ht. unfold parallel, on_segment, along, line_parameter, sub2, px, py in *. cbn [fst snd] in *.
  destruct (reqb_spec ((bx - ax) * dy - (by_ - ay) * dx) 0) as [(_ & E)|(-> & E)]; [contradiction|].
  set (e := ((x - ax) * dy - (y - ay) * dx) / ((bx - ax) * dy - (by_ - ay) * dx)).
  set (l := ((y - ay) * (bx - ax) - (x - ax) * (by_ - ay)) / - ((bx - ax) * dy - (by_ - ay) * dx)).
  assert (PX : x + l * dx = ax + e * (bx - ax)) by (unfold e, l; field; lra).
  assert (PY : y + l * dy = ay + e * (by_ - ay)) by (unfold e, l; field; lra).
  assert (U : forall t' l', x + t' * dx = ax + l' * (bx - ax) -> y + t' * dy = ay + l' * (by_ - ay) -> t' = l /\ l' = e).
  { intros t' l' E1 E2. assert (X1 : (t' - l) * dx = (l' - e) * (bx - ax)) by lra. assert (X2 : (t' - l) * dy = (l' - e) * (by_ - ay)) by lra.
    assert (Z1 : (l' - e) * ((bx - ax) * dy - (by_ - ay) * dx) = 0).
    { replace ((l' - e) * ((bx - ax) * dy - (by_ - ay) * dx)) with (((l' - e) * (bx - ax)) * dy - ((l' - e) * (by_ - ay)) * dx) by ring.
      rewrite <- X1, <- X2. ring. }
    assert (Z2 : (t' - l) * ((bx - ax) * dy - (by_ - ay) * dx) = 0).
    { replace ((t' - l) * ((bx - ax) * dy - (by_ - ay) * dx)) with ((bx - ax) * ((t' - l) * dy) - (by_ - ay) * ((t' - l) * dx)) by ring.
      rewrite X1, X2. ring. }
    apply Rmult_integral in Z1, Z2. lra. }
  clearbody e l. split.
  - destruct (rltb_spec e 0) as [(-> & L)|(-> & L)]; cbn [orb]; [intro H; injection H as H; lra|].
    destruct (rltb_spec 1 e) as [(-> & L')|(-> & L')]; [intro H; injection H as H; lra|]. intro H. injection H as <-. exists e. split; [lra|]. split; assumption.
  - intros (l' & Hl & E1 & E2). destruct (U t l' E1 E2) as (-> & ->).
    destruct (rltb_spec e 0) as [(_ & L)|(-> & _)]; [lra|]. destruct (rltb_spec 1 e) as [(_ & L)|(-> & _)]; [lra|]. reflexivity.
Qed.
Lemma parameter_parallel : forall A B P d, parallel A B d -> line_parameter (A, B) P d = None.
Proof.
  intros [ax ay] [bx by_] [x y] [dx dy] HP. unfold parallel, line_parameter, sub2, px, py in *. cbn [fst snd] in *.
  destruct (reqb_spec ((bx - ax) * dy - (by_ - ay) * dx) 0) as [(-> & _)|(_ & E)]; [reflexivity|contradiction].
Qed.
Lemma parallel_dec : forall A B d, parallel A B d \/ ~ parallel A B d.
Proof. intros. unfold parallel. apply Req_dec. Qed.

(** A positive line parameter is returned exactly where the line meets the edge, and never for an edge parallel to the line *)
Theorem C104_line_parameter : forall A B P d t, 0 < t ->
  (line_parameter (A, B) P d = Some t <-> ~ parallel A B d /\ on_segment A B (along P d t)).
Proof.
  intros A B P d t Ht. destruct (parallel_dec A B d) as [HP|HP].
  - rewrite parameter_parallel by exact HP. split; [discriminate|tauto].
  - rewrite parameter_iff by assumption. tauto.
Qed.
Print Assumptions C104_line_parameter.

(** SegmentIntersects is right for segments that are not parallel to a side.  Missing for the full claim: segments along a side (refuted below) *)
Theorem C104_segment_partial : forall ps p0 p1, let d := (fst p1 - fst p0, snd p1 - snd p0) in
  (segment_intersects ps p0 p1 = true -> exists t, 0 < t < 1 /\ meets ps p0 d t) /\
  ((forall A B, side_of ps A B -> ~ parallel A B d) -> (exists t, 0 < t < 1 /\ meets ps p0 d t) -> segment_intersects ps p0 p1 = true).
Proof.
  intros ps p0 p1 d. unfold segment_intersects. change (sub2 p1 p0) with d. split.
  - intro H. apply existsb_exists in H. destruct H as ([A B] & He & H). unfold param_test in H. destruct (line_parameter (A, B) p0 d) as [l|] eqn:E; [|discriminate].
    destruct (rltb_spec 0 l) as [(E0 & L0)|(E0 & _)]; rewrite E0 in H; [|discriminate]. destruct (rltb_spec l 1) as [(E1 & L1)|(E1 & _)]; rewrite E1 in H; [|discriminate].
    apply C104_line_parameter in E; [|exact L0]. exists l. split; [lra|]. exists A, B. split; [now apply side_of_edges|tauto].
  - intros HP (t & Ht & A & B & HS & HO). apply existsb_exists. exists (A, B). split; [now apply side_of_edges|].
    assert (E : line_parameter (A, B) p0 d = Some t) by (apply C104_line_parameter; [lra|auto]). rewrite E. cbn [param_test].
    destruct (rltb_spec 0 t) as [(-> & _)|(_ & L)]; [|lra]. destruct (rltb_spec t 1) as [(-> & _)|(_ & L)]; [reflexivity|lra].
Qed.
Print Assumptions C104_segment_partial.

(** GetClosestIntersection returns the first point behind P (beyond 1e-10 of the direction) where the line meets a side that is not
    parallel to it, if there is one up to 1e10; otherwise P + 1e10 d *)
Theorem C104_closest_partial : forall ps P d,
  (exists A B t, side_of ps A B /\ ~ parallel A B d /\ / 10000000000 < t < 10000000000 /\ on_segment A B (along P d t)) ->
  exists t, closest_intersection ps P d = along P d t /\ / 10000000000 < t < 10000000000 /\ meets ps P d t /\
    forall A B t', side_of ps A B -> ~ parallel A B d -> / 10000000000 < t' -> on_segment A B (along P d t') -> t <= t'.
Proof.
  intros ps P d (A0 & B0 & t0 & HS0 & HP0 & Ht0 & HO0).
  set (step := fun acc e => match line_parameter e P d with
                          | Some l => if rltb (/ 10000000000) l then (if rltb l acc then l else acc) else acc
                          | None => acc end).
  set (good := fun (es : list edge) t => exists A B, In (A, B) es /\ line_parameter (A, B) P d = Some t /\ / 10000000000 < t).
  assert (G : forall es acc, let r := fold_left step es acc in
     r <= acc /\ (r = acc \/ good es r) /\ forall t, good es t -> r <= t).
  { induction es as [|[A B] es IH]; intros acc r; unfold r; cbn [fold_left].
    - split; [lra|]. split; [now left|]. intros t (A & B & [] & _).
    - assert (K : step acc (A, B) <= acc /\ (step acc (A, B) = acc \/ (line_parameter (A, B) P d = Some (step acc (A, B)) /\ / 10000000000 < step acc (A, B))) /\
                forall t, line_parameter (A, B) P d = Some t -> / 10000000000 < t -> step acc (A, B) <= t).
      { unfold step. destruct (line_parameter (A, B) P d) as [l|]; [|split; [lra|split; [now left|discriminate]]].
        destruct (rltb_spec (/ 10000000000) l) as [(-> & L)|(-> & L)].
        - destruct (rltb_spec l acc) as [(-> & L')|(-> & L')].
          + split; [lra|]. split; [auto|]. intros t E _. injection E as <-. lra.
          + split; [lra|]. split; [now left|]. intros t E _. injection E as <-. lra.
        - split; [lra|]. split; [now left|]. intros t E Z. injection E as <-. lra. }
      destruct K as (K1 & K2 & K3). destruct (IH (step acc (A, B))) as (I1 & I2 & I3). split; [lra|]. split.
      + destruct I2 as [I2|(X & Y & HXY & E & L)]; [|right; exists X, Y; split; [now right|auto]].
        rewrite I2. destruct K2 as [K2|(K2 & K4)]; [left; exact K2|right; exists A, B; split; [now left|auto]].
      + intros t (X & Y & [E|HXY] & E2 & L); [injection E as <- <-; specialize (K3 t E2 L); lra|]. apply I3. exists X, Y. auto. }
  destruct (G (cyclic_edges ps) 10000000000) as (G1 & G2 & G3). fold (closest_parameter ps P d) in G1, G2, G3.
  change (fold_left step (cyclic_edges ps) 10000000000) with (closest_parameter ps P d) in G1, G2, G3.
  assert (SG : forall A B t, side_of ps A B -> ~ parallel A B d -> / 10000000000 < t -> on_segment A B (along P d t) -> good (cyclic_edges ps) t).
  { intros A B t HS HP L HO. exists A, B. split; [now apply side_of_edges|]. split; [apply C104_line_parameter; [lra|auto]|exact L]. }
  pose proof (G3 t0 (SG A0 B0 t0 HS0 HP0 ltac:(lra) HO0)) as Lt.
  destruct G2 as [G2|(A & B & HE & E & L)]; [lra|].
  exists (closest_parameter ps P d). split.
  - unfold closest_intersection, along, px, py. f_equal; ring.
  - split; [lra|]. split.
    + exists A, B. split; [now apply side_of_edges|]. apply C104_line_parameter in E; [tauto|lra].
    + intros X Y t' HS HP L' HO. apply G3. apply (SG X Y); auto.
Qed.
Print Assumptions C104_closest_partial.

Lemma distance_sq : forall A B : p2, A <> B -> 0 < (fst B - fst A) * (fst B - fst A) + (snd B - snd A) * (snd B - snd A).
Proof.
  intros [ax ay] [bx by_] H. cbn [fst snd]. destruct (Req_dec bx ax) as [->|N1]; [destruct (Req_dec by_ ay) as [->|N2]; [congruence|]|].
  - assert (Z : by_ - ay <> 0) by lra. apply Rsqr_pos_lt in Z. pose proof (Rle_0_sqr (by_ - ay)); unfold Rsqr in *; lra.
  - assert (Z : bx - ax <> 0) by lra. apply Rsqr_pos_lt in Z. pose proof (Rle_0_sqr (bx - ax)); pose proof (Rle_0_sqr (by_ - ay)); unfold Rsqr in *; lra.
Qed.
(** GetDistance is the distance to the line through both ends: the smallest distance to a point of that line *)
Theorem C104_distance : forall A B P, A <> B -> exists r, edge_distance (A, B) P = Some r /\ r = line_distance A B P /\
  (forall l, r <= distance2 P (fst A + l * (fst B - fst A), snd A + l * (snd B - snd A))) /\
  exists l, r = distance2 P (fst A + l * (fst B - fst A), snd A + l * (snd B - snd A)).
Proof.
  intros A B P N. pose proof (distance_sq A B N) as D. destruct A as [ax ay], B as [bx by_], P as [x y]. cbn [fst snd] in *.
  unfold edge_distance, sub2, dot2, px, py. cbn [fst snd]. set (D2 := (bx - ax) * (bx - ax) + (by_ - ay) * (by_ - ay)) in *.
  destruct (reqb_spec D2 0) as [(_ & Z)|(-> & _)]; [lra|]. eexists. split; [reflexivity|].
  set (o := (bx - ax) * (y - ay) - (by_ - ay) * (x - ax)). set (a := (x - ax) * (bx - ax) + (y - ay) * (by_ - ay)).
  set (w2 := (x - ax - a * (bx - ax) / D2) * (x - ax - a * (bx - ax) / D2) + (y - ay - a * (by_ - ay) / D2) * (y - ay - a * (by_ - ay) / D2)).
  assert (W : w2 = o * o / D2) by (unfold w2, o, a, D2; field; unfold D2 in D; lra).
  assert (SM : forall l, (x - (ax + l * (bx - ax)))² + (y - (ay + l * (by_ - ay)))² = w2 + D2 * ((l - a / D2) * (l - a / D2))).
  { intro l. rewrite W. unfold Rsqr, o, a, D2. field. unfold D2 in D; lra. }
  split; [|split].
  - unfold line_distance, distance2, orient. cbn [fst snd]. fold o. rewrite W.
    replace ((ax - bx)² + (ay - by_)²) with D2 by (unfold D2, Rsqr; ring). unfold Rdiv. rewrite sqrt_mult_alt by (fold (Rsqr o); apply Rle_0_sqr).
    rewrite <- sqrt_inv. f_equal. fold (Rsqr o). apply sqrt_Rsqr_abs.
  - intro l. unfold distance2. cbn [fst snd]. rewrite SM. apply sqrt_le_1_alt.
    assert (0 <= (l - a / D2) * (l - a / D2)) by (fold (Rsqr (l - a / D2)); apply Rle_0_sqr). nra.
  - exists (a / D2). unfold distance2. cbn [fst snd]. rewrite SM. f_equal. ring.
Qed.
Print Assumptions C104_distance.

Lemma index_from : forall P es i, (forall A B, In (A, B) es -> A <> B) ->
  (edge_index_from i es P = (-1)%Z -> (0 <= i)%Z -> forall A B, In (A, B) es -> / 100000000 <= line_distance A B P) /\
  (forall k, edge_index_from i es P = k -> k <> (-1)%Z -> exists n A B, (k = i + Z.of_nat n)%Z /\ nth_error es n = Some (A, B) /\ line_distance A B P < / 100000000).
Proof.
  intros P es. induction es as [|[A B] es IH]; intros i HN; cbn [edge_index_from].
  - split; [intros _ _ A B []|]. intros k <- H. contradiction.
  - destruct (C104_distance A B P (HN A B (or_introl eq_refl))) as (r & E & R1 & _). rewrite E. cbn [param_test].
    destruct (IH (i + 1)%Z) as (I1 & I2); [intros X Y H; apply HN; now right|].
    destruct (rltb_spec r (/ 100000000)) as [(-> & L)|(-> & L)].
    + split; [intros; lia|]. intros k <- _. exists 0%nat, A, B. split; [lia|]. split; [reflexivity|]. lra.
    + split.
      * intros H0 H1 X Y [H|H]; [injection H as <- <-; lra|]. apply I1; auto. lia.
      * intros k Hk Nk. destruct (I2 k Hk Nk) as (n & X & Y & -> & Hn & L'). exists (S n), X, Y. split; [lia|]. split; assumption.
Qed.
(** GetEdgeIndex: minus one only for points that are on no side; an index always of a side on whose line the point lies.  Missing for the full
    claim: that the point lies on the side itself (refuted below) *)
Theorem C104_edge_index_partial : forall ps P, (forall A B, side_of ps A B -> A <> B) ->
  (edge_index ps P = (-1)%Z -> forall A B, side_of ps A B -> ~ on_segment A B P /\ / 100000000 <= line_distance A B P) /\
  (edge_index ps P <> (-1)%Z -> exists A B, side_of ps A B /\ nth_error (cyclic_edges ps) (Z.to_nat (edge_index ps P)) = Some (A, B) /\ line_distance A B P < / 100000000).
Proof.
  intros ps P HN. assert (HN' : forall A B, In (A, B) (cyclic_edges ps) -> A <> B) by (intros A B H; apply HN; now apply side_of_edges).
  destruct (index_from P (cyclic_edges ps) 0%Z HN') as (I1 & I2). fold (edge_index ps P) in I1, I2. split.
  - intros E A B HS. assert (L : / 100000000 <= line_distance A B P) by (apply I1; [exact E|lia|now apply side_of_edges]). split; [|exact L].
    intros (l & _ & X & Y). unfold line_distance in L. replace (orient A B P) with 0 in L by (unfold orient; rewrite X, Y; ring). rewrite Rabs_R0 in L.
    unfold Rdiv in L. rewrite Rmult_0_l in L. lra.
  - intro N. destruct (I2 _ eq_refl N) as (n & A & B & E & Hn & L). exists A, B. split; [apply side_of_edges; eapply nth_error_In; exact Hn|].
    rewrite E. replace (Z.to_nat (0 + Z.of_nat n)) with n by lia. auto.
Qed.
Print Assumptions C104_edge_index_partial.

Definition unit_square : list (R * R) := [(0, 0); (1, 0); (1, 1); (0, 1)].
(** a point far away on the line through a side is reported to lie on the side *)
Theorem C104_edge_index_refuted : exists P, (forall A B, side_of unit_square A B -> ~ on_segment A B P) /\ edge_index unit_square P = 0%Z.
Proof.
  exists (5, 0). split.
  - intros A B HS. apply side_square in HS. intros (l & Hl & X & Y).
    destruct HS as [(-> & ->)|[(-> & ->)|[(-> & ->)|(-> & ->)]]]; cbn [fst snd] in *; lra.
  - unfold edge_index, unit_square. cbn [cyclic_edges combine List.app edge_index_from].
    destruct (C104_distance (0, 0) (1, 0) (5, 0)) as (r & -> & -> & _); [pneq|]. cbn [param_test].
    unfold line_distance, orient. cbn [fst snd]. replace ((1 - 0) * (0 - 0) - (0 - 0) * (5 - 0)) with 0 by ring. rewrite Rabs_R0. unfold Rdiv. rewrite Rmult_0_l.
    destruct (rltb_spec 0 (/ 100000000)) as [(-> & _)|(_ & L)]; [reflexivity|lra].
Qed.
Print Assumptions C104_edge_index_refuted.
(** a segment that runs along a side is reported not to intersect the polygon: here even one that lies in the side *)
Theorem C104_segment_refuted : exists p0 p1, (exists t, 0 < t < 1 /\ meets unit_square p0 (fst p1 - fst p0, snd p1 - snd p0) t) /\
  segment_intersects unit_square p0 p1 = false.
Proof.
  exists (1/4, 0), (3/4, 0). split.
  - exists (1/2). split; [lra|]. exists (0, 0), (1, 0). split; [exists 0%nat; cbn; auto|]. exists (1/2). unfold along. cbn [fst snd]. split; [lra|]. split; lra.
  - destruct (segment_intersects unit_square (1 / 4, 0) (3 / 4, 0)) eqn:E; trivial. exfalso. unfold segment_intersects in E.
    apply existsb_exists in E. destruct E as ([A B] & He & H). apply side_of_edges in He. apply side_square in He. unfold param_test in H.
    destruct (line_parameter (A, B) (1 / 4, 0) (sub2 (3 / 4, 0) (1 / 4, 0))) as [l|] eqn:EL; [|discriminate].
    destruct (rltb_spec 0 l) as [(E0 & L0)|(E0 & _)]; rewrite E0 in H; [|discriminate]. destruct (rltb_spec l 1) as [(E1 & L1)|(E1 & _)]; rewrite E1 in H; [|discriminate].
    apply C104_line_parameter in EL; [|exact L0]. destruct EL as (NP & k & Hk & X & Y). unfold parallel, along, sub2, px, py in *. cbn [fst snd] in *.
    destruct He as [(-> & ->)|[(-> & ->)|[(-> & ->)|(-> & ->)]]]; cbn [fst snd] in *; lra.
Qed.
Print Assumptions C104_segment_refuted.
(** a line that does not meet the polygon still gets an "intersection" *)
Theorem C104_no_intersection_refuted : exists P d, ~ (exists t, 0 <= t /\ meets unit_square P d t) /\
  closest_intersection unit_square P d = (10000000002, 0).
Proof.
  exists (2, 0), (1, 0). split.
  - intros (t & Ht & A & B & HS & l & Hl & X & Y). apply side_square in HS. unfold along in *.
    destruct HS as [(-> & ->)|[(-> & ->)|[(-> & ->)|(-> & ->)]]]; cbn [fst snd] in *; lra.
  - assert (E : closest_parameter unit_square (2, 0) (1, 0) = 10000000000).
    { unfold closest_parameter. assert (Z : forall A B, side_of unit_square A B -> forall t, / 10000000000 < t -> line_parameter (A, B) (2, 0) (1, 0) <> Some t).
      { intros A B HS t Ht EL. apply C104_line_parameter in EL; [|lra]. destruct EL as (_ & l & Hl & X & Y). apply side_square in HS. unfold along in *.
        destruct HS as [(-> & ->)|[(-> & ->)|[(-> & ->)|(-> & ->)]]]; cbn [fst snd] in *; lra. }
      assert (F : forall es acc, (forall A B, In (A, B) es -> side_of unit_square A B) ->
        fold_left (fun acc e => match line_parameter e (2, 0) (1, 0) with
                          | Some l => if rltb (/ 10000000000) l then (if rltb l acc then l else acc) else acc
                          | None => acc end) es acc = acc).
      { induction es as [|[A B] es IH]; intros acc H; [reflexivity|]. cbn [fold_left]. rewrite IH by (intros; apply H; now right).
        destruct (line_parameter (A, B) (2, 0) (1, 0)) as [l|] eqn:EL; [|reflexivity]. destruct (rltb_spec (/ 10000000000) l) as [(-> & L)|(-> & _)]; [|reflexivity].
        exfalso. exact (Z A B (H A B (or_introl eq_refl)) l L EL). }
      apply F. intros A B H. now apply side_of_edges. }
    unfold closest_intersection. rewrite E. unfold px, py. cbn [fst snd]. f_equal; ring.
Qed.
Print Assumptions C104_no_intersection_refuted.

(** the hypotheses: a segment through two sides of the unit square, and the ray from its middle *)
Example C104_hypotheses : (exists t, 0 < t < 1 /\ meets unit_square (1/2, 1/3) (2 - 1/2, 1/2 - 1/3) t) /\
  (forall A B, side_of unit_square A B -> ~ parallel A B (2 - 1/2, 1/2 - 1/3) /\ A <> B) /\
  (exists A B t, side_of unit_square A B /\ ~ parallel A B (1, 0) /\ / 10000000000 < t < 10000000000 /\ on_segment A B (along (1/2, 1/3) (1, 0) t)).
Proof.
  split; [|split].
  - exists (1/3). split; [lra|]. exists (1, 0), (1, 1). split; [exists 1%nat; cbn; auto|]. exists (1/3 + 1/18). unfold along. cbn [fst snd]. split; [lra|]. split; lra.
  - intros A B HS. apply side_square in HS. unfold parallel.
    destruct HS as [(-> & ->)|[(-> & ->)|[(-> & ->)|(-> & ->)]]]; cbn [fst snd]; (split; [lra|pneq]).
  - exists (1, 0), (1, 1), (1/2). split; [exists 1%nat; cbn; auto|]. unfold parallel, along. cbn [fst snd]. split; [lra|]. split; [lra|].
    exists (1/3). cbn [fst snd]. split; [lra|]. split; lra.
Qed.
