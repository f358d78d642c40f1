(** The edges of Voronoi cells that run from a hull edge to the boundary *)
From Coq Require Import Reals ZArith List Bool Arith Lia Lra Psatz Permutation.
From Verif Require Import PropDelaunay Outcome AdaptiveModel AdaptiveProofs CollisionModel CollisionProofs2 DelaunayModel DelaunaySpec DelaunayProofs StarProofs3
  PolygonModel PolygonSpec PropPolygon VoronoiCellModel VoronoiCellSpec VoronoiCellProofs PropVoronoiCell.
Import ListNotations.
Local Open Scope R_scope.

Lemma closest_nonneg ps p d : 0 <= closest_parameter ps p d.
Proof.
  unfold closest_parameter.
  assert (G : forall es acc, 0 <= acc -> 0 <= fold_left (fun acc e => match line_parameter e p d with
     | Some l => if rltb (/ 10000000000) l then (if rltb l acc then l else acc) else acc | None => acc end) es acc).
  { induction es as [|e es IH]; intros acc H; cbn [fold_left]; [exact H|]. apply IH. destruct (line_parameter e p d) as [l|]; [|exact H].
    destruct (rltb_spec (/ 10000000000) l) as [(-> & L)|(-> & _)]; [|exact H]. destruct (rltb l acc); [lra|exact H]. }
  apply G. lra.
Qed.
(** a vector that is orthogonal to two independent ones vanishes *)
Lemma orthogonal_zero (v1 v2 n1 n2 u1 u2 : R) : v1 * n2 - v2 * n1 <> 0 -> u1 * v1 + u2 * v2 = 0 -> u1 * n1 + u2 * n2 = 0 -> u1 = 0 /\ u2 = 0.
Proof.
  intros D E1 E2. split; apply (Rmult_eq_reg_r (v1 * n2 - v2 * n1)); trivial.
  - replace (u1 * (v1 * n2 - v2 * n1)) with (n2 * (u1 * v1 + u2 * v2) - v2 * (u1 * n1 + u2 * n2)) by ring. rewrite E1, E2. ring.
  - replace (u2 * (v1 * n2 - v2 * n1)) with (v1 * (u1 * n1 + u2 * n2) - n1 * (u1 * v1 + u2 * v2)) by ring. rewrite E1, E2. ring.
Qed.

Section Outward.
  (** the edge, the third corner, the circumcenter *)
  Variables A B C p0 : p2.
  Hypothesis AB : sq p0 A = sq p0 B.
  Hypothesis AC : sq p0 A = sq p0 C.
  Hypothesis N : orient A B C <> 0.
  Let v := sub2 B A.
  Let n0 := sub2 ((fst A + fst B) / 2, (snd A + snd B) / 2) p0.
  Hypothesis far : 0 < dot2 n0 n0.
  Let side (x : p2) : R := dot2 n0 (sub2 x A).

  Lemma v_pos : 0 < dot2 v v.
  Proof.
    unfold v. destruct A as [a1 a2], B as [b1 b2], C as [c1 c2]. unfold orient in N. pts. cbn [fst snd] in N.
    pose proof (Rle_0_sqr (b1 - a1)) as Q1. pose proof (Rle_0_sqr (b2 - a2)) as Q2. unfold Rsqr in Q1, Q2.
    destruct (Req_dec (b1 - a1) 0) as [E1|E1]; [|pose proof (Rsqr_pos_lt _ E1) as Q; unfold Rsqr in Q; lra].
    destruct (Req_dec (b2 - a2) 0) as [E2|E2]; [|pose proof (Rsqr_pos_lt _ E2) as Q; unfold Rsqr in Q; lra]. exfalso. apply N. rewrite E1, E2. ring.
  Qed.
  Lemma n_perp : dot2 n0 v = 0.
  Proof.
    unfold n0, v. destruct A as [a1 a2], B as [b1 b2], p0 as [q1 q2]. pts. unfold sq in AB. cbn [fst snd] in AB. lra.
  Qed.
  Lemma n_is_edge_point : sub2 (px A + dot2 v (sub2 p0 A) / dot2 v v * px v, py A + dot2 v (sub2 p0 A) / dot2 v v * py v) p0 = n0.
  Proof.
    assert (E : dot2 v (sub2 p0 A) / dot2 v v = / 2).
    { pose proof v_pos as V. apply (Rmult_eq_reg_r (dot2 v v)); [|lra]. unfold Rdiv. rewrite Rmult_assoc, Rinv_l by lra.
      unfold v. destruct A as [a1 a2], B as [b1 b2], p0 as [q1 q2]. pts. unfold sq in AB. cbn [fst snd] in AB. lra. }
    rewrite E. unfold n0, v. destruct A as [a1 a2], B as [b1 b2], p0 as [q1 q2]. pts. f_equal; field.
  Qed.
  Lemma cross_ne : px v * py n0 - py v * px n0 <> 0.
  Proof.
    pose proof v_pos as V. pose proof n_perp as P. unfold dot2 in *. intros E.
    assert (X : (px v * px v + py v * py v) * (px n0 * px n0 + py n0 * py n0) = 0).
    { replace ((px v * px v + py v * py v) * (px n0 * px n0 + py n0 * py n0)) with
        ((px v * py n0 - py v * px n0) * (px v * py n0 - py v * px n0) + (px n0 * px v + py n0 * py v) * (px n0 * px v + py n0 * py v)) by ring.
      rewrite E, P. ring. }
    nra.
  Qed.
  (** the side of a point is a multiple of its orientation *)
  Lemma side_orient : exists h, h <> 0 /\ forall x, side x = h * orient A B x.
  Proof.
    pose proof v_pos as V. pose proof n_perp as P. exists ((px v * py n0 - py v * px n0) / dot2 v v). split.
    - intros E. apply cross_ne. replace (px v * py n0 - py v * px n0) with ((px v * py n0 - py v * px n0) / dot2 v v * dot2 v v) by (field; lra). rewrite E. ring.
    - intros x. apply (Rmult_eq_reg_r (dot2 v v)); [|lra]. unfold Rdiv.
      replace ((px v * py n0 - py v * px n0) * / dot2 v v * orient A B x * dot2 v v) with ((px v * py n0 - py v * px n0) * orient A B x) by (field; lra).
      assert (G : forall v n w : p2, dot2 n v = 0 -> dot2 n w * dot2 v v = (px v * py n - py v * px n) * (px v * py w - py v * px w)).
      { intros [v1 v2] [n1 n2] [w1 w2]. unfold dot2, px, py. cbn [fst snd]. intros P'.
        replace ((n1 * w1 + n2 * w2) * (v1 * v1 + v2 * v2)) with ((v1 * n2 - v2 * n1) * (v1 * w2 - v2 * w1) + (n1 * v1 + n2 * v2) * (v1 * w1 + v2 * w2)) by ring.
        rewrite P'. ring. }
      exact (G v n0 (sub2 x A) P).
  Qed.
  Lemma side_center : side p0 = - dot2 n0 n0.
  Proof.
    pose proof n_perp as P. unfold side. unfold n0, v in *. destruct A as [a1 a2], B as [b1 b2], p0 as [q1 q2]. revert P. pts. lra.
  Qed.
  Lemma side_along l : side (along p0 n0 l) = (l - 1) * dot2 n0 n0.
  Proof.
    replace (side (along p0 n0 l)) with (side p0 + l * dot2 n0 n0) by (unfold side, along; pts; ring). rewrite side_center. ring.
  Qed.
  (** a crossing of another side behind the edge shows that the triangle lies behind the edge *)
  Lemma crossing_behind X l : X = A \/ X = B -> 1 < l -> on_segment X C (along p0 n0 l) \/ on_segment C X (along p0 n0 l) -> 0 < side C.
  Proof.
    intros HX Hl H. pose proof (side_along l) as E. assert (P : 0 < (l - 1) * dot2 n0 n0) by (apply Rmult_lt_0_compat; lra). rewrite <- E in P. clear E.
    assert (SX : side X = 0).
    { destruct HX as [->| ->]; unfold side; [unfold dot2, sub2, px, py; cbn [fst snd]; ring|exact n_perp]. }
    assert (G : exists s, 0 <= s <= 1 /\ side (along p0 n0 l) = s * side C).
    { destruct H as [(s & Hs & E1 & E2)|(s & Hs & E1 & E2)].
      - exists s. split; [exact Hs|]. transitivity ((1 - s) * side X + s * side C); [|rewrite SX; ring]. unfold side. pts. rewrite E1, E2. ring.
      - exists (1 - s). split; [lra|]. transitivity (s * side X + (1 - s) * side C); [|rewrite SX; ring]. unfold side. pts. rewrite E1, E2. ring. }
    destruct G as (s & Hs & E). rewrite E in P. nra.
  Qed.
  (** and if it does, there is such a crossing *)
  Lemma behind_crossing : 0 < side C -> exists X l, (X = A \/ X = B) /\ 1 < l /\ ~ parallel X C n0 /\ on_segment X C (along p0 n0 l).
  Proof.
    intros HS. pose proof v_pos as V. pose proof n_perp as P.
    set (c := dot2 v (sub2 C A) / dot2 v v).
    assert (Ec : dot2 v (sub2 C A) = c * dot2 v v) by (unfold c; field; lra). clearbody c.
    (* a point of a side whose projection is the middle of the edge *)
    assert (G : forall X s, (X = A \/ X = B) -> 0 < s <= 1 -> dot2 v (sub2 X A) + s * (dot2 v (sub2 C A) - dot2 v (sub2 X A)) = dot2 v v / 2 ->
      dot2 v (sub2 C A) - dot2 v (sub2 X A) <> 0 -> exists X l, (X = A \/ X = B) /\ 1 < l /\ ~ parallel X C n0 /\ on_segment X C (along p0 n0 l)).
    { intros X s HX Hs E D. exists X, (1 + s * side C / dot2 n0 n0). split; [exact HX|].
      assert (SX : side X = 0).
      { destruct HX as [->| ->]; unfold side; [unfold dot2, sub2, px, py; cbn [fst snd]; ring|exact P]. }
      split; [|split].
      - assert (0 < s * side C / dot2 n0 n0) by (apply Rdiv_lt_0_compat; [apply Rmult_lt_0_compat; lra|exact far]). lra.
      - unfold parallel. intros Z. apply D. pose proof far as F.
        assert (W : (dot2 v (sub2 C A) - dot2 v (sub2 X A)) * (px v * py n0 - py v * px n0) = 0).
        { assert (GW : forall v n x c a : p2, dot2 n v = 0 -> (fst c - fst x) * snd n - (snd c - snd x) * fst n = 0 ->
            (dot2 v (sub2 c a) - dot2 v (sub2 x a)) * (px v * py n - py v * px n) = 0).
          { intros [v1 v2] [n1 n2] [x1 x2] [c1 c2] [a1 a2]. pts. intros P' Z'.
            replace ((v1 * (c1 - a1) + v2 * (c2 - a2) - (v1 * (x1 - a1) + v2 * (x2 - a2))) * (v1 * n2 - v2 * n1)) with
              (((c1 - x1) * n2 - (c2 - x2) * n1) * (v1 * v1 + v2 * v2) - (n1 * v1 + n2 * v2) * ((c1 - x1) * v2 - (c2 - x2) * v1)) by ring.
            rewrite P', Z'. ring. }
          exact (GW v n0 X C A P Z). }
        apply Rmult_integral in W. destruct W as [W|W]; [exact W|]. exfalso. exact (cross_ne W).
      - exists s. split; [lra|].
        set (q := (fst X + s * (fst C - fst X), snd X + s * (snd C - snd X)) : p2).
        assert (Hq : along p0 n0 (1 + s * side C / dot2 n0 n0) = q).
        { set (u := sub2 q (along p0 n0 (1 + s * side C / dot2 n0 n0))).
          assert (U : fst u = 0 /\ snd u = 0).
          { apply (orthogonal_zero (px v) (py v) (px n0) (py n0)); [exact cross_ne| |].
            - change (fst u * px v + snd u * py v) with (dot2 u v).
              assert (E3 : dot2 u v = (dot2 v (sub2 X A) + s * (dot2 v (sub2 C A) - dot2 v (sub2 X A))) - dot2 v (sub2 p0 A) - (1 + s * side C / dot2 n0 n0) * dot2 n0 v)
                by (unfold u, q, along; pts; ring).
              rewrite E3, E, P.
              assert (E4 : dot2 v (sub2 p0 A) = dot2 v v / 2).
              { unfold v. destruct A as [a1 a2], B as [b1 b2], p0 as [q1 q2]. pts. unfold sq in AB. cbn [fst snd] in AB. lra. }
              rewrite E4. ring.
            - change (fst u * px n0 + snd u * py n0) with (dot2 u n0).
              assert (E3 : dot2 u n0 = ((1 - s) * side X + s * side C) - side (along p0 n0 (1 + s * side C / dot2 n0 n0))) by (unfold u, side, q; pts; ring).
              rewrite E3, SX, side_along. field. lra. }
          destruct U as (U1 & U2). unfold u, sub2 in U1, U2. unfold px, py in U1, U2. cbn [fst snd] in U1, U2.
          rewrite (surjective_pairing q), (surjective_pairing (along p0 n0 (1 + s * side C / dot2 n0 n0))). f_equal; lra. }
        rewrite Hq. unfold q. cbn [fst snd]. split; reflexivity. }
    assert (DA : dot2 v (sub2 A A) = 0) by (unfold dot2, sub2, px, py; cbn [fst snd]; ring).
    destruct (Rle_or_lt (/ 2) c) as [Hc|Hc].
    - apply (G A (/ (2 * c))); [now left| | |]; rewrite ?DA, ?Ec.
      + split; [apply Rinv_0_lt_compat; lra|]. rewrite <- Rinv_1. apply Rinv_le_contravar; lra.
      + field. lra.
      + assert (0 < c * dot2 v v) by (apply Rmult_lt_0_compat; lra). lra.
    - apply (G B (/ (2 * (1 - c)))); [now right| | |]; try change (sub2 B A) with v; rewrite ?Ec.
      + split; [apply Rinv_0_lt_compat; lra|]. rewrite <- Rinv_1. apply Rinv_le_contravar; lra.
      + field. lra.
      + assert (0 < (1 - c) * dot2 v v) by (apply Rmult_lt_0_compat; lra). lra.
  Qed.
  (** moving away from the triangle, the corners of the edge stay closer than all points on the side of the triangle *)
  Lemma away_nearest n l x : (n = n0 \/ n = neg2 n0) -> dot2 n (sub2 C A) <= 0 -> 0 <= l -> 0 <= orient A B x * orient A B C -> sq p0 A <= sq p0 x ->
    sq (fst p0 + fst n * l, snd p0 + snd n * l) A <= sq (fst p0 + fst n * l, snd p0 + snd n * l) x.
  Proof.
    intros Hn HC Hl Hx Hs. destruct side_orient as (h & Hh & S).
    assert (H2 : exists h', forall x, dot2 n (sub2 x A) = h' * orient A B x).
    { destruct Hn as [->| ->]; [exists h; exact S|]. exists (- h). intros y. replace (- h * orient A B y) with (- (h * orient A B y)) by ring. rewrite <- S. unfold side, neg2. pts. ring. }
    destruct H2 as (h' & S'). rewrite S' in HC.
    assert (HX : dot2 n (sub2 x A) <= 0).
    { rewrite S'. assert (Q : 0 < orient A B C * orient A B C) by (pose proof (Rsqr_pos_lt _ N) as Q; exact Q).
      destruct (Rle_or_lt (h' * orient A B x) 0) as [L|L]; [exact L|]. exfalso.
      assert (L2 : 0 < (h' * orient A B x) * (orient A B C * orient A B C)) by (apply Rmult_lt_0_compat; assumption).
      assert (L3 : 0 <= (- (h' * orient A B C)) * (orient A B x * orient A B C)) by (apply Rmult_le_pos; lra). nra. }
    assert (E : sq (fst p0 + fst n * l, snd p0 + snd n * l) x - sq (fst p0 + fst n * l, snd p0 + snd n * l) A = sq p0 x - sq p0 A - 2 * (l * dot2 n (sub2 x A)))
      by (unfold sq; pts; ring).
    assert (l * dot2 n (sub2 x A) <= 0) by (rewrite <- (Rmult_0_r l); apply Rmult_le_compat_l; assumption). lra.
  Qed.
End Outward.
