(** C58: a sphere on the axis of a cylinder *)
From Coq Require Import Reals ZArith Lra Lia Psatz Bool.
From Verif Require Import Outcome AdaptiveModel AdaptiveProofs Vec3 CollisionModel CollisionSpec CollisionProofs CollisionProofs2 PropCollision.
Local Open Scope R_scope.

Lemma perp_along d k : dot d d = 1 -> perp d (smul k d) = V3 0 0 0.
Proof.
  intros H. unfold perp. replace (dot (smul k d) d) with (k * dot d d) by (unfold dot, smul; cbn [vx vy vz]; ring). rewrite H.
  destruct d as [a b c]. unfold vsub, smul. cbn [vx vy vz]. f_equal; ring.
Qed.
(** Finding: a growing sphere whose centre is on the axis of a cylinder and stays there is stopped by nothing but the wall.  The prediction
    is right, the sphere touches the wall all around at that time; but the response to this predicted collision throws, as there is no
    direction towards the axis. *)
Theorem C58_cylinder_axis_refuted : forall p d r s h k, d <> V3 0 0 0 -> proper s -> 0 < sgrow s -> 0 <= stime s -> srad s < r ->
  spos s = vadd p (smul h (normalize d)) -> svel s = smul k (normalize d) ->
  exists tc, predict_cylinder (new_cylinder p d r) s = Ok tc /\ tc <> EVENTNULL /\ stime s < tc /\ radius_at s tc = r /\
    perform_cylinder (new_cylinder p d r) (move_and_grow s tc) = Throw.
Proof.
  intros p d r s h k Hd (P1 & P2) Hg Ht Hr Ep Ev. assert (N1 : dot (normalize d) (normalize d) = 1).
  { apply normalize_unit. intros F. apply Hd. destruct d as [x y z]. unfold dot in F. cbn [vx vy vz] in F. f_equal; nra. }
  set (e := normalize d) in *. exists (stime s + (r - srad s) / sgrow s).
  assert (D : 0 < (r - srad s) / sgrow s) by (apply Rmult_lt_0_compat; [lra|now apply Rinv_0_lt_compat]).
  assert (Z : dot (V3 0 0 0) (V3 0 0 0) = 0) by (unfold dot; cbn [vx vy vz]; ring).
  split; [|split; [unfold EVENTNULL; lra|split; [lra|split]]].
  - unfold predict_cylinder, new_cylinder, new_wall. cbn [cwall wdir wpos cradius]. fold e. clearbody e.
    replace (vsub (spos s) p) with (smul h e) by (rewrite Ep; apply v3_eq; unfold vsub, vadd, smul; cbn [vx vy vz]; ring).
    rewrite Ev, !perp_along, Z by exact N1.
    assert (Q : (2 * (0 - (r - srad s) * - sgrow s)) * (2 * (0 - (r - srad s) * - sgrow s)) - 4 * (0 - - sgrow s * - sgrow s) * (0 - (r - srad s) * (r - srad s)) = 0) by ring.
    assert (B : 0 < 2 * (0 - (r - srad s) * - sgrow s)) by (assert (0 < (r - srad s) * sgrow s) by (apply Rmult_lt_0_compat; lra); lra).
    assert (T10 : 0 < tenm 10 /\ 0 < tenm 11) by (split; unfold tenm; apply Rinv_0_lt_compat, pow_lt; lra).
    destruct (rltb_spec (2 * tenm 10 * srad s) (0 - (r - srad s) * (r - srad s))) as [(-> & L)|(-> & _)]; [exfalso; nra|]. rewrite Q.
    destruct (rltb_spec (- tenm 11) 0) as [(-> & _)|(-> & L)]; [|exfalso; lra].
    destruct (rltb_spec 0 0) as [(-> & L)|(-> & _)]; [exfalso; lra|]. rewrite sqrt_0.
    destruct (rltb_spec 0 (2 * (0 - (r - srad s) * - sgrow s))) as [(-> & _)|(-> & L)]; [|exfalso; lra].
    replace (2 * (0 - (r - srad s) * (r - srad s)) / (- (2 * (0 - (r - srad s) * - sgrow s)) - 0)) with ((r - srad s) / sgrow s) by (field; lra).
    destruct (rleb_spec 0 ((r - srad s) / sgrow s)) as [(-> & _)|(-> & L)]; [reflexivity|exfalso; lra].
  - unfold radius_at. field. lra.
  - unfold perform_cylinder, new_cylinder, new_wall, move_and_grow. cbn [cwall wdir wpos spos]. fold e. clearbody e.
    set (t := stime s + (r - srad s) / sgrow s - stime s).
    replace (vsub p (vadd (spos s) (smul t (svel s)))) with (smul (- (h + t * k)) e) by (rewrite Ep, Ev; apply v3_eq; unfold vsub, vadd, smul; cbn [vx vy vz]; ring).
    rewrite perp_along, Z by exact N1. destruct (reqb_spec 0 0) as [(-> & _)|(-> & N)]; [reflexivity|contradiction].
Qed.
Print Assumptions C58_cylinder_axis_refuted.
(** at rest in the middle of an upright cylinder of radius 2, radius 1, growing at rate 1 *)
Example C58_axis_case : let s := mkSphere 0 (V3 0 0 0) (V3 0 0 0) 1 1 1 1 0 0 in
  predict_cylinder (new_cylinder (V3 0 0 0) (V3 0 0 1) 2) s = Ok 1 /\ perform_cylinder (new_cylinder (V3 0 0 0) (V3 0 0 1) 2) (move_and_grow s 1) = Throw.
Proof.
  cbv zeta. set (s := mkSphere 0 (V3 0 0 0) (V3 0 0 0) 1 1 1 1 0 0).
  destruct (C58_cylinder_axis_refuted (V3 0 0 0) (V3 0 0 1) 2 s 0 0) as (tc & E1 & _ & _ & E2 & E3); try (unfold s, proper; cbn [sgrow srad stime]; lra).
  - intros E. injection E. lra.
  - unfold s, vadd, smul. cbn [spos vx vy vz]. f_equal; ring.
  - unfold s, smul. cbn [svel]. f_equal; ring.
  - unfold radius_at, s in E2. cbn [sgrow srad stime] in E2. assert (tc = 1) by lra. subst tc. auto.
Qed.
