(** Geometry of the walls of the sub-boxes and of spheres that cross them. *)
From Coq Require Import Reals ZArith List Bool Lia Lra Psatz.
From Verif Require Import Outcome AdaptiveModel AdaptiveProofs Vec3 CollisionModel CollisionSpec CollisionProofs CollisionProofs2
  EventModel SubBoxModel SubBoxSpec SubBoxProofs SimModel SimSpec.
Import ListNotations.
Local Open Scope R_scope.

(** cells as triples *)
Definition cell := (Z * Z * Z)%type.
Definition co (c : cell) (a : nat) : Z := let '(x, y, z) := c in match a with O => x | S O => y | _ => z end.
Definition setco (c : cell) (a : nat) (v : Z) : cell :=
  let '(x, y, z) := c in match a with O => (v, y, z) | S O => (x, v, z) | _ => (x, y, v) end.
Definition idx (g : grid) (c : cell) : Z := let '(x, y, z) := c in box_index g x y z.
Definition ingrid (g : grid) (c : cell) : Prop := forall a, (a < 3)%nat -> (0 <= co c a < gn g a)%Z.
Definition wallof (g : grid) (c : cell) (k : nat) : box_wall := let '(x, y, z) := c in build_wall g x y z k.
(** the interiors of the bounding cube and of the cell meet *)
Definition prod (g : grid) (s : sphere) (t : R) (c : cell) : Prop :=
  forall a, (a < 3)%nat -> plane g a (co c a) < hi s t a /\ lo s t a < plane g a (co c a + 1).

Lemma ingrid_in_grid g x y z : ingrid g (x, y, z) <-> in_grid g x y z.
Proof.
  unfold ingrid, in_grid. split.
  - intros H. exact (conj (H 0%nat ltac:(lia)) (conj (H 1%nat ltac:(lia)) (H 2%nat ltac:(lia)))).
  - intros (A & B & C) a Ha. destruct a as [|[|[|a]]]; [exact A|exact B|exact C|lia].
Qed.
Lemma idx_inj g c d : ingrid g c -> ingrid g d -> idx g c = idx g d -> c = d.
Proof.
  destruct c as [[x y] z], d as [[x' y'] z']. rewrite !ingrid_in_grid. intros A B E.
  destruct (box_index_inj g x y z x' y' z' A B E) as (-> & -> & ->). reflexivity.
Qed.
Lemma idx_range g c : ingrid g c -> (0 <= idx g c < num_boxes g)%Z.
Proof. destruct c as [[x y] z]. rewrite ingrid_in_grid. apply box_index_range. Qed.
Lemma idx_surj g b : gridok g -> (0 <= b < num_boxes g)%Z -> exists c, ingrid g c /\ idx g c = b.
Proof.
  intros OK H. destruct (box_index_surj g b OK H) as (x & y & z & A & B). exists (x, y, z).
  rewrite ingrid_in_grid. auto.
Qed.
Lemma co_setco c a v : (a < 3)%nat -> co (setco c a v) a = v.
Proof. destruct c as [[x y] z]. intros. destruct a as [|[|[|a]]]; try lia; reflexivity. Qed.
Lemma co_setco_other c a v a' : (a < 3)%nat -> (a' < 3)%nat -> a' <> a -> co (setco c a v) a' = co c a'.
Proof. destruct c as [[x y] z]. intros. destruct a as [|[|[|a]]], a' as [|[|[|a']]]; try lia; reflexivity. Qed.
Lemma setco_same c a : (a < 3)%nat -> setco c a (co c a) = c.
Proof. destruct c as [[x y] z]. intros. destruct a as [|[|[|a]]]; try lia; reflexivity. Qed.
Lemma setco_setco c a u v : (a < 3)%nat -> setco (setco c a u) a v = setco c a v.
Proof. destruct c as [[x y] z]. intros. destruct a as [|[|[|a]]]; try lia; reflexivity. Qed.
Lemma cell_ext c d : (forall a, (a < 3)%nat -> co c a = co d a) -> c = d.
Proof.
  destruct c as [[x y] z], d as [[x' y'] z']. intros H.
  pose proof (H 0%nat ltac:(lia)). pose proof (H 1%nat ltac:(lia)). pose proof (H 2%nat ltac:(lia)). cbn [co] in *. congruence.
Qed.
Lemma gh_pos g a : gridok g -> 0 < gh g a.
Proof. intros (_ & _ & _ & A & B & C). destruct a as [|[|a]]; assumption. Qed.
Lemma gn_pos g a : gridok g -> (0 < gn g a)%Z.
Proof. intros (A & B & C & _). destruct a as [|[|a]]; assumption. Qed.
Lemma plane_S g a k : plane g a (k + 1) = plane g a k + gh g a.
Proof. unfold plane. rewrite plus_IZR. ring. Qed.
Lemma plane_le g a k l : gridok g -> (k <= l)%Z -> plane g a k <= plane g a l.
Proof. intros OK H. apply IZR_le in H. pose proof (gh_pos g a OK). unfold plane. nra. Qed.
Lemma plane_lt_inv g a k l : gridok g -> plane g a k < plane g a l -> (k < l)%Z.
Proof.
  intros OK H. destruct (Z_lt_le_dec k l) as [|F]; auto. apply (plane_le g a) in F; auto. lra.
Qed.

(** ** the walls *)
Definition side (a : nat) (up : bool) : nat := (2 * a + (if up then 1 else 0))%nat.
Definition next (c : cell) (a : nat) (up : bool) : cell := setco c a (co c a + (if up then 1 else -1)).
Lemma side_cases k : (k < 6)%nat -> exists a up, (a < 3)%nat /\ k = side a up.
Proof.
  intros H. destruct (neighbour_cases k H) as [->|[->|[->|[->|[->| ->]]]]];
    [exists 0%nat, false|exists 0%nat, true|exists 1%nat, false|exists 1%nat, true|exists 2%nat, false|exists 2%nat, true];
    split; try lia; reflexivity.
Qed.
Lemma side_lt a up : (a < 3)%nat -> (side a up < 6)%nat.
Proof. unfold side. destruct up; lia. Qed.

Lemma wall_links g c a up : gridok g -> ingrid g c -> (a < 3)%nat ->
  let w := wallof g c (side a up) in
  bw_inside w = idx g c /\
  (ingrid g (next c a up) -> bw_kind w = Virtual /\ bw_outside w = idx g (next c a up)) /\
  (~ ingrid g (next c a up) -> bw_kind w = Physical).
Proof.
  intros OK G Ha. destruct c as [[x y] z]. apply ingrid_in_grid in G.
  pose proof (wall_kind_lemma g x y z (side a up) OK G (side_lt a up Ha)) as H. unfold moved in H.
  cbn [wallof].
  assert (E: exists x' y' z', next (x, y, z) a up = (x', y', z') /\
     (let '(dx, dy, dz) := neighbour (side a up) in (x + dx, y + dy, z + dz)%Z) = (x', y', z')).
  { destruct a as [|[|[|a]]]; [| | |lia]; destruct up; cbn [side Nat.mul Nat.add neighbour next setco co];
      do 3 eexists; (split; [reflexivity|]); rewrite ?Z.add_0_r; reflexivity. }
  destruct E as (x' & y' & z' & -> & E). rewrite E in H. rewrite ingrid_in_grid. exact H.
Qed.

Lemma lo_now s a : lo s (stime s) a = vnth (spos s) a - srad s.
Proof.
  unfold lo, centre_at, radius_at. replace (stime s - stime s) with 0 by ring.
  destruct a as [|[|a]]; cbn [vnth vadd smul vx vy vz]; ring.
Qed.
Lemma hi_now s a : hi s (stime s) a = vnth (spos s) a + srad s.
Proof.
  unfold hi, centre_at, radius_at. replace (stime s - stime s) with 0 by ring.
  destruct a as [|[|a]]; cbn [vnth vadd smul vx vy vz]; ring.
Qed.
Lemma lo_lin s t a : lo s t a = lo s (stime s) a + (vnth (svel s) a - sgrow s) * (t - stime s).
Proof. rewrite lo_now. unfold lo, centre_at, radius_at. destruct a as [|[|a]]; cbn [vnth vadd smul vx vy vz]; ring. Qed.
Lemma hi_lin s t a : hi s t a = hi s (stime s) a + (vnth (svel s) a + sgrow s) * (t - stime s).
Proof. rewrite hi_now. unfold hi, centre_at, radius_at. destruct a as [|[|a]]; cbn [vnth vadd smul vx vy vz]; ring. Qed.
Lemma hi_lo s t a : hi s t a = lo s t a + 2 * radius_at s t.
Proof. unfold hi, lo. ring. Qed.
Lemma radius_pos s t : proper s -> stime s <= t -> 0 < radius_at s t.
Proof. intros (A & B) H. unfold radius_at. nra. Qed.

(** how far the sphere is from the wall (positive inside), and how far it still reaches into the box *)
Definition gap (g : grid) (c : cell) (a : nat) (up : bool) (s : sphere) (t : R) : R :=
  if up then plane g a (co c a + 1) - hi s t a else lo s t a - plane g a (co c a).
Definition rest (g : grid) (c : cell) (a : nat) (up : bool) (s : sphere) (t : R) : R :=
  if up then plane g a (co c a + 1) - lo s t a else hi s t a - plane g a (co c a).
Definition dgap (a : nat) (up : bool) (s : sphere) : R := (if up then - vnth (svel s) a else vnth (svel s) a) - sgrow s.
Definition drest (a : nat) (up : bool) (s : sphere) : R := (if up then - vnth (svel s) a else vnth (svel s) a) + sgrow s.
Lemma gap_lin g c a up s t : gap g c a up s t = gap g c a up s (stime s) + dgap a up s * (t - stime s).
Proof. unfold gap, dgap. destruct up; [rewrite hi_lin|rewrite lo_lin]; ring. Qed.
Lemma rest_lin g c a up s t : rest g c a up s t = rest g c a up s (stime s) + drest a up s * (t - stime s).
Proof. unfold rest, drest. destruct up; [rewrite lo_lin|rewrite hi_lin]; ring. Qed.

Lemma wall_values g c a up s : (a < 3)%nat ->
  let w := bw_wall (wallof g c (side a up)) in
  wall_distances w s = Ok (gap g c a up s (stime s), dgap a up s) /\
  virtual_distances w false s = Ok (gap g c a up s (stime s), dgap a up s) /\
  virtual_distances w true s = Ok (rest g c a up s (stime s), drest a up s).
Proof.
  intros Ha. destruct c as [[x y] z]. cbn zeta.
  assert (T1: trunc 1 = 1%Z) by apply trunc_IZR. assert (T2: trunc (-1) = (-1)%Z) by apply trunc_IZR.
  assert (Q0: reqb 0 0 = true) by (destruct (reqb_spec 0 0) as [(-> & _)|(_ & F)]; [auto|lra]).
  assert (Q1: reqb 1 0 = false) by (destruct (reqb_spec 1 0) as [(_ & F)|(-> & _)]; [lra|auto]).
  assert (Q2: reqb (-1) 0 = false) by (destruct (reqb_spec (-1) 0) as [(_ & F)|(-> & _)]; [lra|auto]).
  assert (Q3: forall u, Rabs u = 1 -> reqb (Rabs u) 1 = true)
    by (intros u E; destruct (reqb_spec (Rabs u) 1) as [(-> & _)|(_ & F)]; [auto|contradiction]).
  unfold gap, rest, dgap, drest, plane. rewrite hi_now, lo_now.
  destruct a as [|[|[|a]]]; [| | |lia]; destruct up;
    cbn [side Nat.mul Nat.add wallof build_wall neighbour bw_wall new_wall face_position vx vy vz Z.opp];
    unfold wall_distances, virtual_distances, new_wall; cbn [waligned waxis wdir wpos];
    rewrite Q3 by (unfold vsum; cbn [vx vy vz]; first [rewrite Rabs_right; lra | rewrite Rabs_left; lra]);
    rewrite normalize_of_unit by (unfold dot; cbn [vx vy vz]; ring);
    unfold non_null_axis; cbn [vx vy vz]; rewrite ?Q0, ?Q1, ?Q2; cbn [negb vnth vx vy vz co gh];
    rewrite ?T1, ?T2, ?plus_IZR; (split; [|split]); f_equal; f_equal; ring.
Qed.

(** ** times *)
Lemma cross_time g c a up s t : 0 <= stime s -> stime s <= t -> 0 <= gap g c a up s (stime s) -> gap g c a up s t < 0 ->
  exists r, wall_time s (gap g c a up s (stime s)) (dgap a up s) = r /\
    virtual_time s false (gap g c a up s (stime s)) (dgap a up s) = r /\ stime s <= r < t.
Proof.
  intros H0 Ht Hg Hn. rewrite gap_lin in Hn. set (G := gap g c a up s (stime s)) in *. set (D := dgap a up s) in *.
  assert (HD: D < 0) by nra. exists (stime s + - G / D).
  assert (Hq: 0 <= - G / D). { replace (- G / D) with (G * / (- D)) by (field; lra). apply Rmult_le_pos; [lra|]. left. apply Rinv_0_lt_compat. lra. }
  assert (Hr: - G / D < t - stime s).
  { replace (- G / D) with (G / (- D)) by (field; lra). apply (Rmult_lt_reg_r (- D)); [lra|].
    unfold Rdiv. rewrite Rmult_assoc, Rinv_l by lra. nra. }
  split; [|split; [|lra]].
  - unfold wall_time. destruct (rleb_spec 0 D) as [(_ & F)|(-> & _)]; [lra|]. rewrite andb_false_r.
    destruct (reqb_spec D 0) as [(_ & F)|(-> & _)]; [lra|].
    destruct (rleb_spec 0 (- G / D)) as [(-> & _)|(_ & F)]; [reflexivity|lra].
  - unfold virtual_time. destruct (rltb_spec 0 D) as [(_ & F)|(-> & _)]; [lra|].
    destruct (rltb_spec G 0) as [(_ & F)|(-> & _)]; [lra|]. cbn [andb].
    destruct (reqb_spec D 0) as [(_ & F)|(-> & _)]; [lra|].
    destruct (rleb_spec 0 (- G / D)) as [(-> & _)|(_ & F)]; [reflexivity|lra].
Qed.

Lemma leave_time g c a up s r : 0 <= stime s -> virtual_time s true (rest g c a up s (stime s)) (drest a up s) = r -> 0 <= r ->
  stime s <= r /\ rest g c a up s r = 0.
Proof.
  intros H0 E Hr. rewrite rest_lin. set (G := rest g c a up s (stime s)) in *. set (D := drest a up s) in *.
  unfold virtual_time in E. destruct (rltb_spec 0 D) as [(Q & F)|(Q & F)]; rewrite Q in E; [unfold EVENTNULL in E; lra|].
  destruct (reqb_spec D 0) as [(Q1 & F1)|(Q1 & F1)]; rewrite Q1 in E; [unfold EVENTNULL in E; lra|].
  destruct (rleb_spec 0 (- G / D)) as [(Q2 & F2)|(Q2 & F2)]; rewrite Q2 in E; [|unfold EVENTNULL in E; lra].
  split; [lra|]. rewrite <- E. replace (stime s + - G / D - stime s) with (- G / D) by ring. field. auto.
Qed.

Lemma wall_time_ge s u v : wall_time s u v = EVENTNULL \/ stime s <= wall_time s u v.
Proof.
  unfold wall_time. destruct (andb _ _); auto. destruct (reqb v 0); auto.
  destruct (rleb_spec 0 (- u / v)) as [(-> & F)|(-> & F)]; auto. right. lra.
Qed.
Lemma virtual_time_ge s o u v : virtual_time s o u v = EVENTNULL \/ stime s <= virtual_time s o u v.
Proof.
  unfold virtual_time. destruct (rltb 0 v); auto. destruct (reqb v 0); auto.
  match goal with |- context [rleb 0 ?q] => destruct (rleb_spec 0 q) as [(-> & F)|(-> & F)] end; auto. right. lra.
Qed.

(** ** cells at the ends of an extent *)
Lemma bottom_cell g a x : gridok g -> plane g a 0 <= x -> x < plane g a (gn g a) ->
  exists k, (0 <= k < gn g a)%Z /\ plane g a k <= x < plane g a (k + 1).
Proof.
  intros OK A B. pose proof (gh_pos g a OK) as H. set (k := cell_index x (vnth (gorg g) a) (gh g a)).
  destruct (cell_index_ho x (vnth (gorg g) a) (gh g a) H) as (C & D). fold k in C, D.
  assert (E: plane g a k <= x < plane g a (k + 1)) by (unfold plane; rewrite plus_IZR; lra).
  exists k. split; auto. split.
  - assert (plane g a 0 < plane g a (k + 1)) by lra. apply plane_lt_inv in H0; auto. lia.
  - apply (plane_lt_inv g a); auto. lra.
Qed.
Lemma top_cell g a x : gridok g -> plane g a 0 < x -> x <= plane g a (gn g a) ->
  exists k, (0 <= k < gn g a)%Z /\ plane g a k < x <= plane g a (k + 1).
Proof.
  intros OK A B. destruct (Req_dec x (plane g a (gn g a))) as [E|E].
  - exists (gn g a - 1)%Z. pose proof (gn_pos g a OK). pose proof (gh_pos g a OK). split; [lia|].
    pose proof (plane_S g a (gn g a - 1)). replace (gn g a - 1 + 1)%Z with (gn g a) in * by lia. lra.
  - destruct (bottom_cell g a x OK ltac:(lra) ltac:(lra)) as (k & K1 & K2).
    destruct (Req_dec x (plane g a k)) as [E'|E'].
    + assert (plane g a 0 < plane g a k) by lra. apply plane_lt_inv in H; auto.
      exists (k - 1)%Z. pose proof (plane_S g a (k - 1)). pose proof (gh_pos g a OK).
      replace (k - 1 + 1)%Z with k in * by lia. split; [lia|lra].
    + exists k. split; auto. lra.
Qed.
