From Coq Require Import Reals ZArith List Bool Lia Lra Psatz Permutation.
From Verif Require Import Outcome AdaptiveModel AdaptiveProofs Vec3 CollisionModel CollisionProofs SubBoxModel SubBoxProofs
  TakeModel TakeSpec TakeProofs.
Import ListNotations.
Local Open Scope R_scope.

(** ** size classes *)
Fixpoint sdec (l : list R) : Prop :=
  match l with [] => True | x :: l' => (forall y, In y l' -> y < x) /\ sdec l' end.
Lemma sdec_nth : forall l, sdec l -> strictly_decreasing_sizes l.
Proof.
  intro l. unfold strictly_decreasing_sizes. induction l as [|x l IH]; intros H i j Hij; cbn [length] in Hij; [lia|].
  destruct H as (H & H'). destruct j as [|j]; [lia|]. destruct i as [|i].
  - cbn [nth]. apply H. apply nth_In. lia.
  - cbn [nth]. apply IH; trivial. lia.
Qed.
Lemma doubling_spec : forall fuel d e acc l, 0 < d -> sdec acc -> (forall y, In y acc -> y <= d /\ y < e) ->
  doubling fuel d e acc = Some l -> exists h rest, l = h :: rest /\ sdec rest /\ (forall y, In y rest -> y < e) /\
    (rest = [] \/ exists y, In y rest /\ last rest 0 = y) /\ (acc <> [] -> last l 0 = last acc 0) /\ (acc = [] -> last l 0 = 2 * d).
Proof.
  induction fuel as [|f IH]; intros d e acc l Hd Hs Ha E; [discriminate|]. cbn [doubling] in E.
  destruct (rltb_spec (d * 2) e) as [(Eb & L)|(Eb & L)]; rewrite Eb in E.
  - apply IH in E; [|lra| |].
    + destruct E as (h & rest & -> & P1 & P2 & P3 & P4 & P5). exists h, rest. repeat (split; trivial).
      * intro Hn. rewrite P4 by discriminate. destruct acc; [congruence|]. reflexivity.
      * intros ->. rewrite P4 by discriminate. cbn [last]. ring.
    + cbn [sdec]. split; trivial. intros y Hy. destruct (Ha y Hy). lra.
    + intros y [<-|Hy]; [lra|]. destruct (Ha y Hy). lra.
  - injection E as <-. exists (d * 2), acc. repeat (split; trivial).
    + intros y Hy. now destruct (Ha y Hy).
    + destruct acc as [|a acc]; [now left|right]. exists (last (a :: acc) 0). split; trivial.
      clear. revert a. induction acc as [|b acc IH]; intro a; [now left|]. right. change (last (a :: b :: acc) 0) with (last (b :: acc) 0). apply IH.
    + intro Hn. destruct acc; [congruence|]. reflexivity.
    + intros ->. cbn [last]. ring.
Qed.
Lemma doubling_terminates : forall n d e acc, 0 < d -> e <= d * 2 ^ n -> forall fuel, (n < fuel)%nat ->
  exists l, doubling fuel d e acc = Some l.
Proof.
  induction n as [|n IH]; intros d e acc Hd H fuel Hf; (destruct fuel as [|fuel]; [lia|]); cbn [doubling];
    destruct (rltb_spec (d * 2) e) as [(-> & L)|(-> & L)]; eauto.
  - cbn [pow] in H. exfalso. lra.
  - apply (IH (d * 2) e _); [lra| |lia]. cbn [pow] in H. lra.
Qed.
Lemma last_rev : forall (l : list R) x rest, rev l = x :: rest -> last l 0 = x.
Proof.
  intros l x rest E. rewrite <- (rev_involutive l), E. cbn [rev]. apply last_last.
Qed.
Lemma decreasing_bounds : forall l x rest, decreasing l -> rev l = x :: rest ->
  (forall y, In y l -> x <= y) /\ (forall f l', l = f :: l' -> forall y, In y l -> y <= f).
Proof.
  intros l x rest HD E. split.
  - assert (Hl : last l 0 = x) by now apply last_rev in E. clear E rest.
    induction l as [|a l IH]; intros y Hy; [contradiction|]. destruct HD as (HD1 & HD2).
    destruct l as [|b l].
    + destruct Hy as [<-|[]]. cbn [last] in Hl. lra.
    + change (last (a :: b :: l) 0) with (last (b :: l) 0) in Hl. specialize (IH HD2 Hl).
      destruct Hy as [<-|Hy]; [|auto]. specialize (IH b (or_introl eq_refl)). specialize (HD1 b (or_introl eq_refl)). lra.
  - intros f l' -> y [<-|Hy]; [lra|]. now apply (proj1 HD).
Qed.

(** the size classes of a decreasing table of positive radii *)
Lemma size_classes_ok : forall radii, decreasing radii -> radii <> [] -> (forall r, In r radii -> 0 < r) ->
  (exists fuel0, forall fuel, (fuel0 <= fuel)%nat -> exists sizes, size_classes fuel radii = Ok (Some sizes)) /\
  (forall fuel, size_classes fuel radii <> UB /\ size_classes fuel radii <> Throw) /\
  (forall fuel sizes, size_classes fuel radii = Ok (Some sizes) ->
     sizes <> [] /\ nth 0 sizes 0 = 2 * nth 0 radii 0 /\ strictly_decreasing_sizes sizes /\
     (length sizes <> 1%nat -> exists r, In r radii /\ class_of sizes (length sizes - 1) (2 * r)) /\
     (length sizes <> 1%nat -> exists r, In r radii /\ class_of sizes 0 (2 * r))).
Proof.
  intros radii HD Hne Hpos. unfold size_classes. destruct radii as [|first rs] eqn:Er; [congruence|].
  rewrite <- Er in *. destruct (rev radii) as [|lst rest] eqn:Ev.
  { exfalso. apply Hne. rewrite <- (rev_involutive radii), Ev. reflexivity. }
  assert (Hl : In lst radii) by (apply in_rev; rewrite Ev; now left).
  assert (Hf : In first radii) by (rewrite Er; now left).
  pose proof (Hpos lst Hl) as Pl.
  destruct (decreasing_bounds radii lst rest HD Ev) as (B1 & B2). specialize (B2 first rs Er).
  assert (D : forall fuel l, doubling fuel (2 * lst) (2 * first) [] = Some l ->
    exists h r, l = h :: r /\ sdec r /\ (forall y, In y r -> y < 2 * first) /\ (r <> [] -> last r 0 = 4 * lst)).
  { intros fuel l E. apply doubling_spec in E; [|lra|exact I|intros y []].
    destruct E as (h & r & -> & P1 & P2 & _ & _ & P5). exists h, r. repeat (split; trivial).
    intro Hr. specialize (P5 eq_refl). destruct r as [|a r]; [congruence|].
    change (last (h :: a :: r) 0) with (last (a :: r) 0) in P5. lra. }
  split; [|split].
  - destruct (Pow_x_infinity 2 ltac:(rewrite Rabs_pos_eq; lra) (first / lst)) as (N & HN).
    exists (S N). intros fuel Hfu.
    destruct (doubling_terminates N (2 * lst) (2 * first) [] ltac:(lra)) with (fuel := fuel) as (l & E); [|lia|].
    + specialize (HN N (Nat.le_refl N)). rewrite Rabs_pos_eq in HN by (apply pow_le; lra).
      apply Rge_le in HN. apply (Rmult_le_compat_r lst) in HN; [|lra]. unfold Rdiv in HN.
      rewrite Rmult_assoc, Rinv_l in HN by lra. lra.
    + rewrite E. destruct (D _ _ E) as (h & r & -> & _). eauto.
  - intro fuel. destruct (doubling _ _ _ _) as [[|h r]|]; split; discriminate.
  - intros fuel sizes E. destruct (doubling fuel (2 * lst) (2 * first) []) as [[|h r]|] eqn:Ed; try discriminate.
    destruct (D _ _ Ed) as (h' & r' & El & P1 & P2 & P3). injection El as <- <-. injection E as <-.
    assert (SD : strictly_decreasing_sizes (2 * first :: r)) by (apply sdec_nth; split; trivial).
    split; [discriminate|]. split; [rewrite Er; reflexivity|]. split; trivial. cbn [length]. split.
    + intro Hn. exists lst. split; trivial. replace (S (length r) - 1)%nat with (length r) by lia.
      assert (Hr : r <> []) by (intros ->; cbn in Hn; lia). split; [right|left; reflexivity].
      specialize (P3 Hr). destruct r as [|a r]; [congruence|].
      assert (EL : forall (l : list R) a, nth (length l) (a :: l) 0 = last (a :: l) 0).
      { clear. induction l as [|b l IH]; intro a; [reflexivity|]. cbn [length]. change (last (a :: b :: l) 0) with (last (b :: l) 0).
        rewrite <- IH. reflexivity. }
      replace (nth (length (a :: r)) (2 * first :: a :: r) 0) with (last (a :: r) 0) by (rewrite <- EL; reflexivity). rewrite P3. lra.
    + intro Hn. exists first. split; trivial. split; [now left|right].
      destruct r as [|a r]; [cbn in Hn; lia|]. cbn [nth]. specialize (P2 a (or_introl eq_refl)). lra.
Qed.

(** the particles of class [c] have diameters of at most the size of the class *)
Fixpoint nsum (f : nat -> nat) (a n : nat) : nat := match n with O => 0 | S k => f a + nsum f (S a) k end.
Lemma num_loop_bound : forall sizes radii pre cls num, decreasing radii -> length num = length sizes ->
  (S cls < length sizes)%nat ->
  (forall r, In r (pre ++ radii) -> 2 * r <= nth cls sizes 0) ->
  (forall c, (cls <= c)%nat -> nth c num 0%nat = 0%nat) ->
  let res := num_loop sizes radii cls (length pre) num in
  (forall c, (c < cls)%nat -> nth c res 0%nat = nth c num 0%nat) /\ length res = length num /\
  forall n j, (nsum (fun c => nth c res 0%nat) cls n <= j < nsum (fun c => nth c res 0%nat) cls (S n))%nat ->
    (j < length (pre ++ radii))%nat /\ 2 * nth j (pre ++ radii) 0 <= nth (cls + n) sizes 0.
Proof.
  intros sizes radii. induction radii as [|r rs IH]; intros pre cls num HD HL Hc HB H0; cbn [num_loop]; cbv zeta.
  - split; [trivial|]. split; [trivial|]. intros n j Hj. exfalso.
    assert (Z : forall m a, (cls <= a)%nat -> nsum (fun c => nth c num 0%nat) a m = 0%nat).
    { induction m as [|m IHm]; intros a Ha; cbn [nsum]; [reflexivity|]. rewrite H0 by trivial. rewrite IHm by lia. reflexivity. }
    rewrite !Z in Hj by lia. lia.
  - destruct HD as (HD1 & HD2).
    destruct (rleb_spec (nth (S cls) sizes 0) (2 * r)) as [(-> & L)|(-> & L)].
    + specialize (IH (pre ++ [r]) cls num HD2 HL Hc). rewrite <- app_assoc in IH. cbn [List.app] in IH.
      specialize (IH HB H0). cbv zeta in IH. rewrite app_length in IH. cbn [length] in IH.
      rewrite Nat.add_1_r in IH. exact IH.
    + set (num' := set_nth num cls (length pre)).
      assert (Hpre : forall a res, (forall c, (c < S cls)%nat -> nth c res 0%nat = nth c num' 0%nat) ->
        a = nth cls res 0%nat -> a = length pre).
      { intros a res Hr ->. rewrite Hr by lia. unfold num'. rewrite nth_set_nth by lia. now rewrite Nat.eqb_refl. }
      assert (Hrs : forall r', In r' (r :: rs) -> 2 * r' <= nth (S cls) sizes 0).
      { intros r' [<-|Hin]; [lra|]. specialize (HD1 r' Hin). lra. }
      assert (FIN : forall res, (forall c, (c < S cls)%nat -> nth c res 0%nat = nth c num' 0%nat) -> length res = length num ->
         (forall n j, (nsum (fun c => nth c res 0%nat) (S cls) n <= j < nsum (fun c => nth c res 0%nat) (S cls) (S n))%nat ->
            (j < length (r :: rs))%nat /\ 2 * nth j (r :: rs) 0 <= nth (S cls + n) sizes 0) ->
         (forall c, (c < cls)%nat -> nth c res 0%nat = nth c num 0%nat) /\ length res = length num /\
         forall n j, (nsum (fun c => nth c res 0%nat) cls n <= j < nsum (fun c => nth c res 0%nat) cls (S n))%nat ->
           (j < length (pre ++ r :: rs))%nat /\ 2 * nth j (pre ++ r :: rs) 0 <= nth (cls + n) sizes 0).
      { intros res R1 R2 R3. split; [|split; trivial].
        - intros c Hlt. rewrite R1 by lia. unfold num'. rewrite nth_set_nth by lia. destruct (Nat.eqb_spec c cls); [lia|reflexivity].
        - intros n j Hj. pose proof (Hpre _ res R1 eq_refl) as Ep. destruct n as [|n].
          + cbn [nsum] in Hj. rewrite Ep in Hj. rewrite app_length. split; [lia|]. rewrite Nat.add_0_r. apply HB.
            apply nth_In. rewrite app_length. lia.
          + cbn [nsum] in Hj. cbn [nsum] in R3. rewrite Ep in Hj.
            destruct (R3 n (j - length pre)%nat) as (Q1 & Q2); [lia|]. rewrite app_length. split; [lia|].
            rewrite app_nth2 by lia. replace (cls + S n)%nat with (S cls + n)%nat by lia. exact Q2. }
      destruct (Nat.eqb_spec (S cls) (length sizes - 1)) as [El|El].
      * apply FIN.
        -- intros c Hlt. rewrite nth_set_nth by (unfold num'; rewrite set_nth_length; lia).
           destruct (Nat.eqb_spec c (S cls)); [lia|reflexivity].
        -- rewrite set_nth_length; unfold num'; rewrite set_nth_length; lia.
        -- set (res := set_nth num' (S cls) (length (r :: rs))).
           assert (V1 : nth (S cls) res 0%nat = length (r :: rs)).
           { unfold res. rewrite nth_set_nth by (unfold num'; rewrite set_nth_length; lia). now rewrite Nat.eqb_refl. }
           assert (V2 : forall c, (S cls < c)%nat -> nth c res 0%nat = 0%nat).
           { intros c Hlt. unfold res. rewrite nth_set_nth by (unfold num'; rewrite set_nth_length; lia).
             destruct (Nat.eqb_spec c (S cls)); [lia|]. unfold num'. rewrite nth_set_nth by lia.
             destruct (Nat.eqb_spec c cls); [lia|]. apply H0. lia. }
           assert (Z : forall m a, (S cls < a)%nat -> nsum (fun c => nth c res 0%nat) a m = 0%nat).
           { induction m as [|m IHm]; intros a Ha; cbn [nsum]; [reflexivity|]. rewrite V2 by trivial. rewrite IHm by lia. reflexivity. }
           intros n j Hj. destruct n as [|n].
           ++ cbn [nsum] in Hj. rewrite V1 in Hj. split; [lia|]. rewrite Nat.add_0_r. apply Hrs. apply nth_In. lia.
           ++ cbn [nsum] in Hj. rewrite V1 in Hj. rewrite !Z in Hj by lia. rewrite V2 in Hj by lia. lia.
      * assert (HL' : length num' = length sizes) by (unfold num'; rewrite set_nth_length; lia).
        assert (H0' : forall c, (S cls <= c)%nat -> nth c num' 0%nat = 0%nat).
        { intros c Hle. unfold num'. rewrite nth_set_nth by lia. destruct (Nat.eqb_spec c cls); [lia|]. apply H0. lia. }
        destruct (IH [r] (S cls) num' HD2 HL' ltac:(lia) Hrs H0') as (Q1 & Q2 & Q3). cbn [length] in Q1, Q2, Q3.
        apply FIN; trivial. rewrite Q2. unfold num'. rewrite set_nth_length; lia.
Qed.

(** ** placing *)
Lemma trunc_nonneg : forall x, 0 <= x -> trunc x = floorZ x.
Proof. intros x H. unfold trunc. destruct (rltb_spec x 0) as [(-> & L)|(-> & L)]; [lra|reflexivity]. Qed.
Lemma trunc_neg : forall x, x < 0 -> x <= IZR (trunc x) < x + 1 /\ (trunc x <= 0)%Z.
Proof.
  intros x H. unfold trunc. destruct (rltb_spec x 0) as [(-> & L)|(-> & L)]; [|lra].
  destruct (base_Int_part (- x)) as (A & B). rewrite opp_IZR. split; [lra|].
  assert (0 <= Int_part (- x))%Z; [|lia]. apply (floorZ_ge (- x) 0). lra.
Qed.

Lemma index_range_covers : forall p po ro a lo l n, 0 < l -> 0 <= ro -> a <= l -> Rabs (p - po) < a + ro ->
  0 <= p - lo < IZR n * l -> In (trunc ((p - lo) / l)) (index_range po ro lo l n).
Proof.
  intros p po ro a lo l n Hl Hro Ha Hd Hp. unfold index_range. rewrite zrange_In.
  assert (Hx : 0 <= (p - lo) / l < IZR n).
  { split; [apply Rmult_le_pos; [lra|left; now apply Rinv_0_lt_compat]|].
    apply Rmult_lt_reg_r with l; trivial. unfold Rdiv. rewrite Rmult_assoc, Rinv_l by lra. lra. }
  assert (Hd' : - (a + ro) < p - po < a + ro) by (apply Rabs_def2 in Hd; lra).
  set (x := (p - lo) / l) in *. set (y := (po + ro - lo) / l). set (z := (po - ro - lo) / l).
  assert (Hy : x < y + 1).
  { subst x y. apply Rmult_lt_reg_r with l; trivial. rewrite Rmult_plus_distr_r. unfold Rdiv.
    rewrite !Rmult_assoc, Rinv_l by lra. lra. }
  assert (Hz : z - 1 < x).
  { subst x z. apply Rmult_lt_reg_r with l; trivial. rewrite Rmult_minus_distr_r. unfold Rdiv.
    rewrite !Rmult_assoc, Rinv_l by lra. lra. }
  rewrite (trunc_nonneg x) by lra. set (k := floorZ x).
  assert (K0 : (0 <= k)%Z) by (apply floorZ_ge; lra). assert (K1 : (k < n)%Z) by (apply floorZ_lt; lra).
  destruct (floorZ_bounds x) as (K2 & K3). fold k in K2, K3. clearbody x y z k.
  assert (U : (k <= trunc y + 1)%Z).
  { destruct (Rle_lt_dec 0 y) as [Y|Y].
    - rewrite trunc_nonneg by trivial. assert (k - 1 <= floorZ y)%Z; [|lia]. apply floorZ_ge. rewrite minus_IZR. lra.
    - destruct (trunc_neg y Y) as (T & _). assert (k - 1 < trunc y)%Z; [|lia]. apply lt_IZR. rewrite minus_IZR. lra. }
  assert (W : (trunc z - 1 <= k)%Z).
  { destruct (Rle_lt_dec 0 z) as [Y|Y].
    - rewrite trunc_nonneg by trivial. assert (floorZ z < k + 2)%Z; [|lia]. apply floorZ_lt. rewrite plus_IZR. lra.
    - destruct (trunc_neg z Y) as (_ & T). lia. }
  lia.
Qed.

Definition boxes_fit (b : sboxes) (len : v3) : Prop :=
  let '(nx, ny, nz) := sb_n b in
  (0 < nx)%Z /\ (0 < ny)%Z /\ (0 < nz)%Z /\ 0 < vx (sb_l b) /\ 0 < vy (sb_l b) /\ 0 < vz (sb_l b) /\
  IZR nx * vx (sb_l b) = vx len /\ IZR ny * vy (sb_l b) = vy len /\ IZR nz * vz (sb_l b) = vz len.
Lemma box_axis : forall L sub, 0 < sub -> sub <= L ->
  (0 < floorZ (L / sub))%Z /\ IZR (floorZ (L / sub)) * (L / IZR (floorZ (L / sub))) = L /\ sub <= L / IZR (floorZ (L / sub)).
Proof.
  intros L sub Hs HL. assert (H1 : 1 <= L / sub).
  { apply Rmult_le_reg_r with sub; trivial. unfold Rdiv. rewrite Rmult_assoc, Rinv_l by lra. lra. }
  assert (H : (1 <= floorZ (L / sub))%Z) by now apply floorZ_ge.
  destruct (floorZ_bounds (L / sub)) as (A & _). set (n := floorZ (L / sub)) in *. apply IZR_le in H as H'.
  split; [lia|]. split; [field; lra|].
  apply Rmult_le_reg_r with (IZR n); [lra|]. unfold Rdiv. rewrite Rmult_assoc, Rinv_l by lra.
  apply (Rmult_le_compat_r sub) in A; [|lra]. unfold Rdiv in A. rewrite Rmult_assoc, Rinv_l in A by lra. lra.
Qed.
Lemma make_boxes_fit : forall len size shr, 0 < size / (1 - shr) -> size / (1 - shr) <= vx len ->
  size / (1 - shr) <= vy len -> size / (1 - shr) <= vz len ->
  let b := make_boxes len size shr in
  boxes_fit b len /\ size / (1 - shr) <= vx (sb_l b) /\ size / (1 - shr) <= vy (sb_l b) /\ size / (1 - shr) <= vz (sb_l b).
Proof.
  intros len size shr H0 Hx Hy Hz b. unfold b, make_boxes, boxes_fit. cbn [sb_n sb_l vx vy vz].
  destruct (box_axis _ _ H0 Hx) as (A1 & A2 & A3). destruct (box_axis _ _ H0 Hy) as (B1 & B2 & B3).
  destruct (box_axis _ _ H0 Hz) as (C1 & C2 & C3). repeat (split; trivial); lra.
Qed.

Lemma covered_In : forall b lo p r x y z,
  let '(nx, ny, nz) := sb_n b in
  In x (index_range (vx p) r (vx lo) (vx (sb_l b)) nx) -> In y (index_range (vy p) r (vy lo) (vy (sb_l b)) ny) ->
  In z (index_range (vz p) r (vz lo) (vz (sb_l b)) nz) -> In (sb_index b x y z) (covered b lo p r).
Proof.
  intros b lo p r x y z. unfold covered. destruct (sb_n b) as [[nx ny] nz] eqn:En. intros Hx Hy Hz.
  apply in_flat_map. exists x. split; trivial. apply in_flat_map. exists y. split; trivial. apply in_map_iff. exists z. auto.
Qed.
Lemma insert_particle_In : forall b lo p r i t k j,
  In j (insert_particle b lo p r i t k) <-> In j (t k) \/ (j = i /\ In k (covered b lo p r)).
Proof.
  intros b lo p r i t k j. unfold insert_particle. rewrite in_app_iff, in_map_iff. split.
  - intros [H|(x & <- & H)]; auto. right. split; trivial. apply filter_In in H. destruct H as (H & E).
    apply Z.eqb_eq in E. now subst.
  - intros [H|(-> & H)]; auto. right. exists k. split; trivial. apply filter_In. split; trivial. apply Z.eqb_refl.
Qed.

Section Place2.
Variables (ty : specimen_type) (lo len : v3) (rel ab : R) (maxTries : Z) (u : nat -> R) (rad : nat -> R).
Hypothesis Hu : unit_stream u.

Definition reach (i : nat) : R := rad i * (1 + rel) + ab.
(** the particle [i] can be placed with the boxes [b] *)
Definition placeable (b : sboxes) (i : nat) : Prop :=
  0 < rad i /\ 2 * rad i <= vx len /\ 2 * rad i <= vy len /\ 2 * rad i <= vz len /\
  reach i <= vx (sb_l b) /\ reach i <= vy (sb_l b) /\ reach i <= vz (sb_l b) /\ 0 <= reach i.
Definition ok_boundary (p : v3) (i : nat) : Prop :=
  ball_in_box lo len p (rad i) /\ collides_boundary ty lo len p (rad i) rel ab = Ok false.
Definition far (p q : v3) (i j : nat) : Prop :=   (* [j] placed after [i] *)
  reach j + rad i <= distance q p.
Definition complete (b : sboxes) (pos : nat -> v3) (t : table) (n : nat) : Prop :=
  forall i k, (i < n)%nat -> In k (covered b lo (pos i) (rad i)) -> In i (t k).

Lemma random_coordinate_in : forall r l L v, 0 <= r -> 2 * r <= L -> 0 <= v <= 1 ->
  l + r <= random_coordinate r l L v <= l + L - r.
Proof. intros r l L v H H' Hv. unfold random_coordinate. nra. Qed.

Lemma place_one_ok : forall fuel b pos t i k tries, boxes_fit b len -> placeable b i ->
  (forall j, (j < i)%nat -> 0 <= rad j) -> complete b pos t i ->
  place_one ty lo len rel ab maxTries u rad fuel b pos t i k tries <> UB /\
  forall p k', place_one ty lo len rel ab maxTries u rad fuel b pos t i k tries = Ok (Some (p, k')) ->
    ok_boundary p i /\ forall j, (j < i)%nat -> far (pos j) p j i.
Proof.
  induction fuel as [|f IH]; intros b pos t i k tries HB HP Hr HC.
  - cbn [place_one]. split; [discriminate|]. intros p k' E. discriminate.
  - cbn [place_one].
    set (p := V3 (random_coordinate (rad i) (vx lo) (vx len) (u k))
                (random_coordinate (rad i) (vy lo) (vy len) (u (S k)))
                (random_coordinate (rad i) (vz lo) (vz len) (u (S (S k))))).
    pose proof HP as (P0 & Px & Py & Pz & Rx & Ry & Rz & R0).
    pose proof (random_coordinate_in (rad i) (vx lo) (vx len) (u k) ltac:(lra) Px (Hu k)) as Ix.
    pose proof (random_coordinate_in (rad i) (vy lo) (vy len) (u (S k)) ltac:(lra) Py (Hu (S k))) as Iy.
    pose proof (random_coordinate_in (rad i) (vz lo) (vz len) (u (S (S k))) ltac:(lra) Pz (Hu (S (S k)))) as Iz.
    assert (IB : ball_in_box lo len p (rad i)) by (unfold ball_in_box, p; cbn [vx vy vz]; auto).
    fold (vx p) in Ix. change (random_coordinate (rad i) (vx lo) (vx len) (u k)) with (vx p) in Ix.
    change (random_coordinate (rad i) (vy lo) (vy len) (u (S k))) with (vy p) in Iy.
    change (random_coordinate (rad i) (vz lo) (vz len) (u (S (S k)))) with (vz p) in Iz. clearbody p.
    destruct (collides_boundary ty lo len p (rad i) rel ab) as [collides| |] eqn:Ec; cbn [obind].
    2: split; [discriminate|intros; discriminate].
    2: { exfalso. unfold collides_boundary in Ec. destruct ty; try discriminate Ec. destruct (rltb _ _) in Ec; discriminate Ec. }
    destruct collides; [now apply IH|].
    pose proof HB as HB'. unfold boxes_fit in HB'. destruct (sb_n b) as [[nx ny] nz] eqn:En.
    destruct HB' as (Nx & Ny & Nz & Lx & Ly & Lz & Ex & Ey & Ez).
    set (cx := trunc ((vx p - vx lo) / vx (sb_l b))). set (cy := trunc ((vy p - vy lo) / vy (sb_l b))).
    set (cz := trunc ((vz p - vz lo) / vz (sb_l b))).
    assert (CI : forall c l L n, 0 < l -> IZR n * l = L -> 0 <= c < L -> (0 <= trunc (c / l) < n)%Z).
    { intros c l L n Hl HL Hc.
      assert (Hx : 0 <= c / l < IZR n).
      { split; [apply Rmult_le_pos; [lra|left; now apply Rinv_0_lt_compat]|].
        apply Rmult_lt_reg_r with l; trivial. unfold Rdiv. rewrite Rmult_assoc, Rinv_l by lra. lra. }
      rewrite trunc_nonneg by lra. split; [apply floorZ_ge; lra|apply floorZ_lt; lra]. }
    pose proof (CI (vx p - vx lo) _ _ _ Lx Ex ltac:(lra)) as Cx. pose proof (CI (vy p - vy lo) _ _ _ Ly Ey ltac:(lra)) as Cy.
    pose proof (CI (vz p - vz lo) _ _ _ Lz Ez ltac:(lra)) as Cz. fold cx in Cx. fold cy in Cy. fold cz in Cz.
    assert (Hbi : (0 <= sb_index b cx cy cz < sb_count b)%Z).
    { unfold sb_index, sb_count. rewrite En. pose proof (lin_range ny nz nx cx cy cz Cx Cy Cz). nia. }
    destruct (Z.leb_spec 0 (sb_index b cx cy cz)); [|lia]. destruct (Z.ltb_spec (sb_index b cx cy cz) (sb_count b)); [|lia].
    cbn [andb].
    destruct (existsb (too_close pos rad i p rel ab) (t (sb_index b cx cy cz))) eqn:Eb.
    + destruct (Z.ltb maxTries (tries + 1)); [split; [discriminate|intros; discriminate]|]. now apply IH.
    + split; [discriminate|]. intros p' k' E. injection E as <- <-. split; [now split|].
      intros j Hj. unfold far. destruct (Rle_lt_dec (reach i + rad j) (distance p (pos j))) as [|L]; trivial. exfalso.
      set (dx := vx p - vx (pos j)). set (dy := vy p - vy (pos j)). set (dz := vz p - vz (pos j)).
      pose proof (Hr j Hj) as Rj.
      assert (SQ : dx² + dy² + dz² < (reach i + rad j)²).
      { unfold distance in L. fold dx dy dz in L. pose proof (Rle_0_sqr dx). pose proof (Rle_0_sqr dy). pose proof (Rle_0_sqr dz).
        apply Rsqr_incrst_1 in L; [|apply sqrt_pos|lra]. rewrite Rsqr_sqrt in L by lra. exact L. }
      assert (AX : forall d, d² <= dx² + dy² + dz² -> Rabs d < reach i + rad j).
      { intros d Hd. apply Rsqr_lt_abs_0 in SQ || idtac. assert (D2 : d² < (reach i + rad j)²) by lra.
        apply Rsqr_lt_abs_0 in D2. rewrite (Rabs_pos_eq (reach i + rad j)) in D2 by lra. exact D2. }
      pose proof (Rle_0_sqr dx). pose proof (Rle_0_sqr dy). pose proof (Rle_0_sqr dz).
      assert (HI : In j (t (sb_index b cx cy cz))).
      { apply HC; trivial. pose proof (covered_In b lo (pos j) (rad j) cx cy cz) as CV. rewrite En in CV. apply CV.
        - apply index_range_covers with (reach i); trivial; [apply AX; fold dx; lra | lra].
        - apply index_range_covers with (reach i); trivial; [apply AX; fold dy; lra | lra].
        - apply index_range_covers with (reach i); trivial; [apply AX; fold dz; lra | lra]. }
      assert (TC : too_close pos rad i p rel ab j = true).
      { unfold too_close. fold dx dy dz. unfold reach, Rsqr in SQ.
        destruct (rltb_spec (dx * dx + dy * dy + dz * dz) ((rad i * (1 + rel) + ab + rad j) * (rad i * (1 + rel) + ab + rad j)))
          as [(-> & Q)|(-> & Q)]; [reflexivity|lra]. }
      assert (X : existsb (too_close pos rad i p rel ab) (t (sb_index b cx cy cz)) = true).
      { apply existsb_exists. now exists j. }
      congruence.
Qed.

(** the particles below [n] are placed well *)
Definition packed (pos : nat -> v3) (n : nat) : Prop :=
  (forall i, (i < n)%nat -> ok_boundary (pos i) i) /\
  (forall i j, (i < j < n)%nat -> far (pos i) (pos j) i j).

Lemma place_class_ok : forall fuel b count i k pos t, boxes_fit b len ->
  (forall j, (i <= j < i + count)%nat -> placeable b j) -> (forall j, (j < i)%nat -> 0 <= rad j) ->
  complete b pos t i -> packed pos i ->
  place_class ty lo len rel ab maxTries u rad fuel b count i k pos t <> UB /\
  forall pos' k', place_class ty lo len rel ab maxTries u rad fuel b count i k pos t = Ok (Some (pos', k')) ->
    packed pos' (i + count) /\ (forall j, (j < i)%nat \/ (i + count <= j)%nat -> pos' j = pos j).
Proof.
  intros fuel b count. induction count as [|c IH]; intros i k pos t HB HP Hr HC HK; cbn [place_class].
  - split; [discriminate|]. intros pos' k' E. injection E as <- <-. rewrite Nat.add_0_r. auto.
  - destruct (place_one_ok fuel b pos t i k 0 HB (HP i ltac:(lia)) Hr HC) as (NU & OK1).
    destruct (place_one ty lo len rel ab maxTries u rad fuel b pos t i k 0) as [[[p k1]|]| |] eqn:E1; cbn [obind].
    2: split; [discriminate|intros; discriminate]. 2: split; [discriminate|intros; discriminate]. 2: congruence.
    destruct (OK1 p k1 eq_refl) as (IB & FR). pose proof (HP i ltac:(lia)) as (Ri & _).
    assert (HC' : complete b (set_pos pos i p) (insert_particle b lo p (rad i) i t) (S i)).
    { intros j k0 Hj Hk. apply insert_particle_In. unfold set_pos in Hk. destruct (Nat.eqb_spec j i) as [->|Hn].
      - right. auto.
      - left. apply HC; trivial. lia. }
    assert (HK' : packed (set_pos pos i p) (S i)).
    { destruct HK as (K1 & K2). split.
      - intros j Hj. unfold set_pos. destruct (Nat.eqb_spec j i) as [->|Hn]; trivial. apply K1. lia.
      - intros j j' Hj. unfold set_pos. destruct (Nat.eqb_spec j' i) as [->|Hn'].
        + destruct (Nat.eqb_spec j i); [lia|]. apply FR. lia.
        + destruct (Nat.eqb_spec j i); [lia|]. apply K2. lia. }
    destruct (IH (S i) k1 (set_pos pos i p) (insert_particle b lo p (rad i) i t) HB) as (NU' & OK'); trivial.
    + intros j Hj. apply HP. lia.
    + intros j Hj. destruct (Nat.eq_dec j i) as [->|]; [lra|]. apply Hr. lia.
    + split; [exact NU'|]. intros pos' k' E. destruct (OK' _ _ E) as (Q1 & Q2).
      replace (i + S c)%nat with (S i + c)%nat by lia. split; trivial.
      intros j Hj. rewrite Q2 by lia. unfold set_pos. destruct (Nat.eqb_spec j i); [lia|reflexivity].
Qed.

Lemma complete_fold : forall b pos n, complete b pos
  (fold_left (fun t i => insert_particle b lo (pos i) (rad i) i t) (seq 0 n) (fun _ => [])) n.
Proof.
  intros b pos n i k Hi Hk.
  assert (G : forall l t, In i l \/ In i (t k) ->
    In i (fold_left (fun t i => insert_particle b lo (pos i) (rad i) i t) l t k)).
  { induction l as [|a l IH]; intros t H; cbn [fold_left].
    - destruct H as [[]|]; trivial.
    - apply IH. destruct H as [[->|H]|H]; [right|now left|right]; apply insert_particle_In; auto. }
  apply G. left. apply in_seq. lia.
Qed.

Fixpoint classes_fit (shr : R) (cs : list (R * nat)) (added : nat) : Prop :=
  match cs with
  | [] => True
  | (s, n) :: cs' =>
    boxes_fit (make_boxes len s shr) len /\
    (forall j, (added <= j < added + n)%nat -> placeable (make_boxes len s shr) j) /\ classes_fit shr cs' (added + n)
  end.
Lemma place_classes_ok : forall fuel shr cs added k pos, classes_fit shr cs added ->
  (forall j, (j < added)%nat -> 0 <= rad j) -> packed pos added ->
  place_classes ty lo len rel ab maxTries u rad fuel shr cs added k pos <> UB /\
  forall pos', place_classes ty lo len rel ab maxTries u rad fuel shr cs added k pos = Ok (Some pos') ->
    packed pos' (added + nsum (fun c => nth c (map snd cs) 0%nat) 0 (length cs)) /\
    forall j, (added + nsum (fun c => nth c (map snd cs) 0%nat) 0 (length cs) <= j)%nat -> pos' j = pos j.
Proof.
  intros fuel shr cs. induction cs as [|[s n] cs IH]; intros added k pos HF Hr HK.
  - cbn [place_classes length nsum]. split; [discriminate|]. intros pos' E. injection E as <-. rewrite Nat.add_0_r. auto.
  - cbn [classes_fit] in HF. destruct HF as (HB & HP & HF). cbn [place_classes].
    set (b := make_boxes len s shr) in *.
    destruct (place_class_ok fuel b n added k pos _ HB HP Hr (complete_fold b pos added) HK) as (NU & OK1).
    destruct (place_class ty lo len rel ab maxTries u rad fuel b n added k pos _) as [[[pos1 k1]|]| |] eqn:E1; cbn [obind].
    2: split; [discriminate|intros; discriminate]. 2: split; [discriminate|intros; discriminate]. 2: congruence.
    destruct (OK1 pos1 k1 eq_refl) as (K1 & K2).
    destruct (IH (added + n)%nat k1 pos1 HF) as (NU2 & OK2); trivial.
    { intros j Hj. destruct (Nat.lt_ge_cases j added); [now apply Hr|]. destruct (HP j ltac:(lia)) as (Pj & _). lra. }
    split; [exact NU2|]. intros pos' E. destruct (OK2 pos' E) as (Q1 & Q2).
    assert (EN : (nsum (fun c => nth c (map snd ((s, n) :: cs)) 0%nat) 0 (length ((s, n) :: cs)) =
                  n + nsum (fun c => nth c (map snd cs) 0%nat) 0 (length cs))%nat).
    { cbn [map snd length nsum nth]. f_equal.
      assert (Sh : forall m a, nsum (fun c => match c with O => n | S c' => nth c' (map snd cs) 0%nat end) (S a) m =
                               nsum (fun c => nth c (map snd cs) 0%nat) a m).
      { induction m as [|m IHm]; intro a; cbn [nsum]; [reflexivity|]. now rewrite IHm. }
      apply Sh. }
    rewrite EN, Nat.add_assoc. split; trivial. intros j Hj. rewrite Q2 by trivial. apply K2. lia.
Qed.
End Place2.
