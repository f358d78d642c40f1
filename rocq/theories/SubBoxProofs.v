From Coq Require Import Reals ZArith List Bool Lia Lra Psatz FinFun.
From Verif Require Import Outcome AdaptiveModel AdaptiveProofs Vec3 CollisionModel CollisionProofs CollisionProofs2
  SubBoxModel SubBoxSpec.
Import ListNotations.
Local Open Scope R_scope.

Definition in_grid (g : grid) (x y z : Z) : Prop :=
  (0 <= x < gnx g /\ 0 <= y < gny g /\ 0 <= z < gnz g)%Z.
Definition glen (g : grid) : v3 := V3 (ghx g) (ghy g) (ghz g).
Definition gridok (g : grid) : Prop :=
  (0 < gnx g)%Z /\ (0 < gny g)%Z /\ (0 < gnz g)%Z /\ 0 < ghx g /\ 0 < ghy g /\ 0 < ghz g.

(** ** indices *)
Lemma clampZ_id : forall x n, (0 <= x < n)%Z -> clampZ x n = x.
Proof. intros. unfold clampZ. lia. Qed.
Lemma box_index_in : forall g x y z, in_grid g x y z ->
  box_index g x y z = (gny g * gnz g * x + gnz g * y + z)%Z.
Proof. intros g x y z (A & B & C). unfold box_index. now rewrite !clampZ_id by lia. Qed.
Lemma lin_range : forall n1 n2 n0 x y z, (0 <= x < n0 -> 0 <= y < n1 -> 0 <= z < n2 ->
  0 <= n1 * n2 * x + n2 * y + z < n0 * n1 * n2)%Z.
Proof.
  intros n1 n2 n0 x y z Hx Hy Hz.
  assert (A : (0 <= n2 * y + z < n1 * n2)%Z) by nia.
  assert (B : (n1 * n2 * x <= n1 * n2 * (n0 - 1))%Z) by (apply Z.mul_le_mono_nonneg_l; nia).
  assert (C : (0 <= n1 * n2 * x)%Z) by nia. nia.
Qed.
Lemma lin_inj : forall n1 n2 x y z x' y' z', (0 <= y < n1 -> 0 <= z < n2 -> 0 <= y' < n1 -> 0 <= z' < n2 ->
  n1 * n2 * x + n2 * y + z = n1 * n2 * x' + n2 * y' + z' -> x = x' /\ y = y' /\ z = z')%Z.
Proof.
  intros n1 n2 x y z x' y' z' Hy Hz Hy' Hz' E.
  assert (H1 : (n2 * (n1 * x + y) + z = n2 * (n1 * x' + y') + z')%Z) by lia.
  assert (Ez : z = z').
  { rewrite (Z.mod_unique_pos (n2 * (n1 * x + y) + z) n2 (n1 * x + y) z) by lia.
    rewrite (Z.mod_unique_pos (n2 * (n1 * x' + y') + z') n2 (n1 * x' + y') z') by lia. now rewrite H1. }
  subst z'. assert (H2 : (n1 * x + y = n1 * x' + y')%Z) by nia.
  assert (Ey : y = y').
  { rewrite (Z.mod_unique_pos (n1 * x + y) n1 x y) by lia.
    rewrite (Z.mod_unique_pos (n1 * x' + y') n1 x' y') by lia. now rewrite H2. }
  subst y'. repeat split; trivial. nia.
Qed.
Lemma box_index_range : forall g x y z, in_grid g x y z -> (0 <= box_index g x y z < num_boxes g)%Z.
Proof.
  intros g x y z H. rewrite box_index_in by trivial. destruct H as (A & B & C). unfold num_boxes.
  now apply lin_range.
Qed.
Lemma box_index_inj : forall g x y z x' y' z', in_grid g x y z -> in_grid g x' y' z' ->
  box_index g x y z = box_index g x' y' z' -> x = x' /\ y = y' /\ z = z'.
Proof.
  intros g x y z x' y' z' H H' E. rewrite !box_index_in in E by trivial.
  destruct H as (A & B & C), H' as (A' & B' & C'). eapply lin_inj; eauto.
Qed.
Lemma div_split : forall n q r d, (0 <= r < d -> n = d * q + r -> 0 <= n -> 0 < d -> 0 <= q)%Z.
Proof. intros. nia. Qed.
Lemma box_index_surj : forall g i, gridok g -> (0 <= i < num_boxes g)%Z ->
  exists x y z, in_grid g x y z /\ box_index g x y z = i.
Proof.
  intros g i (P1 & P2 & P3 & _) Hi. unfold num_boxes in Hi.
  set (n0 := gnx g) in *. set (n1 := gny g) in *. set (n2 := gnz g) in *.
  pose proof (Z.div_mod i n2 ltac:(lia)) as E1. pose proof (Z.mod_pos_bound i n2 ltac:(lia)) as B1.
  set (q := (i / n2)%Z) in *. set (z := (i mod n2)%Z) in *.
  pose proof (Z.div_mod q n1 ltac:(lia)) as E2. pose proof (Z.mod_pos_bound q n1 ltac:(lia)) as B2.
  set (x := (q / n1)%Z) in *. set (y := (q mod n1)%Z) in *.
  assert (Hq : (0 <= q < n0 * n1)%Z) by nia.
  assert (Hx : (0 <= x < n0)%Z) by nia.
  exists x, y, z. assert (G : in_grid g x y z) by (unfold in_grid; fold n0 n1 n2; auto).
  split; [exact G|]. rewrite box_index_in by trivial. fold n1 n2. rewrite E1, E2. ring.
Qed.

(** ** walls *)
Lemma neighbour_cases : forall k, (k < 6)%nat ->
  k = 0%nat \/ k = 1%nat \/ k = 2%nat \/ k = 3%nat \/ k = 4%nat \/ k = 5%nat.
Proof. intros. lia. Qed.
Definition moved (x y z : Z) (k : nat) : Z * Z * Z :=
  let '(dx, dy, dz) := neighbour k in (x + dx, y + dy, z + dz)%Z.

Lemma wall_kind_lemma : forall g x y z k, gridok g -> in_grid g x y z -> (k < 6)%nat ->
  let '(x', y', z') := moved x y z k in
  let w := build_wall g x y z k in
  bw_inside w = box_index g x y z /\
  (in_grid g x' y' z' -> bw_kind w = Virtual /\ bw_outside w = box_index g x' y' z') /\
  (~ in_grid g x' y' z' -> bw_kind w = Physical).
Proof.
  intros g x y z k OK G Hk. unfold moved, build_wall.
  assert (D : neighbour k = neighbour k) by reflexivity.
  destruct (neighbour k) as [[dx dy] dz] eqn:En.
  split; [reflexivity|]. split.
  - intro G'. cbn [bw_kind bw_outside]. split; [|reflexivity].
    destruct (Z.eqb_spec (box_index g x y z) (box_index g (x + dx) (y + dy) (z + dz))) as [E|]; [|reflexivity].
    exfalso. apply box_index_inj in E; trivial.
    destruct (neighbour_cases k Hk) as [->|[->|[->|[->|[->| ->]]]]]; cbn [neighbour] in En; injection En as <- <- <-; lia.
  - intro G'. cbn [bw_kind].
    replace (box_index g (x + dx) (y + dy) (z + dz)) with (box_index g x y z); [now rewrite Z.eqb_refl|].
    destruct G as (A & B & C). unfold in_grid in G'. unfold box_index.
    assert (E : clampZ (x + dx) (gnx g) = clampZ x (gnx g) /\ clampZ (y + dy) (gny g) = clampZ y (gny g) /\
                clampZ (z + dz) (gnz g) = clampZ z (gnz g)).
    { unfold clampZ.
      destruct (neighbour_cases k Hk) as [->|[->|[->|[->|[->| ->]]]]]; cbn [neighbour] in En; injection En as <- <- <-;
        split; [|split| |split| |split| |split| |split| |split]; lia. }
    destruct E as (-> & -> & ->). reflexivity.
Qed.

(** ** regions *)
Definition in_front (w : wall) (p : v3) : Prop := 0 <= dot (wdir w) (vsub p (wpos w)).

Lemma region_lemma : forall g x y z p, gridok g ->
  (forall w, In w (build_walls g x y z) -> in_front (bw_wall w) p) <->
  cell3 in_cell (gorg g) (glen g) p x y z.
Proof.
  intros g x y z p OK. unfold build_walls. cbn [seq map].
  assert (N : forall k, (k < 6)%nat ->
    wdir (bw_wall (build_wall g x y z k)) =
    (let '(dx, dy, dz) := neighbour k in V3 (IZR (- dx)) (IZR (- dy)) (IZR (- dz)))).
  { intros k Hk. destruct (neighbour_cases k Hk) as [->|[->|[->|[->|[->| ->]]]]];
      cbn [build_wall neighbour bw_wall new_wall wdir]; apply normalize_of_unit; unfold dot; cbn [vx vy vz];
      cbn [Z.opp]; ring. }
  assert (F : forall k, (k < 6)%nat -> (in_front (bw_wall (build_wall g x y z k)) p <->
     match k with
     | 0%nat => vx (gorg g) + IZR x * ghx g <= vx p
     | 1%nat => vx p <= vx (gorg g) + (IZR x + 1) * ghx g
     | 2%nat => vy (gorg g) + IZR y * ghy g <= vy p
     | 3%nat => vy p <= vy (gorg g) + (IZR y + 1) * ghy g
     | 4%nat => vz (gorg g) + IZR z * ghz g <= vz p
     | _ => vz p <= vz (gorg g) + (IZR z + 1) * ghz g end)).
  { intros k Hk. unfold in_front. rewrite (N k Hk).
    destruct (neighbour_cases k Hk) as [->|[->|[->|[->|[->| ->]]]]];
      cbn [build_wall neighbour bw_wall new_wall wpos face_position vx vy vz Z.opp];
      unfold dot, vsub; cbn [vx vy vz]; lra. }
  unfold cell3, in_cell, glen; cbn [vx vy vz].
  split.
  - intro H.
    assert (H' : forall k, (k < 6)%nat -> in_front (bw_wall (build_wall g x y z k)) p).
    { intros k Hk. apply H. destruct (neighbour_cases k Hk) as [->|[->|[->|[->|[->| ->]]]]]; cbn [In]; auto 10. }
    pose proof (proj1 (F 0%nat ltac:(lia)) (H' 0%nat ltac:(lia))).
    pose proof (proj1 (F 1%nat ltac:(lia)) (H' 1%nat ltac:(lia))).
    pose proof (proj1 (F 2%nat ltac:(lia)) (H' 2%nat ltac:(lia))).
    pose proof (proj1 (F 3%nat ltac:(lia)) (H' 3%nat ltac:(lia))).
    pose proof (proj1 (F 4%nat ltac:(lia)) (H' 4%nat ltac:(lia))).
    pose proof (proj1 (F 5%nat ltac:(lia)) (H' 5%nat ltac:(lia))).
    cbn beta iota in *. lra.
  - intros (Hx & Hy & Hz) w [<-|[<-|[<-|[<-|[<-|[<-|[]]]]]]]; apply F; try lia; lra.
Qed.

(** ** floor *)
Lemma floorZ_bounds : forall x, IZR (floorZ x) <= x < IZR (floorZ x) + 1.
Proof. intro x. unfold floorZ. destruct (base_Int_part x). lra. Qed.
Lemma floorZ_ge : forall x k, (k <= floorZ x)%Z <-> IZR k <= x.
Proof.
  intros x k. destruct (floorZ_bounds x) as (A & B). split; intro H.
  - apply IZR_le in H. lra.
  - assert (IZR k < IZR (floorZ x + 1)) by (rewrite plus_IZR; lra). apply lt_IZR in H0. lia.
Qed.
Lemma floorZ_lt : forall x k, (floorZ x < k)%Z <-> x < IZR k.
Proof. intros x k. pose proof (floorZ_ge x k). destruct (Rle_lt_dec (IZR k) x); [|]; split; intro; try lia; try lra.
  - exfalso. apply H in r. lia.
  - destruct (Z_lt_le_dec (floorZ x) k); trivial. apply H in l. lra. Qed.
Lemma floorZ_eq : forall x k, IZR k <= x < IZR k + 1 -> floorZ x = k.
Proof.
  intros x k (A & B). assert (k <= floorZ x)%Z by now apply floorZ_ge.
  assert (floorZ x < k + 1)%Z by (apply floorZ_lt; rewrite plus_IZR; lra). lia.
Qed.
Lemma cell_index_ge : forall c o h k, 0 < h -> ((k <= cell_index c o h)%Z <-> o + IZR k * h <= c).
Proof.
  intros c o h k Hh. unfold cell_index. rewrite floorZ_ge. split; intro H.
  - apply (Rmult_le_compat_r h) in H; [|lra]. unfold Rdiv in H. rewrite Rmult_assoc, Rinv_l in H by lra. lra.
  - apply Rmult_le_reg_r with h; trivial. unfold Rdiv. rewrite Rmult_assoc, Rinv_l by lra. lra.
Qed.
Lemma cell_index_lt : forall c o h k, 0 < h -> ((cell_index c o h < k)%Z <-> c < o + IZR k * h).
Proof.
  intros c o h k Hh. pose proof (cell_index_ge c o h k Hh). destruct (Rle_lt_dec (o + IZR k * h) c).
  - apply H in r as r'. split; intro; [lia|lra].
  - split; intro; trivial. destruct (Z_lt_le_dec (cell_index c o h) k); trivial. apply H in l. lra.
Qed.
Lemma cell_index_ho : forall c o h, 0 < h -> in_cell_ho o h c (cell_index c o h).
Proof.
  intros c o h Hh. unfold in_cell_ho. split.
  - apply cell_index_ge; trivial. lia.
  - pose proof (proj1 (cell_index_lt c o h (cell_index c o h + 1) Hh) ltac:(lia)) as H. rewrite plus_IZR in H. exact H.
Qed.

(** ** tiling *)
Lemma tile_exists_axis : forall o h n p, (0 < n)%Z -> 0 < h -> o <= p <= o + IZR n * h ->
  exists k, (0 <= k < n)%Z /\ in_cell o h p k.
Proof.
  intros o h n p Hn Hh (A & B).
  destruct (Rle_lt_or_eq_dec _ _ B) as [B'|E].
  - exists (cell_index p o h). destruct (cell_index_ho p o h Hh) as (C & D). split; [|unfold in_cell; lra].
    split; [apply cell_index_ge; trivial; lra | now apply cell_index_lt].
  - exists (n - 1)%Z. split; [lia|]. unfold in_cell. rewrite minus_IZR. split; [nra|]. lra.
Qed.
Lemma tile_unique_axis : forall o h p k k', 0 < h -> inside_cell o h p k -> in_cell o h p k' -> k = k'.
Proof.
  intros o h p k k' Hh (A & B) (C & D).
  assert (IZR k < IZR k' + 1) by nra. assert (IZR k' < IZR k + 1) by nra.
  rewrite <- plus_IZR in *. apply lt_IZR in H. apply lt_IZR in H0. lia.
Qed.

(** ** AddSpheresToBoxes *)
Lemma zrange_In : forall a b x, In x (zrange a b) <-> (a <= x <= b)%Z.
Proof.
  intros a b x. unfold zrange. rewrite in_map_iff. split.
  - intros (k & <- & Hk). apply in_seq in Hk. lia.
  - intro H. exists (Z.to_nat (x - a)). split; [lia|]. apply in_seq. lia.
Qed.
Lemma zrange_NoDup : forall a b, NoDup (zrange a b).
Proof.
  intros a b. unfold zrange. apply FinFun.Injective_map_NoDup; [|apply seq_NoDup]. intros x y H. lia.
Qed.
Definition lin (g : grid) (c : Z * Z * Z) : Z := let '(x, y, z) := c in (gny g * gnz g * x + gnz g * y + z)%Z.
Definition cell_ok (g : grid) (c : Z * Z * Z) : Prop := let '(x, y, z) := c in in_grid g x y z.
Lemma lin_box_index : forall g x y z, in_grid g x y z -> lin g (x, y, z) = box_index g x y z.
Proof. intros. unfold lin. now rewrite box_index_in. Qed.

Lemma add_to_cells_ok : forall g i cells b, Forall (cell_ok g) cells -> (forall k, (0 <= k < num_boxes g)%Z -> b k <> []) ->
  exists b', add_to_cells g i cells b = Ok b' /\ (forall k, (0 <= k < num_boxes g)%Z -> b' k <> []) /\
    (forall k j, In j (b' k) <-> In j (b k) \/ (j = i /\ exists c, In c cells /\ lin g c = k)).
Proof.
  intros g i cells. induction cells as [|[[x y] z] cells IH]; intros b HF Hne.
  - exists b. split; [reflexivity|]. split; trivial. intros k j. split; auto. intros [H|(_ & c & [] & _)]; trivial.
  - apply Forall_cons_iff in HF. destruct HF as (Hc & HF). cbn [cell_ok] in Hc.
    pose proof (box_index_range g x y z Hc) as Hr. rewrite box_index_in in Hr by trivial.
    cbn [add_to_cells]. set (bi := (gny g * gnz g * x + gnz g * y + z)%Z) in *.
    assert (E1 : Z.leb (num_boxes g) (Z.abs bi) = false) by (apply Z.leb_gt; lia). rewrite E1.
    assert (E2 : Z.ltb bi 0 = false) by (apply Z.ltb_ge; lia). rewrite E2.
    destruct (rev (b bi)) as [|lastc rest] eqn:Er.
    { exfalso. apply (Hne bi Hr). rewrite <- (rev_involutive (b bi)), Er. reflexivity. }
    assert (Hlast : In lastc (b bi)) by (apply in_rev; rewrite Er; left; reflexivity).
    destruct (Z.eqb_spec lastc i) as [El|El].
    + destruct (IH b HF Hne) as (b' & Eb & Hne' & HIn). exists b'. split; [exact Eb|]. split; trivial.
      intros k j. rewrite HIn. split.
      * intros [H|(-> & c & Hc' & Ec)]; auto. right. split; trivial. exists c. split; trivial. now right.
      * intros [H|(-> & c & [<-|Hc'] & Ec)]; auto.
        -- left. cbn [lin] in Ec. fold bi in Ec. subst k lastc. exact Hlast.
        -- right. split; trivial. now exists c.
    + set (b1 := fun k => if Z.eqb k bi then b bi ++ [i] else b k).
      assert (Hne1 : forall k, (0 <= k < num_boxes g)%Z -> b1 k <> []).
      { intros k Hk. unfold b1. destruct (Z.eqb k bi); [destruct (b bi); discriminate|auto]. }
      destruct (IH b1 HF Hne1) as (b' & Eb & Hne' & HIn). exists b'. split; [exact Eb|]. split; trivial.
      intros k j. rewrite HIn. unfold b1. destruct (Z.eqb_spec k bi) as [->|Hk].
      * rewrite in_app_iff. cbn [In]. split.
        -- intros [[H|[<-|[]]]|(-> & c & Hc' & Ec)]; auto.
           ++ right. split; trivial. exists (x, y, z). split; [now left|reflexivity].
           ++ right. split; trivial. exists c. split; trivial. now right.
        -- intros [H|(-> & c & [<-|Hc'] & Ec)]; auto.
      * split.
        -- intros [H|(-> & c & Hc' & Ec)]; auto. right. split; trivial. exists c. split; trivial. now right.
        -- intros [H|(-> & c & [<-|Hc'] & Ec)]; auto.
           ++ exfalso. apply Hk. symmetry. exact Ec.
           ++ right. split; trivial. now exists c.
Qed.

Lemma add_to_cells_nodup : forall g i cells b b', Forall (cell_ok g) cells -> NoDup cells ->
  (forall k, NoDup (b k)) -> (forall c, In c cells -> ~ In i (b (lin g c))) ->
  add_to_cells g i cells b = Ok b' -> forall k, NoDup (b' k).
Proof.
  intros g i cells. induction cells as [|[[x y] z] cells IH]; intros b b' HF HN Hb Hf E.
  - cbn [add_to_cells] in E. injection E as <-. exact Hb.
  - apply Forall_cons_iff in HF. destruct HF as (Hc & HF). inversion HN as [|? ? Hnot HN']; subst.
    cbn [add_to_cells] in E. set (bi := (gny g * gnz g * x + gnz g * y + z)%Z) in *.
    destruct (Z.leb (num_boxes g) (Z.abs bi)); [discriminate|]. destruct (Z.ltb bi 0); [discriminate|].
    destruct (rev (b bi)) as [|lastc rest]; [discriminate|].
    destruct (Z.eqb_spec lastc i) as [El|El].
    + eapply IH; eauto. intros c Hc'. apply Hf. now right.
    + eapply IH; [exact HF|exact HN'| | |exact E].
      * intro k. cbn beta. destruct (Z.eqb k bi); [|apply Hb].
        assert (Hi : ~ In i (b bi)) by (apply (Hf (x, y, z)); now left).
        rewrite <- (rev_involutive (b bi ++ [i])). apply NoDup_rev. rewrite rev_unit. constructor.
        -- rewrite <- in_rev. exact Hi.
        -- apply NoDup_rev. apply Hb.
      * intros c Hc'. cbn beta. destruct (Z.eqb_spec (lin g c) bi) as [Ec|_].
        -- exfalso. destruct c as [[x' y'] z']. rewrite Forall_forall in HF. pose proof (HF _ Hc') as Hok.
           cbn [cell_ok lin] in *. destruct Hc as (A & B & C), Hok as (A' & B' & C').
           destruct (lin_inj _ _ _ _ _ _ _ _ B' C' B C Ec) as (-> & -> & ->). contradiction.
        -- apply Hf. now right.
Qed.

Lemma sphere_cells_In : forall g s x y z, gridok g -> 0 <= srad s ->
  In (x, y, z) (sphere_cells g s) <->
  (start_index (gnx g) (cell_index (vx (spos s) + - srad s) (vx (gorg g)) (ghx g))
     (cell_index (vx (spos s) + srad s) (vx (gorg g)) (ghx g)) <= x <=
   end_index (cell_index (vx (spos s) + - srad s) (vx (gorg g)) (ghx g))
     (cell_index (vx (spos s) + srad s) (vx (gorg g)) (ghx g)))%Z /\
  (start_index (gny g) (cell_index (vy (spos s) + - srad s) (vy (gorg g)) (ghy g))
     (cell_index (vy (spos s) + srad s) (vy (gorg g)) (ghy g)) <= y <=
   end_index (cell_index (vy (spos s) + - srad s) (vy (gorg g)) (ghy g))
     (cell_index (vy (spos s) + srad s) (vy (gorg g)) (ghy g)))%Z /\
  (start_index (gnz g) (cell_index (vz (spos s) + - srad s) (vz (gorg g)) (ghz g))
     (cell_index (vz (spos s) + srad s) (vz (gorg g)) (ghz g)) <= z <=
   end_index (cell_index (vz (spos s) + - srad s) (vz (gorg g)) (ghz g))
     (cell_index (vz (spos s) + srad s) (vz (gorg g)) (ghz g)))%Z.
Proof.
  intros g s x y z OK Hr. unfold sphere_cells. rewrite in_flat_map. split.
  - intros (x0 & Hx & H). apply in_flat_map in H. destruct H as (y0 & Hy & H).
    apply in_map_iff in H. destruct H as (z0 & E & Hz). injection E as -> -> ->.
    rewrite zrange_In in *. auto.
  - intros (Hx & Hy & Hz). exists x. rewrite zrange_In. split; trivial.
    apply in_flat_map. exists y. rewrite zrange_In. split; trivial.
    apply in_map_iff. exists z. rewrite zrange_In. auto.
Qed.

(** sphere strictly below the upper faces *)
Definition axis_fits (o h : R) (n : Z) (c r : R) : Prop := o <= c - r /\ c + r < o + IZR n * h.
Definition fits (g : grid) (s : sphere) : Prop :=
  axis_fits (vx (gorg g)) (ghx g) (gnx g) (vx (spos s)) (srad s) /\
  axis_fits (vy (gorg g)) (ghy g) (gny g) (vy (spos s)) (srad s) /\
  axis_fits (vz (gorg g)) (ghz g) (gnz g) (vz (spos s)) (srad s).

Lemma range_axis : forall o h n c r x, 0 < h -> 0 <= r -> axis_fits o h n c r ->
  ((start_index n (cell_index (c + - r) o h) (cell_index (c + r) o h) <= x <=
    end_index (cell_index (c + - r) o h) (cell_index (c + r) o h))%Z <->
   (0 <= x < n)%Z /\ o + IZR x * h <= c + r /\ c - r < o + (IZR x + 1) * h).
Proof.
  intros o h n c r x Hh Hr (A & B).
  assert (L0 : (0 <= cell_index (c + - r) o h)%Z) by (apply cell_index_ge; trivial; lra).
  assert (L1 : (cell_index (c + - r) o h <= cell_index (c + r) o h)%Z).
  { apply cell_index_ge; trivial. destruct (cell_index_ho (c + - r) o h Hh). lra. }
  assert (L2 : (cell_index (c + r) o h < n)%Z) by (apply cell_index_lt; trivial).
  unfold start_index, end_index.
  assert (E : (cell_index (c + - r) o h <= x)%Z <-> c - r < o + (IZR x + 1) * h).
  { pose proof (cell_index_lt (c + - r) o h (x + 1) Hh) as H. rewrite plus_IZR in H.
    split; intro H'; [apply H|]; try lia. assert (cell_index (c + - r) o h < x + 1)%Z by (apply H; lra). lia. }
  pose proof (cell_index_ge (c + r) o h x Hh) as F.
  split.
  - intros (H1 & H2). rewrite <- E, <- F. lia.
  - intros (H1 & H2 & H3). apply E in H3. apply F in H2. lia.
Qed.

Lemma cube_axis : forall o h c r x, 0 < h -> 0 <= r ->
  (o + IZR x * h <= c + r /\ c - r < o + (IZR x + 1) * h <->
   exists p, Rabs (p - c) <= r /\ in_cell_ho o h p x).
Proof.
  intros o h c r x Hh Hr. unfold in_cell_ho. split.
  - intros (A & B). destruct (Rle_lt_dec (o + IZR x * h) (c - r)) as [H|H].
    + exists (c - r). split; [|lra]. replace (c - r - c) with (- r) by ring. rewrite Rabs_Ropp, Rabs_pos_eq; lra.
    + exists (o + IZR x * h). split; [|lra]. apply Rabs_le. lra.
  - intros (p & H & A & B).
    assert (- r <= p - c <= r) by (unfold Rabs in H; destruct (Rcase_abs (p - c)); lra). lra.
Qed.

Definition meets (g : grid) (s : sphere) (x y z : Z) : Prop :=
  exists p, in_cube (spos s) (srad s) p /\ cell3 in_cell_ho (gorg g) (glen g) p x y z.

Lemma sphere_cells_meets : forall g s x y z, gridok g -> 0 <= srad s -> fits g s ->
  In (x, y, z) (sphere_cells g s) <-> in_grid g x y z /\ meets g s x y z.
Proof.
  intros g s x y z OK Hr (Fx & Fy & Fz). rewrite sphere_cells_In by trivial.
  destruct OK as (P1 & P2 & P3 & H1 & H2 & H3).
  rewrite !range_axis by trivial. rewrite !cube_axis by trivial. unfold meets, in_cube, cell3, glen, in_grid. cbn [vx vy vz].
  split.
  - intros ((A & p1 & B) & (C & p2 & D) & (E & p3 & F)). split; [auto|]. exists (V3 p1 p2 p3). cbn [vx vy vz]. tauto.
  - intros ((A & C & E) & p & (B1 & B2 & B3) & (D1 & D2 & D3)). repeat split; try tauto; eauto.
Qed.

Lemma sphere_cells_ok : forall g s, gridok g -> 0 <= srad s -> fits g s -> Forall (cell_ok g) (sphere_cells g s).
Proof.
  intros g s OK Hr F. apply Forall_forall. intros [[x y] z] H. apply sphere_cells_meets in H; trivial. apply H.
Qed.

Lemma NoDup_flat_map : forall (A B : Type) (f : A -> list B) l, NoDup l -> (forall a, In a l -> NoDup (f a)) ->
  (forall a a' b, In a l -> In a' l -> In b (f a) -> In b (f a') -> a = a') -> NoDup (flat_map f l).
Proof.
  intros A B f l. induction l as [|a l IH]; intros HN Hf Hd; cbn [flat_map]; [constructor|].
  inversion HN as [|? ? Hn HN']; subst.
  assert (IHl : NoDup (flat_map f l)).
  { apply IH; trivial.
    - intros. apply Hf. now right.
    - intros x x' b H1 H2. apply Hd; now right. }
  assert (D : forall b, In b (f a) -> ~ In b (flat_map f l)).
  { intros b Hb H. apply in_flat_map in H. destruct H as (a' & Ha' & Hb').
    apply Hn. rewrite (Hd a a' b); trivial; [now left|now right]. }
  pose proof (Hf a (or_introl eq_refl)) as Na. revert Na D. generalize (f a). induction l0 as [|b l0 IH0]; intros Na D; trivial.
  inversion Na; subst. cbn [app]. constructor.
  - rewrite in_app_iff. intros [H|H]; [contradiction|]. apply (D b); trivial. now left.
  - apply IH0; trivial. intros b' Hb'. apply D. now right.
Qed.
Lemma sphere_cells_nodup : forall g s, NoDup (sphere_cells g s).
Proof.
  intros g s. unfold sphere_cells. apply NoDup_flat_map; [apply zrange_NoDup| |].
  - intros x _. apply NoDup_flat_map; [apply zrange_NoDup| |].
    + intros y _. apply FinFun.Injective_map_NoDup; [|apply zrange_NoDup]. intros u v E. now injection E.
    + intros y y' c _ _ H H'. apply in_map_iff in H. apply in_map_iff in H'.
      destruct H as (z & <- & _), H' as (z' & E & _). now injection E.
  - intros x x' c _ _ H H'. apply in_flat_map in H. apply in_flat_map in H'.
    destruct H as (y & _ & H), H' as (y' & _ & H'). apply in_map_iff in H. apply in_map_iff in H'.
    destruct H as (z & <- & _), H' as (z' & E & _). now injection E.
Qed.

Lemma add_spheres_ok : forall g ss b, gridok g -> (forall s, In s ss -> 0 <= srad s /\ fits g s) ->
  (forall k, (0 <= k < num_boxes g)%Z -> b k <> []) ->
  exists b', add_spheres g ss b = Ok b' /\ (forall k, (0 <= k < num_boxes g)%Z -> b' k <> []) /\
    forall x y z j, in_grid g x y z ->
      (In j (b' (box_index g x y z)) <->
       In j (b (box_index g x y z)) \/ exists s, In s ss /\ sid s = j /\ meets g s x y z).
Proof.
  intros g ss. induction ss as [|s ss IH]; intros b OK HS Hne.
  - exists b. split; [reflexivity|]. split; trivial. intros x y z j _. split; auto. intros [H|(s & [] & _)]; trivial.
  - destruct (HS s (or_introl eq_refl)) as (Hr & Hf).
    destruct (add_to_cells_ok g (sid s) (sphere_cells g s) b (sphere_cells_ok g s OK Hr Hf) Hne) as (b1 & E1 & N1 & I1).
    destruct (IH b1 OK (fun s' H => HS s' (or_intror H)) N1) as (b2 & E2 & N2 & I2).
    exists b2. cbn [add_spheres]. rewrite E1. cbn [obind]. split; [exact E2|]. split; trivial.
    intros x y z j G. rewrite I2, I1 by trivial. rewrite <- lin_box_index by trivial. split.
    + intros [[H|(-> & [[x' y'] z'] & Hc & El)]|(s' & Hs & Ej & M)].
      * now left.
      * right. exists s. split; [now left|]. split; trivial.
        apply sphere_cells_meets in Hc; trivial. destruct Hc as (G' & M).
        rewrite !lin_box_index in El by trivial. apply box_index_inj in El; trivial. destruct El as (-> & -> & ->). exact M.
      * right. exists s'. split; [now right|]. auto.
    + intros [H|(s' & [<-|Hs] & Ej & M)]; auto.
      * left. right. split; [auto|]. exists (x, y, z). split; [|reflexivity]. apply sphere_cells_meets; auto.
      * right. exists s'. auto.
Qed.
