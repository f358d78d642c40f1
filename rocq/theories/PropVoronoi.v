(** * C90: the Voronoi geometries tile the element, cell by cell around the integration points *)
From Coq Require Import List Arith Bool Reals Lra Lia ZArith.
From Coquelicot Require Import Coquelicot.
From Verif Require Import RSum Outcome LegendreModel LegendreSpec LegendreProofs PolyProofs QuadratureProofs PointsProofs TensorModel ShapeModel PropShape PropLegendre PropPoints VoronoiModel VisuModel VisuSpec.
Import ListNotations.
Local Open Scope R_scope.

(** ** specification *)
(** the corners of the box between lo and hi in the order of VTK *)
Definition vtk_box (d : nat) (lo hi : nat -> R) : list (list R) :=
  let a := lo 0%nat in let b := lo 1%nat in let c := lo 2%nat in let x := hi 0%nat in let y := hi 1%nat in let z := hi 2%nat in
  match d with
  | 1%nat => [[a]; [x]]
  | 2%nat => [[a; b]; [x; b]; [x; y]; [a; y]]
  | _ => [[a; b; c]; [x; b; c]; [x; y; c]; [a; y; c]; [a; b; z]; [x; b; z]; [x; y; z]; [a; y; z]]
  end.
Definition vtk_cell (d : nat) : Z := match d with 1%nat => 3 | 2%nat => 9 | _ => 12 end%Z.
(** visualization cell i is drawn as a box with these bounds: all its corner ids are ids of points *)
Definition drawn_box (geo : geometry2) (d i : nat) (lo hi : nat -> R) : Prop :=
  exists ids, nth_error (snd geo) i = Some (ids, vtk_cell d) /\ (forall j, In j ids -> (0 <= j)%Z) /\
    map (fun j => nth_error (fst geo) (Z.to_nat j)) ids = map Some (vtk_box d lo hi).
Definition in_drawn (geo : geometry2) (d i : nat) (x : list R) : Prop :=
  exists lo hi, drawn_box geo d i lo hi /\ forall k, (k < d)%nat -> lo k <= nth k x 0 <= hi k.
Definition in_interior (geo : geometry2) (d i : nat) (x : list R) : Prop :=
  exists lo hi, drawn_box geo d i lo hi /\ forall k, (k < d)%nat -> lo k < nth k x 0 < hi k.
Definition in_cube (d : nat) (x : list R) : Prop := length x = d /\ forall k, (k < d)%nat -> -1 <= nth k x 0 <= 1.
Definition dist2 (d : nat) (x y : list R) : R := rsum d (fun k => (nth k x 0 - nth k y 0) * (nth k x 0 - nth k y 0)).
(** point i of the rule is nearest to x *)
Definition nearest (d : nat) (r : list (R * list R)) (i : nat) (x : list R) : Prop :=
  forall j w y, nth_error r j = Some (w, y) -> forall v z, nth_error r i = Some (v, z) -> dist2 d x z <= dist2 d x y.
Definition increasing (l : list R) : Prop := forall i j, (i < j < length l)%nat -> nth i l 0 < nth j l 0.
(** the cells cover the cube and do not overlap *)
Definition tiling (geo : geometry2) (d n : nat) : Prop :=
  length (snd geo) = (n ^ d)%nat /\
  (forall x, in_cube d x -> exists i, (i < n ^ d)%nat /\ in_drawn geo d i x) /\
  (forall i x, (i < n ^ d)%nat -> in_drawn geo d i x -> forall k, (k < d)%nat -> -1 <= nth k x 0 <= 1) /\
  (forall i j x, (i < n ^ d)%nat -> (j < n ^ d)%nat -> in_interior geo d i x -> in_interior geo d j x -> i = j).

(** ** digits *)
Definition digit (n k i : nat) : nat := ((i / n ^ k) mod n)%nat.
Fixpoint idx (n : nat) (ds : list nat) : nat := match ds with [] => 0 | d :: l => d + n * idx n l end.
Lemma digit_S n k i : (0 < n)%nat -> digit n (S k) i = digit n k (i / n).
Proof. intros Hn. unfold digit. cbn [Nat.pow]. rewrite Nat.div_div; auto; try lia. apply Nat.pow_nonzero. lia. Qed.
Lemma digit_0 n i : digit n 0 i = (i mod n)%nat.
Proof. unfold digit. cbn [Nat.pow]. rewrite Nat.div_1_r. reflexivity. Qed.
Lemma idx_bound n ds : (forall a, In a ds -> (a < n)%nat) -> (idx n ds < n ^ length ds)%nat.
Proof.
  induction ds as [|a l IH]; intros H; cbn [idx length Nat.pow]; [lia|]. specialize (IH ltac:(intros; apply H; right; assumption)). specialize (H a (or_introl eq_refl)).
  assert (n * idx n l + n <= n * n ^ length l)%nat by nia. lia.
Qed.
Lemma idx_digit n ds : (forall a, In a ds -> (a < n)%nat) -> forall k, (k < length ds)%nat -> digit n k (idx n ds) = nth k ds 0%nat.
Proof.
  induction ds as [|a l IH]; intros H k Hk; cbn [length] in Hk; [lia|]. pose proof (H a (or_introl eq_refl)) as Ha. destruct k as [|k].
  - rewrite digit_0. cbn [idx nth]. rewrite Nat.mul_comm, Nat.mod_add by lia. apply Nat.mod_small. exact Ha.
  - rewrite digit_S by lia. cbn [idx nth]. rewrite Nat.mul_comm, Nat.div_add by lia. rewrite Nat.div_small by exact Ha. apply IH; [intros; apply H; right; assumption|lia].
Qed.
Lemma digits_inj n d : (0 < n)%nat -> forall i j, (i < n ^ d)%nat -> (j < n ^ d)%nat -> (forall k, (k < d)%nat -> digit n k i = digit n k j) -> i = j.
Proof.
  intros Hn. induction d as [|d IH]; intros i j Hi Hj H; cbn [Nat.pow] in *; [lia|].
  pose proof (H 0%nat ltac:(lia)) as H0. rewrite !digit_0 in H0.
  assert (E : (i / n = j / n)%nat). { apply IH; try (apply Nat.div_lt_upper_bound; lia). intros k Hk. specialize (H (S k) ltac:(lia)). rewrite !digit_S in H by lia. exact H. }
  rewrite (Nat.div_mod i n), (Nat.div_mod j n) by lia. congruence.
Qed.
Lemma digit_lt n k i : (0 < n)%nat -> (digit n k i < n)%nat.
Proof. intros. apply Nat.mod_upper_bound. lia. Qed.
Lemma tensor_coords w p n d : forall i power acc, (0 < n)%nat -> (0 < power)%nat ->
  length (snd (tensor_point w p n d i power acc)) = d /\ forall k, (k < d)%nat -> nth k (snd (tensor_point w p n d i power acc)) 0 = nth ((i / (power * n ^ k)) mod n) p 0.
Proof.
  induction d as [|d IH]; intros i power acc Hn Hp; cbn [tensor_point]; [split; [reflexivity|intros; lia]|].
  specialize (IH i (power * n)%nat (acc * nth ((i / power) mod n) w 0) Hn ltac:(nia)). destruct (tensor_point w p n d i (power * n) _) as (wt & cs). cbn [snd] in *. destruct IH as (L & C).
  split; [cbn; lia|]. intros [|k] Hk; cbn [nth].
  - rewrite Nat.pow_0_r, Nat.mul_1_r. reflexivity.
  - rewrite C by lia. cbn [Nat.pow]. rewrite Nat.mul_assoc. reflexivity.
Qed.
Lemma tensor_nth w p n d i : (0 < n)%nat -> (i < n ^ d)%nat -> exists v y, nth_error (tensor_rule d n w p) i = Some (v, y) /\ length y = d /\ forall k, (k < d)%nat -> nth k y 0 = nth (digit n k i) p 0.
Proof.
  intros Hn Hi. unfold tensor_rule. rewrite (map_nth_error _ _ _ (d := i)) by (rewrite (nth_error_nth' _ 0%nat) by (rewrite seq_length; exact Hi); rewrite seq_nth by exact Hi; reflexivity).
  destruct (tensor_point w p n d i 1 1) as (v, y) eqn:E. exists v, y. split; [reflexivity|].
  pose proof (tensor_coords w p n d i 1 1 Hn ltac:(lia)) as (L & C). rewrite E in L, C. cbn [snd] in L, C. split; [exact L|]. intros k Hk. rewrite C by exact Hk. rewrite Nat.mul_1_l. reflexivity.
Qed.

(** ** the geometry of a list of grid points *)
Lemma nth_blocks {A B} (F : A -> list B) m l : (forall a, In a l -> length (F a) = m) -> forall r c a, nth_error l r = Some a -> (c < m)%nat ->
  nth_error (flat_map F l) (r * m + c) = nth_error (F a) c.
Proof.
  induction l as [|b l IH]; intros H r c a Hr Hc; [destruct r; discriminate|]. cbn [flat_map]. destruct r as [|r]; cbn [nth_error] in Hr.
  - injection Hr as <-. rewrite nth_error_app1 by (rewrite H by (left; reflexivity); lia). f_equal; lia.
  - rewrite nth_error_app2 by (rewrite H by (left; reflexivity); lia). rewrite H by (left; reflexivity).
    replace (S r * m + c - m)%nat with (r * m + c)%nat by lia. apply IH; auto. intros; apply H; right; assumption.
Qed.
Lemma flat_length {A B} (F : A -> list B) m l : (forall a, In a l -> length (F a) = m) -> length (flat_map F l) = (length l * m)%nat.
Proof. induction l as [|b l IH]; intros H; [reflexivity|]. cbn [flat_map length]. rewrite app_length, IH, H by (intros; try apply H; auto using in_eq, in_cons). lia. Qed.
Lemma nth_error_seq n i : (i < n)%nat -> nth_error (seq 0 n) i = Some i.
Proof. intros H. rewrite (nth_error_nth' _ 0%nat) by (rewrite seq_length; exact H). rewrite seq_nth by exact H. reflexivity. Qed.
Section Grid.
  Variable g : list R.
  Notation n := (length g - 1)%nat.
  Hypothesis Hg : (2 <= length g)%nat.
  Let lo i k := nth (digit n k i) g 0.
  Let hi i k := nth (S (digit n k i)) g 0.
  Lemma grid_nth c : (c <= n)%nat -> nth_error g c = Some (nth c g 0).
  Proof. intros H. apply nth_error_nth'. lia. Qed.
  Lemma point1 c : (c <= n)%nat -> nth_error (fst (line_helper g)) c = Some [nth c g 0].
  Proof. intros H. unfold line_helper. cbn [fst]. rewrite (map_nth_error _ _ _ (grid_nth c H)). reflexivity. Qed.
  Lemma point2 r c : (r <= n)%nat -> (c <= n)%nat -> nth_error (fst (quad_helper g)) (r * (n + 1) + c) = Some [nth c g 0; nth r g 0].
  Proof.
    intros Hr Hc. unfold quad_helper. cbn [fst]. rewrite (nth_blocks _ (n + 1)%nat g) with (a := nth r g 0); [|intros; rewrite map_length; lia|apply grid_nth; exact Hr|lia].
    rewrite (map_nth_error _ _ _ (grid_nth c Hc)). reflexivity.
  Qed.
  Lemma point3 h r c : (h <= n)%nat -> (r <= n)%nat -> (c <= n)%nat -> nth_error (fst (brick_helper g)) (h * ((n + 1) * (n + 1)) + (r * (n + 1) + c)) = Some [nth c g 0; nth r g 0; nth h g 0].
  Proof.
    intros Hh Hr Hc. unfold brick_helper. cbn [fst]. rewrite (nth_blocks _ ((n + 1) * (n + 1))%nat g) with (a := nth h g 0); [|intros; rewrite (flat_length _ (n + 1)%nat); [nia|intros; rewrite map_length; lia]|apply grid_nth; exact Hh|nia].
    rewrite (nth_blocks _ (n + 1)%nat g) with (a := nth r g 0); [|intros; rewrite map_length; lia|apply grid_nth; exact Hr|lia].
    rewrite (map_nth_error _ _ _ (grid_nth c Hc)). reflexivity.
  Qed.
  Lemma zn_nonneg l j : In j (zn l) -> (0 <= j)%Z.
  Proof. intros H. apply in_map_iff in H. destruct H as (m & <- & _). lia. Qed.
  Lemma zn_points (pts : list (list R)) l : map (fun j => nth_error pts (Z.to_nat j)) (zn l) = map (nth_error pts) l.
  Proof. unfold zn. rewrite map_map. apply map_ext. intros a. rewrite Nat2Z.id. reflexivity. Qed.
  Lemma cell1 i : (i < n ^ 1)%nat -> drawn_box (line_helper g) 1 i (lo i) (hi i).
  Proof.
    intros Hi. rewrite Nat.pow_1_r in Hi. assert (D0 : digit n 0 i = i) by (rewrite digit_0; apply Nat.mod_small; exact Hi).
    eexists. split; [unfold line_helper; cbn [snd]; rewrite (map_nth_error _ _ _ (nth_error_seq n i Hi)); reflexivity|]. split; [intros j; apply zn_nonneg|].
    rewrite zn_points. cbn [map vtk_box]. unfold lo, hi. rewrite D0. rewrite !point1 by lia. rewrite Nat.add_1_r. reflexivity.
  Qed.
  Lemma cell2 i : (i < n ^ 2)%nat -> drawn_box (quad_helper g) 2 i (lo i) (hi i).
  Proof.
    intros Hi. cbn [Nat.pow] in Hi. rewrite Nat.mul_1_r in Hi. assert (Hn : (0 < n)%nat) by lia.
    set (c := digit n 0 i). set (r := digit n 1 i). assert (Hc : (c < n)%nat) by (apply digit_lt; exact Hn). assert (Hr : (r < n)%nat) by (apply digit_lt; exact Hn).
    assert (Ei : i = (r * n + c)%nat).
    { unfold r, c. rewrite digit_S, !digit_0 by exact Hn. assert (i / n < n)%nat by (apply Nat.div_lt_upper_bound; lia). rewrite (Nat.mod_small (i / n) n) by assumption.
      pose proof (Nat.div_mod i n). lia. }
    eexists. split; [|split].
    - unfold quad_helper. cbn [snd]. rewrite Ei at 1. rewrite (nth_blocks _ n) with (a := r); [|intros; rewrite map_length, seq_length; reflexivity|apply nth_error_seq; exact Hr|exact Hc].
      rewrite (map_nth_error _ _ _ (nth_error_seq n c Hc)). reflexivity.
    - intros j; apply zn_nonneg.
    - rewrite zn_points. cbn [map vtk_box]. unfold lo, hi. fold c r.
      replace (r * (n + 1) + c + 1)%nat with (r * (n + 1) + S c)%nat by lia. replace (r * (n + 1) + c + n + 2)%nat with (S r * (n + 1) + S c)%nat by lia.
      replace (r * (n + 1) + c + n + 1)%nat with (S r * (n + 1) + c)%nat by lia. rewrite !point2 by lia. reflexivity.
  Qed.
  Lemma cell3 i : (i < n ^ 3)%nat -> drawn_box (brick_helper g) 3 i (lo i) (hi i).
  Proof.
    intros Hi. cbn [Nat.pow] in Hi. rewrite Nat.mul_1_r in Hi. assert (Hn : (0 < n)%nat) by lia.
    set (c := digit n 0 i). set (r := digit n 1 i). set (h := digit n 2 i).
    assert (Hc : (c < n)%nat) by (apply digit_lt; exact Hn). assert (Hr : (r < n)%nat) by (apply digit_lt; exact Hn). assert (Hh : (h < n)%nat) by (apply digit_lt; exact Hn).
    assert (Ei : i = (h * (n * n) + (r * n + c))%nat).
    { unfold h, r, c. rewrite !digit_S, !digit_0 by exact Hn. assert (i / n / n < n)%nat by (repeat apply Nat.div_lt_upper_bound; lia). rewrite (Nat.mod_small (i / n / n) n) by assumption.
      pose proof (Nat.div_mod i n). pose proof (Nat.div_mod (i / n) n). nia. }
    eexists. split; [|split].
    - unfold brick_helper. cbn [snd]. rewrite Ei at 1. rewrite (nth_blocks _ (n * n)%nat) with (a := h); [| |apply nth_error_seq; exact Hh|nia].
      + rewrite (nth_blocks _ n) with (a := r); [|intros; rewrite map_length, seq_length; reflexivity|apply nth_error_seq; exact Hr|exact Hc].
        rewrite (map_nth_error _ _ _ (nth_error_seq n c Hc)). reflexivity.
      + intros. rewrite (flat_length _ n); [rewrite seq_length; reflexivity|]. intros. rewrite map_length, seq_length. reflexivity.
    - intros j; apply zn_nonneg.
    - rewrite zn_points. cbn [map vtk_box]. unfold lo, hi. fold c r h. set (N := ((n + 1) * (n + 1))%nat).
      replace (r * (n + 1) + c + h * N)%nat with (h * N + (r * (n + 1) + c))%nat by lia.
      replace (h * N + (r * (n + 1) + c) + 1)%nat with (h * N + (r * (n + 1) + S c))%nat by lia.
      replace (h * N + (r * (n + 1) + c) + n + 2)%nat with (h * N + (S r * (n + 1) + S c))%nat by lia.
      replace (h * N + (r * (n + 1) + c) + n + 1)%nat with (h * N + (S r * (n + 1) + c))%nat by lia.
      replace (r * (n + 1) + c + (h + 1) * N)%nat with (S h * N + (r * (n + 1) + c))%nat by lia.
      replace (S h * N + (r * (n + 1) + c) + 1)%nat with (S h * N + (r * (n + 1) + S c))%nat by lia.
      replace (S h * N + (r * (n + 1) + c) + n + 2)%nat with (S h * N + (S r * (n + 1) + S c))%nat by lia.
      replace (S h * N + (r * (n + 1) + c) + n + 1)%nat with (S h * N + (S r * (n + 1) + c))%nat by lia.
      unfold N. rewrite !point3 by lia. reflexivity.
  Qed.
  Lemma cells_length d : (1 <= d <= 3)%nat -> length (snd (helper d g)) = (n ^ d)%nat.
  Proof.
    intros Hd. destruct d as [|[|[|[|d]]]]; try lia; cbn [helper]; unfold line_helper, quad_helper, brick_helper; cbn [snd Nat.pow].
    - rewrite map_length, seq_length. lia.
    - rewrite (flat_length _ n) by (intros; rewrite map_length, seq_length; reflexivity). rewrite seq_length. lia.
    - rewrite (flat_length _ (n * n)%nat). rewrite seq_length; lia. intros. rewrite (flat_length _ n) by (intros; rewrite map_length, seq_length; reflexivity). rewrite seq_length. reflexivity.
  Qed.
  Lemma cell d i : (1 <= d <= 3)%nat -> (i < n ^ d)%nat -> drawn_box (helper d g) d i (lo i) (hi i).
  Proof. intros Hd Hi. destruct d as [|[|[|[|d]]]]; try lia; cbn [helper]; [apply cell1|apply cell2|apply cell3]; exact Hi. Qed.
  Lemma box_unique d i lo1 hi1 : (1 <= d <= 3)%nat -> (i < n ^ d)%nat -> drawn_box (helper d g) d i lo1 hi1 -> forall k, (k < d)%nat -> lo1 k = lo i k /\ hi1 k = hi i k.
  Proof.
    intros Hd Hi (ids1 & E1 & _ & C1) k Hk. destruct (cell d i Hd Hi) as (ids2 & E2 & _ & C2). assert (ids1 = ids2) by congruence. subst ids2. rewrite C1 in C2. clear C1 E1 E2.
    destruct d as [|[|[|[|d]]]]; try lia; cbn in C2.
    - injection C2 as A B. destruct k as [|k]; [auto|lia].
    - injection C2 as A B C D. destruct k as [|[|k]]; [auto|auto|lia].
    - injection C2 as A B C D E F. destruct k as [|[|[|k]]]; [auto|auto|auto|lia].
  Qed.
  Lemma in_drawn_spec d i x : (1 <= d <= 3)%nat -> (i < n ^ d)%nat -> in_drawn (helper d g) d i x <-> forall k, (k < d)%nat -> lo i k <= nth k x 0 <= hi i k.
  Proof.
    intros Hd Hi. split.
    - intros (lo1 & hi1 & B & H) k Hk. destruct (box_unique d i lo1 hi1 Hd Hi B k Hk) as (<- & <-). auto.
    - intros H. exists (lo i), (hi i). split; [apply cell; auto|exact H].
  Qed.
  Lemma in_interior_spec d i x : (1 <= d <= 3)%nat -> (i < n ^ d)%nat -> in_interior (helper d g) d i x <-> forall k, (k < d)%nat -> lo i k < nth k x 0 < hi i k.
  Proof.
    intros Hd Hi. split.
    - intros (lo1 & hi1 & B & H) k Hk. destruct (box_unique d i lo1 hi1 Hd Hi B k Hk) as (<- & <-). auto.
    - intros H. exists (lo i), (hi i). split; [apply cell; auto|exact H].
  Qed.
  Hypothesis Hinc : increasing g.
  Hypothesis H0 : nth 0 g 0 = -1.
  Hypothesis H1 : nth n g 0 = 1.
  Lemma locate x : -1 <= x <= 1 -> exists c, (c < n)%nat /\ nth c g 0 <= x <= nth (S c) g 0.
  Proof.
    intros Hx. assert (L : forall m, (m < n)%nat -> (exists c, (c <= m)%nat /\ nth c g 0 <= x <= nth (S c) g 0) \/ nth (S m) g 0 < x).
    { induction m as [|m IH]; intros Hm.
      - destruct (Rlt_le_dec (nth 1 g 0) x); [right; assumption|left; exists 0%nat; split; [lia|lra]].
      - destruct (IH ltac:(lia)) as [(c & Hc & C)|A]; [left; exists c; split; [lia|exact C]|].
        destruct (Rlt_le_dec (nth (S (S m)) g 0) x); [right; assumption|left; exists (S m); split; [lia|lra]]. }
    destruct (L (n - 1)%nat ltac:(lia)) as [(c & Hc & C)|A]; [exists c; split; [lia|exact C]|]. replace (S (n - 1)) with n in A by lia. lra.
  Qed.
  Lemma tiles d : (1 <= d <= 3)%nat -> tiling (helper d g) d n.
  Proof.
    intros Hd. split; [apply cells_length; exact Hd|]. split; [|split].
    - intros x (Lx & Hx). assert (Ex : exists ds, length ds = d /\ forall k, (k < d)%nat -> (nth k ds 0 < n)%nat /\ nth (nth k ds 0%nat) g 0 <= nth k x 0 <= nth (S (nth k ds 0%nat)) g 0).
      { clear - Hx Lx Hg Hinc H0 H1. revert x Lx Hx. induction d as [|d IH]; intros x Lx Hx; [exists []; split; [reflexivity|intros; lia]|]. destruct x as [|a x]; [discriminate|]. injection Lx as Lx.
        destruct (IH x Lx) as (ds & Ld & D); [intros k Hk; apply (Hx (S k)); lia|]. destruct (locate a (Hx 0%nat ltac:(lia))) as (c & Hc & C). exists (c :: ds). split; [cbn; lia|].
        intros [|k] Hk; cbn [nth]; [auto|apply D; lia]. }
      destruct Ex as (ds & Ld & D). assert (Hds : forall a, In a ds -> (a < n)%nat) by (intros a Ha; apply In_nth with (d := 0%nat) in Ha; destruct Ha as (k & Hk & <-); apply D; lia).
      assert (Hi : (idx n ds < n ^ d)%nat) by (rewrite <- Ld; apply idx_bound; exact Hds). exists (idx n ds). split; [exact Hi|]. apply in_drawn_spec; auto. intros k Hk. unfold lo, hi. rewrite idx_digit by (auto; lia). apply D. exact Hk.
    - intros i x Hi Hx k Hk. pose proof (proj1 (in_drawn_spec d i x Hd Hi) Hx) as Hx'. clear Hx; rename Hx' into Hx. specialize (Hx k Hk). unfold lo, hi in Hx. assert (D := digit_lt n k i ltac:(lia)).
      assert (nth 0 g 0 <= nth (digit n k i) g 0) by (destruct (Nat.eq_dec (digit n k i) 0) as [->|]; [lra|]; apply Rlt_le, Hinc; lia).
      assert (nth (S (digit n k i)) g 0 <= nth n g 0) by (destruct (Nat.eq_dec (S (digit n k i)) n) as [->|]; [lra|]; apply Rlt_le, Hinc; lia). lra.
    - intros i j x Hi Hj Xi Xj. pose proof (proj1 (in_interior_spec d i x Hd Hi) Xi) as Yi. pose proof (proj1 (in_interior_spec d j x Hd Hj) Xj) as Yj. clear Xi Xj. rename Yi into Xi. rename Yj into Xj. apply (digits_inj n d); auto; try lia. intros k Hk. specialize (Xi k Hk). specialize (Xj k Hk). unfold lo, hi in *.
      assert (Di := digit_lt n k i ltac:(lia)). assert (Dj := digit_lt n k j ltac:(lia)).
      destruct (Nat.lt_total (digit n k i) (digit n k j)) as [L|[E|L]]; [|exact E|].
      + assert (nth (S (digit n k i)) g 0 <= nth (digit n k j) g 0) by (destruct (Nat.eq_dec (S (digit n k i)) (digit n k j)) as [->|]; [lra|]; apply Rlt_le, Hinc; lia). lra.
      + assert (nth (S (digit n k j)) g 0 <= nth (digit n k i) g 0) by (destruct (Nat.eq_dec (S (digit n k j)) (digit n k i)) as [->|]; [lra|]; apply Rlt_le, Hinc; lia). lra.
  Qed.
End Grid.

(** ** grids around points *)
Section Around.
  Variable p : list R.
  Hypothesis Hp : (1 <= length p)%nat.
  Hypothesis Hinc : increasing p.
  Hypothesis Hin : forall i, (i < length p)%nat -> -1 <= nth i p 0 <= 1.
  Let g := centered p.
  Lemma g_length : length g = S (length p).
  Proof. unfold g, centered. rewrite !app_length, map_length, seq_length. cbn [length]. lia. Qed.
  Lemma g_first : nth 0 g 0 = -1.
  Proof. reflexivity. Qed.
  Lemma g_last : nth (length p) g 0 = 1.
  Proof.
    unfold g, centered. rewrite app_assoc, app_nth2; rewrite app_length, map_length, seq_length; cbn [length]; [|lia]. replace (length p - _)%nat with 0%nat by lia. reflexivity.
  Qed.
  Lemma g_mid i : (S i < length p)%nat -> nth (S i) g 0 = (nth i p 0 + nth (S i) p 0) / 2.
  Proof.
    intros Hi. unfold g, centered. cbn [app nth]. rewrite app_nth1 by (rewrite map_length, seq_length; lia).
    set (f := fun j => (nth j p 0 + nth (j + 1) p 0) / 2). rewrite (nth_indep _ 0 (f 0%nat)) by (rewrite map_length, seq_length; lia). rewrite map_nth, seq_nth by lia. unfold f. cbn [Nat.add].
    rewrite Nat.add_1_r. reflexivity.
  Qed.
  (** in one dimension *)
  Lemma closer x i : (i < length p)%nat -> -1 <= x <= 1 ->
    nth i g 0 <= x <= nth (S i) g 0 <-> forall j, (j < length p)%nat -> (x - nth i p 0) * (x - nth i p 0) <= (x - nth j p 0) * (x - nth j p 0).
  Proof.
    intros Hi Hx. split.
    - intros (A & B) j Hj. destruct (Nat.lt_total i j) as [L|[->|L]]; [|lra|].
      + assert (nth (S i) p 0 <= nth j p 0) by (destruct (Nat.eq_dec (S i) j) as [->|]; [lra|]; apply Rlt_le, Hinc; lia).
        assert (nth i p 0 < nth j p 0) by (apply Hinc; lia). rewrite g_mid in B by lia. nra.
      + destruct i as [|i]; [lia|]. assert (nth j p 0 <= nth i p 0) by (destruct (Nat.eq_dec i j) as [->|]; [lra|]; apply Rlt_le, Hinc; lia).
        assert (nth j p 0 < nth (S i) p 0) by (apply Hinc; lia). rewrite g_mid in A by lia. nra.
    - intros H. split.
      + destruct i as [|i]; [rewrite g_first; lra|]. rewrite g_mid by lia. specialize (H i ltac:(lia)). assert (nth i p 0 < nth (S i) p 0) by (apply Hinc; lia). nra.
      + destruct (Nat.eq_dec (S i) (length p)) as [E|Hne]; [rewrite E, g_last; lra|]. rewrite g_mid by lia. specialize (H (S i) ltac:(lia)). assert (nth i p 0 < nth (S i) p 0) by (apply Hinc; lia). nra.
  Qed.
  (** the tensor product *)
  Lemma cell_nearest w d i x : (1 <= d <= 3)%nat -> (i < length p ^ d)%nat -> in_cube d x ->
    in_drawn (helper d g) d i x <-> nearest d (tensor_rule d (length p) w p) i x.
  Proof.
    intros Hd Hi (Lx & Hx). set (n := length p) in *.
    assert (En : (length g - 1 = n)%nat) by (rewrite g_length; unfold n; lia).
    assert (Sp := in_drawn_spec g ltac:(rewrite g_length; lia) d i x Hd). cbv zeta in Sp. rewrite En in Sp. rewrite (Sp Hi). clear Sp.
    destruct (tensor_nth w p n d i ltac:(lia) Hi) as (v & z & Ez & Lz & Z).
    split.
    - intros H j w' y Ej v' z' Ez'. rewrite Ez in Ez'. injection Ez' as <- <-.
      assert (Hj : (j < n ^ d)%nat). { assert (Lt : (j < length (tensor_rule d n w p))%nat) by (apply nth_error_Some; congruence). unfold tensor_rule in Lt. rewrite map_length, seq_length in Lt. exact Lt. }
      destruct (tensor_nth w p n d j ltac:(lia) Hj) as (v2 & y2 & Ey & Ly & Y). rewrite Ey in Ej. injection Ej as <- <-.
      unfold dist2. apply rsum_le. intros k Hk. rewrite Z, Y by exact Hk. apply (proj1 (closer (nth k x 0) (digit n k i) (digit_lt n k i ltac:(lia)) (Hx k Hk)) (H k Hk)). apply digit_lt. lia.
    - intros H k Hk. apply (closer (nth k x 0) (digit n k i)); [apply digit_lt; lia|apply Hx; exact Hk|]. intros m Hm.
      set (ds := map (fun k' => if Nat.eqb k' k then m else digit n k' i) (seq 0 d)).
      assert (Lds : length ds = d) by (unfold ds; rewrite map_length, seq_length; reflexivity).
      assert (Hds : forall a, In a ds -> (a < n)%nat) by (intros a Ha; apply in_map_iff in Ha; destruct Ha as (k' & <- & _); destruct (Nat.eqb k' k); [exact Hm|apply digit_lt; lia]).
      assert (Nds : forall k', (k' < d)%nat -> nth k' ds 0%nat = if Nat.eqb k' k then m else digit n k' i).
      { intros k' Hk'. unfold ds. set (f := fun k' => if Nat.eqb k' k then m else digit n k' i). rewrite (nth_indep _ 0%nat (f 0%nat)) by (rewrite map_length, seq_length; exact Hk'). rewrite map_nth, seq_nth by exact Hk'. reflexivity. }
      assert (Hj : (idx n ds < n ^ d)%nat) by (rewrite <- Lds; apply idx_bound; exact Hds).
      destruct (tensor_nth w p n d (idx n ds) ltac:(lia) Hj) as (v2 & y & Ey & Ly & Y).
      specialize (H _ _ _ Ey _ _ Ez). unfold dist2 in H.
      assert (Yk : forall k', (k' < d)%nat -> nth k' y 0 = if Nat.eqb k' k then nth m p 0 else nth k' z 0).
      { intros k' Hk'. rewrite Y by exact Hk'. rewrite idx_digit by (auto; lia). rewrite Nds by exact Hk'. rewrite Z by exact Hk'. destruct (Nat.eqb k' k); reflexivity. }
      assert (E : rsum d (fun k' => (nth k' x 0 - nth k' y 0) * (nth k' x 0 - nth k' y 0) - (nth k' x 0 - nth k' z 0) * (nth k' x 0 - nth k' z 0)) =
                  (nth k x 0 - nth m p 0) * (nth k x 0 - nth m p 0) - (nth k x 0 - nth (digit n k i) p 0) * (nth k x 0 - nth (digit n k i) p 0)).
      { rewrite (rsum_single d k); [|exact Hk|intros k' Hk' Hne; rewrite Yk by exact Hk'; destruct (Nat.eqb_spec k' k); [congruence|ring]].
        rewrite Yk, Nat.eqb_refl, Z by exact Hk. reflexivity. }
      rewrite rsum_minus in E. lra.
  Qed.
End Around.

Lemma around_increasing p : (1 <= length p)%nat -> increasing p -> (forall i, (i < length p)%nat -> -1 <= nth i p 0 <= 1) ->
  (length p = 1%nat \/ True) -> increasing (centered p).
Proof.
  intros Hp Hinc Hin _. assert (St : forall i, (i < length p)%nat -> nth i (centered p) 0 < nth (S i) (centered p) 0).
  { intros i Hi. destruct i as [|i].
    - rewrite g_first. destruct (Nat.eq_dec (length p) 1) as [E|]; [replace 1%nat with (length p) at 1; rewrite g_last; auto; lra|]. rewrite g_mid by lia.
      pose proof (Hin 0%nat ltac:(lia)). pose proof (Hinc 0%nat 1%nat ltac:(lia)). lra.
    - rewrite g_mid by lia. destruct (Nat.eq_dec (S (S i)) (length p)) as [->|Hne].
      + rewrite g_last by lia. pose proof (Hin (S i) Hi). pose proof (Hinc i (S i) ltac:(lia)). lra.
      + rewrite g_mid by lia. pose proof (Hinc i (S i) ltac:(lia)). pose proof (Hinc (S i) (S (S i)) ltac:(lia)). lra. }
  intros i j (Hij & Hj). rewrite g_length in Hj by exact Hp. revert Hj. induction Hij as [|j Hij IH]; intros Hj; [apply St; lia|].
  apply Rlt_trans with (nth j (centered p) 0); [apply IH; lia|apply St; lia].
Qed.
Lemma increasing_nodup l : increasing l -> NoDup l.
Proof.
  intros H. apply (proj2 (NoDup_nth l 0)). intros i j Hi Hj E. destruct (Nat.lt_total i j) as [L|[?|L]]; [|assumption|]; [specialize (H i j ltac:(lia))|specialize (H j i ltac:(lia))]; lra.
Qed.

(** C90: Gauss spacing.  The cells tile the element, and cell i consists of the points whose nearest integration point is point i
    of the Gauss rule of the same order; [gr n] are the increasing roots of the Legendre polynomial *)
Theorem C90_gauss : forall gr lr d n,
  (1 <= d <= 3)%nat -> (1 <= n)%nat -> length (gr n) = n -> increasing (gr n) -> (forall x, In x (gr n) -> P n x = 0) ->
  exists geo r, voronoi_geometry gr lr d n SGAUSS = Ok geo /\ integration_type gr lr d n GAUSS = Ok r /\ tiling geo d n /\
    forall i x, (i < n ^ d)%nat -> in_cube d x -> (in_drawn geo d i x <-> nearest d r i x).
Proof.
  intros gr lr d n Hd Hn HL HI HZ. pose proof (increasing_nodup _ HI) as HN. destruct (C88_gauss_interior gr n Hn HL HN HZ) as (w & p & E & In1).
  assert (Ep : p = gr n). { unfold gauss_rule in E. destruct n as [|n']; [lia|]. cbv zeta in E. destruct (osequence _) in E; try discriminate. cbn [obind] in E. injection E as _ E; auto. }
  exists (helper d (centered p)), (tensor_rule d n w p). unfold voronoi_geometry, spaced, integration_type, rule_1d. rewrite E. cbn [obind omap snd]. split; [reflexivity|]. split; [reflexivity|].
  subst p. assert (Hin : forall i, (i < length (gr n))%nat -> -1 <= nth i (gr n) 0 <= 1) by (intros i Hi; specialize (In1 i ltac:(lia)); lra).
  split.
  - pose proof (tiles (centered (gr n))) as T. rewrite g_length in T by lia. replace (S (length (gr n)) - 1)%nat with n in T by lia. apply T; auto; try lia.
    + apply around_increasing; auto; lia.
    + rewrite <- HL at 1. apply g_last. lia.
  - intros i x Hi Hx. pose proof (cell_nearest (gr n) ltac:(lia) HI w d i x Hd) as C. rewrite HL in C. apply C; auto.
Qed.
Print Assumptions C90_gauss.

Lemma lobatto_nodes_inside lr n : (2 <= n)%nat -> length (lr (n - 1)%nat) = (n - 2)%nat -> NoDup (lr (n - 1)%nat) -> (forall x, In x (lr (n - 1)%nat) -> Derive (P (n - 1)) x = 0) ->
  exists w, lobatto_rule lr n = Ok (w, [-1] ++ lr (n - 1)%nat ++ [1]) /\ forall i, (i < length (lr (n - 1)%nat))%nat -> -1 < nth i (lr (n - 1)%nat) 0 < 1.
Proof.
  intros Hn HL HN HZ. destruct (C74_lobatto_exact lr n Hn HL HN HZ) as (w & p & E & Lw & Lp & _ & _ & Hx).
  set (l := lr (n - 1)%nat) in *.
  assert (Ep : p = [-1] ++ l ++ [1]).
  { unfold lobatto_rule in E. destruct (Nat.leb n 1) in E; try discriminate. fold l in E. cbv zeta in E. destruct (osequence _) in E; try discriminate. cbn [obind] in E. injection E as _ E; auto. }
  exists w. rewrite <- Ep. split; [exact E|].
  assert (En : n = S (S (length l))) by lia. set (m := length l) in *. clearbody l. clear E HZ.
  assert (pi : forall i, (i < m)%nat -> nth (S i) p 0 = nth i l 0) by (intros i Hi; subst p; cbn [app nth]; rewrite app_nth1 by exact Hi; reflexivity).
  assert (pl : nth (S m) p 0 = 1) by (subst p; cbn [app nth]; rewrite app_nth2 by (unfold m; lia); unfold m; rewrite Nat.sub_diag; reflexivity).
  assert (p0 : nth 0 p 0 = -1) by (subst p; reflexivity).
  destruct (lobatto_inside (fun i => nth i w 0) l HN) as (G & G0 & G1).
  { intros f Hf. fold m. specialize (Hx f). rewrite En in Hx at 2. rewrite rsum_front in Hx. cbn [rsum] in Hx. cbv beta in Hx. fold m in Hf.
    rewrite p0, pl in Hx. rewrite (rsum_ext m _ (fun i => nth (S i) w 0 * f (nth i l 0))) in Hx by (intros i Hi; rewrite pi by exact Hi; reflexivity).
    rewrite Rplus_assoc. apply Hx. apply polynomial_polylt. revert Hf. apply polylt_mono. lia. }
  fold m in G, G1. cbv beta in G. intros i Hi. specialize (G i Hi). lra.
Qed.

(** C90: Lobatto spacing, n = num >= 2 points; [lr (n - 1)] are the increasing interior roots of the derivative *)
Theorem C90_lobatto : forall gr lr d n,
  (1 <= d <= 3)%nat -> (2 <= n)%nat -> length (lr (n - 1)%nat) = (n - 2)%nat -> increasing (lr (n - 1)%nat) -> (forall x, In x (lr (n - 1)%nat) -> Derive (P (n - 1)) x = 0) ->
  exists geo r, voronoi_geometry gr lr d n SLOBATTO = Ok geo /\ integration_type gr lr d n LOBATTO = Ok r /\ tiling geo d n /\
    forall i x, (i < n ^ d)%nat -> in_cube d x -> (in_drawn geo d i x <-> nearest d r i x).
Proof.
  intros gr lr d n Hd Hn HL HI HZ. pose proof (increasing_nodup _ HI) as HN. destruct (lobatto_nodes_inside lr n Hn HL HN HZ) as (w & E & In1).
  set (l := lr (n - 1)%nat) in *. set (p := [-1] ++ l ++ [1]) in *.
  assert (Lp : length p = n) by (unfold p; rewrite !app_length; cbn [length]; lia).
  assert (pl : forall i, (i < length l)%nat -> nth (S i) p 0 = nth i l 0) by (intros i Hi; unfold p; cbn [app nth]; rewrite app_nth1 by exact Hi; reflexivity).
  assert (pe : nth (S (length l)) p 0 = 1) by (unfold p; cbn [app nth]; rewrite app_nth2, Nat.sub_diag by lia; reflexivity).
  assert (pn : forall i, (i < length l)%nat -> -1 < nth i l 0 < 1) by (intros i Hi; apply In1; exact Hi).
  assert (Hin : forall i, (i < length p)%nat -> -1 <= nth i p 0 <= 1).
  { intros [|i] Hi; [cbn; lra|]. destruct (Nat.eq_dec i (length l)) as [->|]; [rewrite pe; lra|]. rewrite pl by lia. specialize (pn i ltac:(lia)). lra. }
  assert (Ip : increasing p).
  { intros i j (Hij & Hj). destruct j as [|j]; [lia|]. destruct (Nat.eq_dec j (length l)) as [->|Hjl].
    - rewrite pe. destruct i as [|i]; [cbn; lra|]. rewrite pl by lia. apply pn. lia.
    - rewrite (pl j) by lia. destruct i as [|i]; [change (nth 0 p 0) with (-1); apply pn; lia|]. rewrite pl by lia. apply HI. lia. }
  exists (helper d (centered p)), (tensor_rule d n w p). unfold voronoi_geometry, spaced, integration_type, rule_1d. rewrite E. cbn [obind omap snd]. split; [reflexivity|]. split; [reflexivity|].
  split.
  - pose proof (tiles (centered p)) as T. rewrite g_length in T by lia. replace (S (length p) - 1)%nat with n in T by lia. apply T; auto; try lia.
    + apply around_increasing; auto; lia.
    + rewrite <- Lp at 1. apply g_last. lia.
  - intros i x Hi Hx. pose proof (cell_nearest p ltac:(lia) Ip w d i x Hd) as C. rewrite Lp in C. apply C; auto.
Qed.
Print Assumptions C90_lobatto.

(** C90: equidistant spacing also tiles the element, with cells of equal size *)
Theorem C90_equidistant : forall gr lr d n,
  (1 <= d <= 3)%nat -> (1 <= n)%nat ->
  exists geo, voronoi_geometry gr lr d n EQUIDISTANT = Ok geo /\ tiling geo d n /\
    forall i lo hi, (i < n ^ d)%nat -> drawn_box geo d i lo hi -> forall k, (k < d)%nat -> hi k - lo k = 2 / INR n.
Proof.
  intros gr lr d n Hd Hn. unfold voronoi_geometry, spaced, linspace. destruct (Nat.eqb_spec (n + 1) 1) as [?|_]; [lia|]. cbn [omap].
  set (g := map _ _). exists (helper d g). split; [reflexivity|]. assert (Lg : length g = (n + 1)%nat) by (unfold g; rewrite map_length, seq_length; reflexivity).
  assert (Hn0 : 0 < INR n) by (apply lt_0_INR; lia).
  assert (gi : forall i, (i <= n)%nat -> nth i g 0 = -1 + 2 * INR i / INR n).
  { intros i Hi. unfold g. set (f := fun i => -1 + (1 - -1) * INR i / INR (n + 1 - 1)). rewrite (nth_indep _ 0 (f 0%nat)) by (rewrite map_length, seq_length; lia).
    rewrite map_nth, seq_nth by lia. unfold f. cbn [Nat.add]. replace (n + 1 - 1)%nat with n by lia. f_equal. f_equal. f_equal. lra. }
  split.
  - pose proof (tiles g ltac:(lia)) as T. rewrite Lg in T. replace (n + 1 - 1)%nat with n in T by lia. apply T; auto.
    + intros i j (Hij & Hj). rewrite Lg in Hj. rewrite !gi by lia. apply Rplus_lt_compat_l. apply Rmult_lt_compat_r; [apply Rinv_0_lt_compat; exact Hn0|]. apply lt_INR in Hij. lra.
    + rewrite gi by lia. cbn [INR]. field. lra.
    + rewrite gi by lia. field. lra.
  - intros i lo hi Hi B k Hk. pose proof (box_unique g ltac:(lia) d i lo hi Hd) as U. cbv zeta in U. rewrite Lg in U. replace (n + 1 - 1)%nat with n in U by lia.
    destruct (U Hi B k Hk) as (-> & ->). assert (D := digit_lt n k i ltac:(lia)). rewrite !gi by lia. rewrite S_INR. field. lra.
Qed.
Print Assumptions C90_equidistant.

(** finding: no cells: the single grid point is 0 / 0 *)
Theorem C90_zero_refuted : forall gr lr d, voronoi_geometry gr lr d 0 EQUIDISTANT = UB.
Proof. reflexivity. Qed.
Print Assumptions C90_zero_refuted.

(** the hypotheses are met: the two Gauss points *)
Example C90_two_gauss_points : length [- / sqrt 3; / sqrt 3] = 2%nat /\ increasing [- / sqrt 3; / sqrt 3] /\ (forall x, In x [- / sqrt 3; / sqrt 3] -> P 2 x = 0).
Proof.
  assert (S3 : sqrt 3 * sqrt 3 = 3) by (apply sqrt_sqrt; lra). assert (S0 : 0 < sqrt 3) by (apply sqrt_lt_R0; lra).
  assert (I0 : 0 < / sqrt 3) by (apply Rinv_0_lt_compat; exact S0). assert (I1 : sqrt 3 * / sqrt 3 = 1) by (field; lra).
  assert (I2 : / sqrt 3 * / sqrt 3 = / 3) by (assert (sqrt 3 * sqrt 3 * (/ sqrt 3 * / sqrt 3) = 1) by (replace 1 with (1 * 1) by lra; rewrite <- I1; ring); rewrite S3 in H; lra).
  split; [reflexivity|]. split.
  - intros i j Hij. cbn [length] in Hij. destruct i as [|i]; destruct j as [|[|j]]; try lia. cbn. lra.
  - assert (E : forall x, P 2 x = (3 * (x * x) - 1) / 2) by (intros x; pose proof (bonnet 0 x) as B; rewrite P0, P1 in B; cbn [INR] in B; lra).
    intros x [<-|[<-|[]]]; rewrite E; [replace (- / sqrt 3 * - / sqrt 3) with (/ sqrt 3 * / sqrt 3) by ring|]; rewrite I2; lra.
Qed.
(** four cells of the square *)
Example C90_square : helper 2 [-1; 0; 1] = ([[-1; -1]; [0; -1]; [1; -1]; [-1; 0]; [0; 0]; [1; 0]; [-1; 1]; [0; 1]; [1; 1]],
  [([0; 1; 4; 3], 9); ([1; 2; 5; 4], 9); ([3; 4; 7; 6], 9); ([4; 5; 8; 7], 9)]%Z).
Proof. reflexivity. Qed.
