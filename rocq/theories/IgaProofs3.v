From Coq Require Import Arith Bool Reals Lra Lia.
From Coquelicot Require Import Coquelicot.
From Coq Require Import List.
From Verif Require Import RSum Outcome AdaptiveModel NurbsModel NurbsSpec NurbsProofs NurbsProofs2 NurbsProofs3 NurbsProofs4 CellModel CellProofs IgaModel IgaSpec IgaProofs.
Import ListNotations.
Local Open Scope R_scope.

Lemma all_ok_map {A B} (g : A -> outcome B) (h : A -> B) l : (forall x, In x l -> g x = Ok (h x)) -> all_ok (map g l) = Ok (map h l).
Proof.
  induction l as [|x l IH]; intros H; [reflexivity|]. cbn [map all_ok]. rewrite H by (left; reflexivity). cbn [obind].
  rewrite IH by (intros y Hy; apply H; right; exact Hy). reflexivity.
Qed.
Lemma loop_pairs_in d0 d1 i j : In (i, j) (loop_pairs d0 d1) -> (i <= d1 /\ j <= d0)%nat.
Proof. unfold loop_pairs. intros H. apply in_prod_iff in H. destruct H as (H1 & H2). apply in_seq in H1. apply in_seq in H2. lia. Qed.
Lemma nth_map_prod {A} (h : nat * nat -> A) d0 d1 i j d : (i <= d1)%nat -> (j <= d0)%nat ->
  nth (i * S d0 + j) (map h (loop_pairs d0 d1)) d = h (i, j).
Proof.
  intros Hi Hj. unfold loop_pairs. remember (seq 0 (S d0)) as L eqn:HL.
  assert (Len : length L = S d0) by (subst L; apply seq_length).
  assert (Hn : nth j L 0%nat = j) by (subst L; rewrite seq_nth by lia; reflexivity).
  assert (G : forall s n i, (i < n)%nat -> nth (i * S d0 + j) (map h (list_prod (seq s n) L)) d = h ((s + i)%nat, j)).
  { intros s n. revert s. induction n as [|n IH]; intros s i' H; [lia|]. cbn [seq list_prod]. rewrite map_app, map_map.
    destruct i' as [|i'].
    - rewrite app_nth1 by (rewrite map_length, Len; lia). replace (0 * S d0 + j)%nat with j by lia.
      rewrite (nth_indep _ d (h (s, 0%nat))) by (rewrite map_length, Len; lia).
      rewrite (map_nth (fun y => h (s, y))). rewrite Hn. f_equal. f_equal. lia.
    - rewrite app_nth2 by (rewrite map_length, Len; lia). rewrite map_length, Len.
      replace (S i' * S d0 + j - S d0)%nat with (i' * S d0 + j)%nat by lia. rewrite IH by lia. f_equal. f_equal. lia. }
  rewrite G by lia. reflexivity.
Qed.
Lemma length_loop_pairs d0 d1 : length (loop_pairs d0 d1) = (S d0 * S d1)%nat.
Proof. unfold loop_pairs. rewrite prod_length, !seq_length. lia. Qed.
Lemma at2_ok {A} (l : list (list A)) i j n (d : A) : (i < length l)%nat -> Forall (fun r => length r = n) l -> (j < n)%nat ->
  at2 l i j = Ok (nth j (nth i l []) d).
Proof.
  intros Hi H Hj. unfold at2. rewrite (nth_error_nth' l []) by exact Hi.
  assert (Hr : length (nth i l []) = n) by (rewrite Forall_forall in H; apply H; apply nth_In; exact Hi).
  rewrite (nth_error_nth' _ d) by lia. reflexivity.
Qed.

Section Surface.
Variables (f : surface) (dim id0 id1 : nat) (j1 j2 j3 : nat -> nat -> R) (garbage : mfun).
Hypotheses (Hreg : regular_surface f dim) (Hel0 : element_of (f_degree0 f) (f_knots0 f) id0) (Hel1 : element_of (f_degree1 f) (f_knots1 f) id1).
Local Notation d0 := (f_degree0 f).
Local Notation d1 := (f_degree1 f).
Local Notation w a b := (nth b (nth a (f_weights f) []) 0).
Local Notation p a b := (nth b (nth a (f_points f) []) []).
Local Notation B0 b x := (bspline d0 (f_knots0 f) d0 b x).
Local Notation B1 a y := (bspline d1 (f_knots1 f) d1 a y).

Lemma rows_w : Forall (fun r : list R => length r = basis_count d0 (f_knots0 f)) (f_weights f).
Proof. destruct Hreg as (_ & _ & _ & _ & _ & H & _). eapply Forall_impl; [|exact H]. intros a Ha; apply Ha. Qed.
Lemma rows_p : Forall (fun r : list (list R) => length r = basis_count d0 (f_knots0 f)) (f_points f).
Proof. destruct Hreg as (_ & _ & _ & _ & _ & _ & _ & H). eapply Forall_impl; [|exact H]. intros a Ha; apply Ha. Qed.
Lemma w_pos a b : (a < basis_count d1 (f_knots1 f))%nat -> (b < basis_count d0 (f_knots0 f))%nat -> 0 < w a b.
Proof.
  intros Ha Hb. destruct Hreg as (_ & _ & _ & _ & Hl & H & _). rewrite Forall_forall in H.
  destruct (H (nth a (f_weights f) [])) as (Hr & Hp); [apply nth_In; lia|]. rewrite Forall_forall in Hp. apply Hp. apply nth_In. lia.
Qed.
Lemma p_dim a b : (a < basis_count d1 (f_knots1 f))%nat -> (b < basis_count d0 (f_knots0 f))%nat -> length (p a b) = dim.
Proof.
  intros Ha Hb. destruct Hreg as (_ & _ & _ & _ & _ & _ & Hl & H). rewrite Forall_forall in H.
  destruct (H (nth a (f_points f) [])) as (Hr & Hp); [apply nth_In; lia|]. rewrite Forall_forall in Hp. apply Hp. apply nth_In. lia.
Qed.

Lemma surface_dim_ok : surface_dim f = Ok dim.
Proof.
  destruct Hreg as (_ & _ & _ & _ & _ & _ & Hl & _). pose proof Hel0 as (H0 & _). pose proof Hel1 as (H1 & _).
  pose proof (p_dim 0 0 ltac:(lia) ltac:(lia)) as Hp. pose proof rows_p as Hr. unfold surface_dim.
  rewrite Forall_forall in Hr. destruct (f_points f) as [|r l]; [simpl in Hl; lia|]. specialize (Hr r (or_introl eq_refl)).
  destruct r as [|q r]; [simpl in Hr; lia|]. cbn [nth] in Hp. rewrite Hp. reflexivity.
Qed.

Lemma surface_points_ok : surface_points_element f id0 id1 = Ok (map (fun ij => p (id1 - d1 + fst ij) (id0 - d0 + snd ij)) (loop_pairs d0 d1)).
Proof.
  destruct Hreg as (_ & _ & _ & _ & _ & _ & Hl & _). pose proof Hel0 as (H0 & _). pose proof Hel1 as (H1 & _).
  unfold surface_points_element. rewrite (proj2 (Nat.leb_le d0 id0)) by lia. rewrite (proj2 (Nat.leb_le d1 id1)) by lia. cbn [andb].
  apply all_ok_map. intros (i, j) Hij. apply loop_pairs_in in Hij. cbn [fst snd]. apply at2_ok with (n := basis_count d0 (f_knots0 f)); [lia|exact rows_p|lia].
Qed.

Lemma window2 x y (s0 s1 : nat -> nat -> R) (g : nat -> nat -> R) :
  (forall r, (r <= d0)%nat -> s0 0%nat r = B0 (id0 - d0 + r) x) -> (forall r, (r <= d1)%nat -> s1 0%nat r = B1 (id1 - d1 + r) y) ->
  (forall m, (m < basis_count d0 (f_knots0 f))%nat -> (m < id0 - d0 \/ id0 < m)%nat -> B0 m x = 0) ->
  (forall m, (m < basis_count d1 (f_knots1 f))%nat -> (m < id1 - d1 \/ id1 < m)%nat -> B1 m y = 0) ->
  rsum (basis_count d1 (f_knots1 f)) (fun a => rsum (basis_count d0 (f_knots0 f)) (fun b => B0 b x * B1 a y * w a b * g a b))
  = rsum (S d1) (fun i => rsum (S d0) (fun j => s0 0%nat j * s1 0%nat i * w (id1 - d1 + i) (id0 - d0 + j) * g (id1 - d1 + i)%nat (id0 - d0 + j)%nat)).
Proof.
  intros V0 V1 Z0 Z1. pose proof Hel0 as (H0 & _). pose proof Hel1 as (H1 & _).
  rewrite (rsum_window (basis_count d1 (f_knots1 f)) (id1 - d1) (S d1)).
  - apply rsum_ext. intros i Hi.
    rewrite (rsum_window (basis_count d0 (f_knots0 f)) (id0 - d0) (S d0)).
    + apply rsum_ext. intros j Hj. rewrite V0, V1 by lia. reflexivity.
    + lia.
    + intros q Hq Hout. rewrite Z0 by lia. ring.
  - lia.
  - intros q Hq Hout. apply rsum_zero. intros b Hb. rewrite Z1 by lia. ring.
Qed.

Lemma surface_interpolate_ok s t : half_open (f_knots0 f) id0 s -> half_open (f_knots1 f) id1 t ->
  surface_interpolate j1 j2 j3 garbage f id0 id1 s t =
    Ok (map (fun k => surface_place f k (parameter (f_knots0 f) id0 s) (parameter (f_knots1 f) id1 t)) (seq 0 dim)).
Proof.
  intros Hs Ht. pose proof Hreg as (Hm0 & Hc0 & Hm1 & Hc1 & Hwl & _ & Hpl & _). pose proof Hel0 as (H0 & _). pose proof Hel1 as (H1 & _).
  set (x := parameter (f_knots0 f) id0 s). set (y := parameter (f_knots1 f) id1 t).
  destruct (span_of_element d0 (f_knots0 f) id0 s Hm0 Hc0 Hel0 Hs) as (E0 & Hx).
  destruct (span_of_element d1 (f_knots1 f) id1 t Hm1 Hc1 Hel1 Ht) as (E1 & Hy).
  destruct (basis_all d0 (f_knots0 f) x j1 j2 j3 0 Hm0 Hc0 Hx) as (i0 & s0 & E0' & _ & _ & _ & _ & Ed0 & V0 & Z0 & N0 & S0 & _).
  destruct (basis_all d1 (f_knots1 f) y j1 j2 j3 0 Hm1 Hc1 Hy) as (i1 & s1 & E1' & _ & _ & _ & _ & Ed1 & V1 & Z1 & N1 & S1 & _).
  assert (i0 = id0) by (unfold x in *; congruence). assert (i1 = id1) by (unfold y in *; congruence). subst i0 i1.
  assert (K0 : (id0 + 1 < length (f_knots0 f))%nat) by (unfold basis_count in H0; lia).
  assert (K1 : (id1 + 1 < length (f_knots1 f))%nat) by (unfold basis_count in H1; lia).
  unfold surface_interpolate, surface_shape. rewrite element_knots_ok by exact K0. cbn [obind]. rewrite element_knots_ok by exact K1. cbn [obind].
  rewrite !transformation_parameter. fold x y. unfold surface_rational. rewrite E0'. cbn [obind]. rewrite E1'. cbn [obind].
  rewrite Ed0. cbn [obind]. rewrite Ed1. cbn [obind].
  rewrite (proj2 (Nat.leb_le d0 id0)) by lia. rewrite (proj2 (Nat.leb_le d1 id1)) by lia. cbn [andb].
  rewrite (all_ok_map _ (fun ij => w (id1 - d1 + fst ij) (id0 - d0 + snd ij))).
  2:{ intros (i, j) Hij. apply loop_pairs_in in Hij. cbn [fst snd]. apply at2_ok with (n := basis_count d0 (f_knots0 f)); [lia|exact rows_w|lia]. }
  cbn [obind]. rewrite surface_dim_ok. cbn [obind]. rewrite surface_points_ok. cbn [obind].
  set (pts := map (fun ij => p (id1 - d1 + fst ij) (id0 - d0 + snd ij)) (loop_pairs d0 d1)).
  assert (Hdim : Forall (fun q => length q = dim) pts).
  { apply Forall_forall. intros q Hq. apply in_map_iff in Hq. destruct Hq as ((i, j) & <- & Hij). apply loop_pairs_in in Hij. cbn [fst snd].
    apply p_dim; lia. }
  rewrite same_size_ok by exact Hdim. f_equal.
  rewrite n_times_values_ok by (auto; unfold pts; rewrite map_length, length_loop_pairs; reflexivity).
  apply map_ext_in. intros k Hk. unfold surface_place. fold x y.
  rewrite (window2 x y s0 s1) by assumption. rewrite (window2 x y s0 s1 (fun _ _ => 1)) by assumption.
  rewrite (Nat.mul_comm (S d0) (S d1)). rewrite rsum_blocks.
  set (W := fun i j => nth (i * S d0 + j) (map (fun ij => w (id1 - d1 + fst ij) (id0 - d0 + snd ij)) (loop_pairs d0 d1)) 0).
  assert (HW : forall i j, (i <= d1)%nat -> (j <= d0)%nat -> W i j = w (id1 - d1 + i) (id0 - d0 + j)).
  { intros i j Hi Hj. unfold W. rewrite (nth_map_prod _ d0 d1 i j) by assumption. reflexivity. }
  assert (HS : sum2d d0 d1 s0 s1 W 0 0 = rsum (S d1) (fun i => rsum (S d0) (fun j => s0 0%nat j * s1 0%nat i * w (id1 - d1 + i) (id0 - d0 + j) * 1))).
  { unfold sum2d. apply rsum_ext. intros i Hi. apply rsum_ext. intros j Hj. rewrite HW by lia. ring. }
  rewrite <- HS. unfold Rdiv. rewrite <- rsum_scal_r. apply rsum_ext. intros i Hi. rewrite <- rsum_scal_r. apply rsum_ext. intros j Hj.
  assert (Hdiv : ((i * S d0 + j) / S d0 = i)%nat) by (rewrite Nat.div_add_l by lia; rewrite Nat.div_small by lia; lia).
  assert (Hmod : ((i * S d0 + j) mod S d0 = j)%nat) by (rewrite Nat.add_comm, Nat.mod_add by lia; apply Nat.mod_small; lia).
  rewrite Hdiv, Hmod. unfold pts. rewrite (nth_map_prod _ d0 d1 i j) by lia. cbn [fst snd]. fold W. unfold rational2_value.
  rewrite (HW i j) by lia. unfold Rdiv. ring.
Qed.
End Surface.
