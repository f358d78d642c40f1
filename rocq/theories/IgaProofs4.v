(** * The derivative shape functions of isogeometric surface elements *)
From Coq Require Import Arith Bool Reals Lra Lia.
From Coquelicot Require Import Coquelicot.
From Coq Require Import List.
From Verif Require Import RSum Outcome AdaptiveModel NurbsModel NurbsSpec NurbsProofs NurbsProofs2 NurbsProofs3 NurbsProofs4 PropNurbs CellModel CellProofs
  IgaModel IgaSpec IgaProofs IgaProofs2 IgaProofs3.
Import ListNotations.
Local Open Scope R_scope.

(** inside of a knot interval only the functions of the interval count *)
Lemma outside_zero degree knots id t m : nondecreasing knots -> clamped degree knots -> element_of degree knots id ->
  knot knots id < t < knot knots (id + 1) -> (m < basis_count degree knots)%nat -> (m < id - degree \/ id < m)%nat -> bspline degree knots degree m t = 0.
Proof.
  intros Hm Hc (Hi & Hw) Ht Hb Hout. destruct Hc as (Hl & _ & He & _).
  rewrite (bspline_piece degree knots id) by (auto; unfold basis_count in *; try lia; left; lra). apply P_out. lia.
Qed.

Section Surface4.
Variables (f : surface) (dim id0 id1 : nat) (j1 j2 j3 : nat -> nat -> R).
Hypotheses (Hreg : regular_surface f dim) (Hel0 : element_of (f_degree0 f) (f_knots0 f) id0) (Hel1 : element_of (f_degree1 f) (f_knots1 f) id1).
Local Notation d0 := (f_degree0 f).
Local Notation d1 := (f_degree1 f).
Local Notation A := (fun q x => bspline d0 (f_knots0 f) d0 (id0 - d0 + q) x).
Local Notation B := (fun q y => bspline d1 (f_knots1 f) d1 (id1 - d1 + q) y).
Local Notation W := (fun i j => nth (id0 - d0 + j) (nth (id1 - d1 + i) (f_weights f) []) 0).

Lemma function_window i j x y : (i <= d1)%nat -> (j <= d0)%nat -> knot (f_knots0 f) id0 < x < knot (f_knots0 f) (id0 + 1) ->
  knot (f_knots1 f) id1 < y < knot (f_knots1 f) (id1 + 1) ->
  surface_basis d0 d1 A B W i j x y = surface_function f (id1 - d1 + i) (id0 - d0 + j) x y.
Proof.
  intros Hi Hj Hx Hy. pose proof Hreg as (Hm0 & Hc0 & Hm1 & Hc1 & _). unfold surface_basis, surface_function. cbv zeta. f_equal. symmetry.
  rewrite (rsum_ext _ _ (fun a => rsum (basis_count d0 (f_knots0 f)) (fun b => bspline d0 (f_knots0 f) d0 b x * bspline d1 (f_knots1 f) d1 a y * nth b (nth a (f_weights f) []) 0 * 1))).
  2:{ intros a _. apply rsum_ext. intros b _. ring. }
  rewrite (window2 f id0 id1 Hel0 Hel1 x y (fun _ r => A r x) (fun _ r => B r y) (fun _ _ => 1)); [| | |intros m Hmb; apply (outside_zero d0 (f_knots0 f) id0); auto|intros m Hmb; apply (outside_zero d1 (f_knots1 f) id1); auto].
  - apply rsum_ext. intros p _. apply rsum_ext. intros q _. ring.
  - reflexivity.
  - reflexivity.
Qed.

Lemma surface_derivatives s t : -1 < s < 1 -> -1 < t < 1 ->
  exists dN, surface_shape j1 j2 j3 1 f id0 id1 s t = Ok dN /\
    forall i j, (i <= d1)%nat -> (j <= d0)%nat ->
      is_derive (fun x => surface_function f (id1 - d1 + i) (id0 - d0 + j) x (parameter (f_knots1 f) id1 t)) (parameter (f_knots0 f) id0 s) (dN (i * S d0 + j)%nat 0%nat) /\
      is_derive (fun y => surface_function f (id1 - d1 + i) (id0 - d0 + j) (parameter (f_knots0 f) id0 s) y) (parameter (f_knots1 f) id1 t) (dN (i * S d0 + j)%nat 1%nat).
Proof.
  intros Hs Ht. pose proof Hreg as (Hm0 & Hc0 & Hm1 & Hc1 & Hwl & _). pose proof Hel0 as (H0 & Hw0). pose proof Hel1 as (H1 & Hw1).
  set (x := parameter (f_knots0 f) id0 s). set (y := parameter (f_knots1 f) id1 t).
  assert (Ix: knot (f_knots0 f) id0 < x < knot (f_knots0 f) (id0 + 1)) by (split; [apply parameter_gt|apply parameter_lt]; auto; lra).
  assert (Iy: knot (f_knots1 f) id1 < y < knot (f_knots1 f) (id1 + 1)) by (split; [apply parameter_gt|apply parameter_lt]; auto; lra).
  destruct (span_of_element d0 (f_knots0 f) id0 s Hm0 Hc0 Hel0 ltac:(left; lra)) as (E0 & Hx).
  destruct (span_of_element d1 (f_knots1 f) id1 t Hm1 Hc1 Hel1 ltac:(left; lra)) as (E1 & Hy).
  destruct (basis_all d0 (f_knots0 f) x j1 j2 j3 1 Hm0 Hc0 Hx) as (i0 & s0 & E0' & _ & _ & _ & _ & Ed0 & V0 & Z0 & N0 & S0 & D0).
  destruct (basis_all d1 (f_knots1 f) y j1 j2 j3 1 Hm1 Hc1 Hy) as (i1 & s1 & E1' & _ & _ & _ & _ & Ed1 & V1 & Z1 & N1 & S1 & D1).
  assert (i0 = id0) by (unfold x in *; congruence). assert (i1 = id1) by (unfold y in *; congruence). subst i0 i1.
  assert (K0 : (id0 + 1 < length (f_knots0 f))%nat) by (unfold basis_count in H0; lia).
  assert (K1 : (id1 + 1 < length (f_knots1 f))%nat) by (unfold basis_count in H1; lia).
  unfold surface_shape. rewrite element_knots_ok by exact K0. cbn [obind]. rewrite element_knots_ok by exact K1. cbn [obind].
  rewrite !transformation_parameter. fold x y. unfold surface_rational. rewrite E0'. cbn [obind]. rewrite E1'. cbn [obind].
  rewrite Ed0. cbn [obind]. rewrite Ed1. cbn [obind].
  rewrite (proj2 (Nat.leb_le d0 id0)) by lia. rewrite (proj2 (Nat.leb_le d1 id1)) by lia. cbn [andb].
  rewrite (all_ok_map _ (fun ij => nth (id0 - d0 + snd ij) (nth (id1 - d1 + fst ij) (f_weights f) []) 0)).
  2:{ intros (i, j) Hij. apply loop_pairs_in in Hij. cbn [fst snd]. apply at2_ok with (n := basis_count d0 (f_knots0 f)); [lia|exact (rows_w f dim Hreg)|lia]. }
  cbn [obind]. eexists. split; [reflexivity|]. intros i j Hi Hj.
  set (ws := map (fun ij => nth (id0 - d0 + snd ij) (nth (id1 - d1 + fst ij) (f_weights f) []) 0) (loop_pairs d0 d1)).
  assert (HW : forall p q, (p <= d1)%nat -> (q <= d0)%nat -> nth (p * S d0 + q) ws 0 = W p q).
  { intros p q Hp Hq. unfold ws. rewrite (nth_map_prod _ d0 d1 p q) by assumption. reflexivity. }
  assert (Hdiv : ((i * S d0 + j) / S d0 = i)%nat) by (rewrite Nat.div_add_l by lia; rewrite Nat.div_small by lia; lia).
  assert (Hmod : ((i * S d0 + j) mod S d0 = j)%nat) by (rewrite Nat.add_comm, Nat.mod_add by lia; apply Nat.mod_small; lia).
  cbv beta. rewrite Hdiv, Hmod.
  assert (HS : forall a b, sum2d d0 d1 s0 s1 (fun p q => nth (p * S d0 + q) ws 0) a b = sum2d d0 d1 s0 s1 W a b).
  { intros a b. unfold sum2d. apply rsum_ext. intros p Hp. apply rsum_ext. intros q Hq. rewrite HW by lia. reflexivity. }
  assert (HF : forall col, rational2_first d0 d1 s0 s1 (fun p q => nth (p * S d0 + q) ws 0) i j col = rational2_first d0 d1 s0 s1 W i j col).
  { intros col. unfold rational2_first. rewrite !HS, HW by assumption. reflexivity. }
  rewrite !HF.
  assert (Pos: 0 < rsum (S d1) (fun i => rsum (S d0) (fun j => A j x * B i y * W i j))).
  { assert (E: rsum (S d1) (fun i => rsum (S d0) (fun j => A j x * B i y * W i j)) = rsum (S d1) (fun i => s1 0%nat i * rsum (S d0) (fun j => s0 0%nat j * W i j))).
    { apply rsum_ext. intros p Hp. rewrite <- rsum_scal. apply rsum_ext. intros q Hq. rewrite V0, V1 by lia. ring. }
    rewrite E. apply (wsum_pos (S d1) (fun r => s1 0%nat r)); [intros p Hp; apply N1; lia|exact S1|].
    intros p Hp. apply (wsum_pos (S d0) (fun r => s0 0%nat r)); [intros q Hq; apply N0; lia|exact S0|].
    intros q Hq. apply (w_pos f dim Hreg); lia. }
  assert (DA: forall q, (q <= d0)%nat -> is_derive (A q) x (s0 1%nat q)).
  { intros q Hq. pose proof (bspline_derive_n d0 (f_knots0 f) id0 x d0 (id0 - d0 + q) 1 (s0 1%nat q) Hm0) as Q. cbn [is_derive_n Derive_n] in Q.
    apply Q; try lia; try assumption; [unfold basis_count in *; lia|destruct Hc0 as (_ & _ & H & _); exact H|]. apply (D0 1%nat q); lia. }
  assert (DB: forall q, (q <= d1)%nat -> is_derive (B q) y (s1 1%nat q)).
  { intros q Hq. pose proof (bspline_derive_n d1 (f_knots1 f) id1 y d1 (id1 - d1 + q) 1 (s1 1%nat q) Hm1) as Q. cbn [is_derive_n Derive_n] in Q.
    apply Q; try lia; try assumption; [unfold basis_count in *; lia|destruct Hc1 as (_ & _ & H & _); exact H|]. apply (D1 1%nat q); lia. }
  destruct (C76_surface d0 d1 A B s0 s1 W i j x y Hi Hj V0 V1 ltac:(lra)) as (_ & _ & X & Y).
  split.
  - apply (is_derive_ext_loc (fun x' => surface_basis d0 d1 A B W i j x' y)); [|exact (X DA)].
    eapply filter_imp; [|exact (open_interval _ _ _ Ix)]. intros x' Hx'. apply function_window; assumption.
  - apply (is_derive_ext_loc (fun y' => surface_basis d0 d1 A B W i j x y')); [|exact (Y DB)].
    eapply filter_imp; [|exact (open_interval _ _ _ Iy)]. intros y' Hy'. apply function_window; assumption.
Qed.
End Surface4.
