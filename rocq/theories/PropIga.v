(** * C97: isogeometric elements *)
From Coq Require Import Arith Bool Reals Lra Lia.
From Coquelicot Require Import Coquelicot.
From Coq Require Import List.
From Verif Require Import RSum Outcome AdaptiveModel AdaptiveProofs NurbsModel NurbsSpec NurbsProofs NurbsProofs2 CellModel CellProofs IgaModel IgaSpec IgaProofs IgaProofs2 IgaProofs3 IgaProofs4.
Import ListNotations.
Local Open Scope R_scope.

(** the interpolation of the element is the NURBS curve at the place in the knot interval that belongs to the local coordinate, in every
    dimension and for every degree.  Missing for the full claim: the right end of an element that is not the last one *)
Theorem C97_interpolation_partial : forall j1 j2 j3 garbage c dim id s, regular c dim -> element_of (c_degree c) (c_knots c) id ->
  half_open (c_knots c) id s ->
  curve_interpolate j1 j2 j3 garbage c id s = Ok (map (fun i => place c i (parameter (c_knots c) id s)) (seq 0 dim)).
Proof. intros. apply interpolate_ok; assumption. Qed.
Print Assumptions C97_interpolation_partial.

(** the same for surfaces *)
Theorem C97_surface_partial : forall j1 j2 j3 garbage f dim id0 id1 s t, regular_surface f dim ->
  element_of (f_degree0 f) (f_knots0 f) id0 -> element_of (f_degree1 f) (f_knots1 f) id1 ->
  half_open (f_knots0 f) id0 s -> half_open (f_knots1 f) id1 t ->
  surface_interpolate j1 j2 j3 garbage f id0 id1 s t =
    Ok (map (fun k => surface_place f k (parameter (f_knots0 f) id0 s) (parameter (f_knots1 f) id1 t)) (seq 0 dim)).
Proof. intros. apply surface_interpolate_ok; assumption. Qed.
Print Assumptions C97_surface_partial.

(** the shape functions of an element are the degree + 1 NURBS basis functions of its control points: nonnegative, with sum one *)
Theorem C97_shape_partial : forall j1 j2 j3 c dim id s, regular c dim -> element_of (c_degree c) (c_knots c) id -> half_open (c_knots c) id s ->
  exists N, curve_shape j1 j2 j3 0 c id s = Ok N /\ rsum (S (c_degree c)) N = 1 /\
    forall r, (r <= c_degree c)%nat -> 0 <= N r /\
      N r = nurbs_basis (c_degree c) (c_knots c) (c_weights c) (id - c_degree c + r) (parameter (c_knots c) id s).
Proof.
  intros j1 j2 j3 c dim id s Hr He Hs. destruct (shape_ok c dim id j1 j2 j3 Hr He 0 s ltac:(lia) Hs) as (N & E & H & _).
  destruct (H eq_refl) as (H1 & H2). exists N. split; [exact E|]. split; [exact H2|]. intros r Hle. destruct (H1 r Hle) as (A & B). auto.
Qed.
Print Assumptions C97_shape_partial.

(** in one dimension the derivatives with respect to the place, from the derivative shape functions and the Jacobian, are right: the
    missing factor of the knot interval cancels *)
Theorem C97_gradient : forall j1 j2 j3 c id s, regular c 1 -> element_of (c_degree c) (c_knots c) id -> -1 < s < 1 ->
  exists dN j (D : R), curve_shape j1 j2 j3 1 c id s = Ok dN /\ curve_jacobian j1 j2 j3 c id s = Ok j /\
    is_derive (fun s => place c 0 (parameter (c_knots c) id s)) s D /\
    (D <> 0 -> forall r, (r <= c_degree c)%nat ->
       is_derive (fun s => nurbs_basis (c_degree c) (c_knots c) (c_weights c) (id - c_degree c + r) (parameter (c_knots c) id s)) s
         (transform_derivatives j (fun k _ => dN k) r 0%nat * D)).
Proof.
  intros j1 j2 j3 c id s Hr He Hs.
  destruct (jacobian_ok c 1 id j1 j2 j3 Hr He s (or_introl eq_refl) Hs) as (dN & j & E1 & E2 & HN & HP & _ & _ & Hcols & Hinv).
  exists dN, j, ((knot (c_knots c) (id + 1) - knot (c_knots c) id) / 2 * jGet j 0%nat 0%nat).
  split; [exact E1|]. split; [exact E2|]. split; [apply HP; lia|]. intros HD r Hle.
  replace (transform_derivatives j (fun k _ => dN k) r 0%nat * _) with ((knot (c_knots c) (id + 1) - knot (c_knots c) id) / 2 * dN r); [apply HN; exact Hle|].
  unfold transform_derivatives. rewrite Hcols, (Hinv eq_refl). cbn [rsum]. field. intros H0. apply HD. rewrite H0. ring.
Qed.
Print Assumptions C97_gradient.

(** the integral over an element: with [D] the derivatives of the coordinates, the code's value is 2 / (knot interval) times the
    quadrature sum of the integrand times the line element *)
Theorem C97_integral_factor : forall j1 j2 j3 garbage c dim id f rule (D : nat -> R -> R), (dim = 1 \/ dim = 2)%nat -> regular c dim ->
  element_of (c_degree c) (c_knots c) id -> Forall (fun sw => -1 < fst sw < 1) rule ->
  (forall i s, (i < dim)%nat -> -1 < s < 1 -> is_derive (fun s => place c i (parameter (c_knots c) id s)) s (D i s)) ->
  curve_integrate j1 j2 j3 garbage c id f rule =
    Ok (2 / (knot (c_knots c) (id + 1) - knot (c_knots c) id) *
        fold_right (fun sw acc => snd sw * (f (map (fun i => place c i (parameter (c_knots c) id (fst sw))) (seq 0 dim)) * line_element dim (fun i => D i (fst sw))) + acc) 0 rule).
Proof. intros. apply integrate_ok; assumption. Qed.
Print Assumptions C97_integral_factor.

Lemma end_shape j1 j2 j3 order c id : (id + 2 < length (c_knots c))%nat ->
  curve_shape j1 j2 j3 order c id 1 = curve_shape j1 j2 j3 order c (S id) (-1).
Proof.
  intros H. unfold curve_shape. rewrite !element_knots_ok by lia. cbn [obind]. rewrite !transformation_parameter. f_equal.
  unfold parameter. replace (S id) with (id + 1)%nat by lia. field.
Qed.

(** at the right end of an element that is followed by another one the functions of the next element are combined with the control points
    of this one *)
Theorem C97_right_end : forall j1 j2 j3 garbage c dim id, regular c dim -> element_of (c_degree c) (c_knots c) id ->
  element_of (c_degree c) (c_knots c) (S id) ->
  curve_interpolate j1 j2 j3 garbage c id 1 =
    Ok (map (fun i => rsum (S (c_degree c)) (fun r =>
      nurbs_basis (c_degree c) (c_knots c) (c_weights c) (S id - c_degree c + r) (knot (c_knots c) (id + 1)) *
      nth i (nth (id - c_degree c + r) (c_points c) []) 0)) (seq 0 dim)).
Proof.
  intros j1 j2 j3 garbage c dim id Hr He He'. pose proof He' as ((_ & Hb) & _).
  assert (Hk : (id + 2 < length (c_knots c))%nat) by (unfold basis_count in Hb; lia).
  assert (Hs : half_open (c_knots c) (S id) (-1)) by (left; lra).
  destruct (shape_ok c dim (S id) j1 j2 j3 Hr He' 0 (-1) ltac:(lia) Hs) as (N & E & H & _). destruct (H eq_refl) as (H1 & _).
  destruct (points_element_ok c dim id Hr He) as (pts & Ep & Hlen & Hdim & Hnth).
  unfold curve_interpolate. rewrite end_shape by exact Hk. rewrite E. cbn [obind]. rewrite (curve_dim_ok c dim Hr). cbn [obind]. rewrite Ep. cbn [obind].
  rewrite same_size_ok by exact Hdim. f_equal. rewrite n_times_values_ok by auto. apply map_ext_in. intros i Hi. apply rsum_ext. intros r Hlt.
  destruct (H1 r ltac:(lia)) as (A & _). rewrite A. rewrite Hnth by lia. f_equal. f_equal. unfold parameter. replace (S id) with (id + 1)%nat by lia. field.
Qed.
Print Assumptions C97_right_end.

(** ** witness: the line from 0 to 1 in two elements of degree one *)
Definition two_lines : curve := mkCurve [0; 0; 1/2; 1; 1] [[0]; [1/2]; [1]] [1; 1; 1] 1.
Lemma two_regular : regular two_lines 1.
Proof.
  unfold regular, two_lines; cbn [c_knots c_points c_weights c_degree]. split; [|split; [|split; [|split; [|split]]]].
  - intros a b Hab Hb. unfold knot. cbn [length] in Hb.
    do 5 (destruct b as [|b]; [do 5 (destruct a as [|a]; [cbn [nth]; first [lra | lia]|]); lia|]). lia.
  - unfold clamped, knot, basis_count; cbn. repeat split; try lia; lra.
  - reflexivity.
  - intros m Hm. cbn [length] in Hm. do 3 (destruct m as [|m]; [cbn [nth]; lra|]). lia.
  - reflexivity.
  - repeat constructor.
Qed.
Lemma two_element1 : element_of (c_degree two_lines) (c_knots two_lines) 1.
Proof. unfold element_of, two_lines, basis_count, knot; cbn. split; [lia|lra]. Qed.
Lemma two_element2 : element_of (c_degree two_lines) (c_knots two_lines) 2.
Proof. unfold element_of, two_lines, basis_count, knot; cbn. split; [lia|lra]. Qed.

Ltac decide_reals := repeat (match goal with
  | |- context [rltb ?a ?b] => destruct (rltb_spec a b) as [(-> & ?)|(-> & ?)]; try lra
  | |- context [rleb ?a ?b] => destruct (rleb_spec a b) as [(-> & ?)|(-> & ?)]; try lra
  | |- context [Req_EM_T ?a ?b] => destruct (Req_EM_T a b); try lra
  end; cbn [andb orb]).

(** the three hat functions *)
Lemma two_bspline t : 0 <= t <= 1 ->
  bspline 1 (c_knots two_lines) 1 0 t = (if rltb t (1/2) then 1 - 2 * t else 0) /\
  bspline 1 (c_knots two_lines) 1 1 t = (if rltb t (1/2) then 2 * t else 2 - 2 * t) /\
  bspline 1 (c_knots two_lines) 1 2 t = (if rltb t (1/2) then 0 else 2 * t - 1).
Proof.
  intros Ht. unfold bspline, two_lines; cbn [c_knots cox_de_boor Nat.add]. unfold cdiv, indicator, knot, basis_count; cbn [nth Nat.add Nat.eqb length Nat.sub].
  destruct (rltb_spec t (1/2)) as [(-> & H)|(-> & H)].
  - repeat split; decide_reals; field.
  - destruct (Req_dec t 1) as [E|E]; [subst t|]; repeat split; decide_reals; field.
Qed.
Lemma two_place t : 0 <= t <= 1 -> place two_lines 0 t = t.
Proof.
  intros Ht. destruct (two_bspline t Ht) as (B0 & B1 & B2). unfold place, nurbs_curve, nurbs_basis.
  change (basis_count (c_degree two_lines) (c_knots two_lines)) with 3%nat. cbn [rsum c_degree c_weights c_points two_lines map nth].
  change [0; 0; 1/2; 1; 1] with (c_knots two_lines). rewrite B0, B1, B2. destruct (rltb t (1/2)); field; lra.
Qed.

(** the right end of the first element is mapped to 0 although it lies at 1/2 *)
Theorem C97_right_end_refuted : ~ forall j1 j2 j3 garbage c dim id s, regular c dim -> element_of (c_degree c) (c_knots c) id -> -1 <= s <= 1 ->
  curve_interpolate j1 j2 j3 garbage c id s = Ok (map (fun i => place c i (parameter (c_knots c) id s)) (seq 0 dim)).
Proof.
  intros H. set (z := fun _ _ : nat => 0). specialize (H z z z z two_lines 1%nat 1%nat 1 two_regular two_element1 ltac:(lra)).
  rewrite (C97_right_end z z z z two_lines 1 1 two_regular two_element1 two_element2) in H. cbn [seq map] in H.
  assert (E : parameter (c_knots two_lines) 1 1 = 1/2) by (unfold parameter, two_lines, knot; cbn; field).
  rewrite E, two_place in H by lra.
  assert (K : knot (c_knots two_lines) (1 + 1) = 1/2) by reflexivity. rewrite K in H.
  change (S (c_degree two_lines)) with 2%nat in H.
  assert (V : rsum 2 (fun r => nurbs_basis (c_degree two_lines) (c_knots two_lines) (c_weights two_lines) (2 - c_degree two_lines + r) (1/2) *
      nth 0 (nth (1 - c_degree two_lines + r) (c_points two_lines) []) 0) = 1/2) by congruence.
  destruct (two_bspline (1/2) ltac:(lra)) as (B0 & B1 & B2). revert V. unfold nurbs_basis.
  change (basis_count (c_degree two_lines) (c_knots two_lines)) with 3%nat. cbn [rsum c_degree c_weights c_points two_lines nth Nat.sub Nat.add].
  change [0; 0; 1/2; 1; 1] with (c_knots two_lines). rewrite B0, B1, B2. destruct (rltb_spec (1/2) (1/2)) as [(-> & ?)|(-> & ?)]; [lra|]. lra.
Qed.
Print Assumptions C97_right_end_refuted.

(** the measure of an element is wrong unless its knot interval has the length 2: both elements together get the length 4, not 1 *)
Theorem C97_length_refuted : exists c, regular c 1 /\ element_of (c_degree c) (c_knots c) 1 /\ element_of (c_degree c) (c_knots c) 2 /\
  (forall t, 0 <= t <= 1 -> place c 0 t = t) /\ parameter (c_knots c) 1 (-1) = 0 /\ parameter (c_knots c) 1 1 = 1/2 /\
  forall j1 j2 j3 garbage, curve_integrate j1 j2 j3 garbage c 1 (fun _ => 1) [(0, 2)] = Ok 2.
Proof.
  exists two_lines. split; [exact two_regular|]. split; [exact two_element1|]. split; [exact two_element2|]. split; [exact two_place|].
  split; [unfold parameter, two_lines, knot; cbn; field|]. split; [unfold parameter, two_lines, knot; cbn; field|].
  intros. rewrite (C97_integral_factor _ _ _ _ two_lines 1 1 _ _ (fun _ _ => 1/4)); [|left; reflexivity|exact two_regular|exact two_element1|..].
  - f_equal. cbn [fold_right snd fst line_element]. unfold two_lines, knot; cbn [c_knots nth Nat.add]. field.
  - repeat constructor; cbn [fst]; lra.
  - intros i s Hi Hs. assert (i = 0%nat) by lia. subst i.
    apply (is_derive_ext_loc (fun s => parameter (c_knots two_lines) 1 s)).
    + assert (Hd : 0 < Rmin (s + 1) (1 - s)) by (apply Rmin_pos; lra). exists (mkposreal _ Hd). intros y Hy. symmetry. apply two_place.
      assert (Hy' : Rabs (y - s) < Rmin (s + 1) (1 - s)) by exact Hy.
      assert (-1 < y < 1).
      { pose proof (Rmin_l (s + 1) (1 - s)). pose proof (Rmin_r (s + 1) (1 - s)). apply Rabs_def2 in Hy'. lra. }
      unfold parameter, two_lines, knot; cbn [c_knots nth Nat.add]. lra.
    + replace (1/4) with ((knot (c_knots two_lines) (1 + 1) - knot (c_knots two_lines) 1) / 2) by (unfold two_lines, knot; cbn [c_knots nth Nat.add]; field).
      apply parameter_derive.
Qed.
Print Assumptions C97_length_refuted.

(** the derivative shape functions are derivatives with respect to the knot parameter: for every element the derivative with respect to
    the local coordinate is half the knot interval times the returned value *)
Theorem C97_derivative_factor : forall j1 j2 j3 c dim id s, (dim = 1 \/ dim = 2)%nat -> regular c dim -> element_of (c_degree c) (c_knots c) id -> -1 < s < 1 ->
  exists dN, curve_shape j1 j2 j3 1 c id s = Ok dN /\ forall r, (r <= c_degree c)%nat ->
    is_derive (fun s => nurbs_basis (c_degree c) (c_knots c) (c_weights c) (id - c_degree c + r) (parameter (c_knots c) id s)) s
      ((knot (c_knots c) (id + 1) - knot (c_knots c) id) / 2 * dN r).
Proof.
  intros j1 j2 j3 c dim id s Hd Hr He Hs. destruct (jacobian_ok c dim id j1 j2 j3 Hr He s Hd Hs) as (dN & j & E & _ & H & _). eauto.
Qed.
Print Assumptions C97_derivative_factor.

(** for surfaces the derivative shape functions are the partial derivatives of the NURBS functions by the parameters of the knots, inside of
    every element: row i (degree0 + 1) + j belongs to control point (i, j) of the element, the column is the direction *)
Theorem C97_surface_derivatives : forall j1 j2 j3 f dim id0 id1 s t, regular_surface f dim ->
  element_of (f_degree0 f) (f_knots0 f) id0 -> element_of (f_degree1 f) (f_knots1 f) id1 -> -1 < s < 1 -> -1 < t < 1 ->
  exists dN, surface_shape j1 j2 j3 1 f id0 id1 s t = Ok dN /\
    forall i j, (i <= f_degree1 f)%nat -> (j <= f_degree0 f)%nat ->
      let N := surface_function f (id1 - f_degree1 f + i) (id0 - f_degree0 f + j) in
      let x := parameter (f_knots0 f) id0 s in let y := parameter (f_knots1 f) id1 t in
      let row := (i * S (f_degree0 f) + j)%nat in
      is_derive (fun x => N x y) x (dN row 0%nat) /\ is_derive (fun y => N x y) y (dN row 1%nat).
Proof. intros. eapply surface_derivatives; eassumption. Qed.
Print Assumptions C97_surface_derivatives.

(** the hypotheses hold for the two lines and for a bilinear surface *)
Example C97_curve_instance : forall j1 j2 j3 garbage, curve_interpolate j1 j2 j3 garbage two_lines 2 0 = Ok [3/4].
Proof.
  intros. rewrite (C97_interpolation_partial _ _ _ _ two_lines 1 2 0 two_regular two_element2) by (left; lra). cbn [seq map].
  replace (parameter (c_knots two_lines) 2 0) with (3/4) by (unfold parameter, two_lines, knot; cbn; field). rewrite two_place by lra. reflexivity.
Qed.
Definition bilinear : surface := mkSurface [0; 0; 1; 1] [0; 0; 1; 1] [[[0; 0]; [2; 0]]; [[0; 3]; [2; 3]]] [[1; 1]; [1; 2]] 1 1.
Example C97_surface_instance : regular_surface bilinear 2 /\ element_of 1 (f_knots0 bilinear) 1 /\ half_open (f_knots0 bilinear) 1 1 /\ half_open (f_knots1 bilinear) 1 0.
Proof.
  unfold regular_surface, bilinear; cbn [f_knots0 f_knots1 f_points f_weights f_degree0 f_degree1].
  assert (M : nondecreasing [0; 0; 1; 1]).
  { intros a b Hab Hb. unfold knot. cbn [length] in Hb. do 4 (destruct b as [|b]; [do 4 (destruct a as [|a]; [cbn [nth]; first [lra | lia]|]); lia|]). lia. }
  assert (C : clamped 1 [0; 0; 1; 1]) by (unfold clamped, knot, basis_count; cbn; repeat split; try lia; lra).
  split; [|split; [|split]].
  - repeat (split; auto); repeat constructor; lra.
  - unfold element_of, basis_count, knot; cbn. split; [lia|lra].
  - right. split; [reflexivity|reflexivity].
  - left. lra.
Qed.
