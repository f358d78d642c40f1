(** C97: the Jacobian of isogeometric surface elements and integrals over them *)
From Coq Require Import Arith Bool Reals Lra Lia Psatz.
From Coquelicot Require Import Coquelicot.
From Coq Require Import List.
From Verif Require Import RSum Outcome AdaptiveModel NurbsModel NurbsSpec NurbsProofs NurbsProofs2 NurbsProofs3 NurbsProofs4 PropNurbs CellModel CellProofs
  IntegrandProofs IgaModel IgaSpec IgaProofs IgaProofs2 IgaProofs3 IgaProofs4 IgaSurfaceModel PropIga.
Import ListNotations.
Local Open Scope R_scope.

(** ** Specification *)
(** area element of a surface in the plane (with sign) or in space, from the two derivatives of its coordinates *)
Definition area_element (dim : nat) (D0 D1 : nat -> R) : R :=
  match dim with
  | 2%nat => D0 0%nat * D1 1%nat - D0 1%nat * D1 0%nat
  | _ => sqrt ((D0 1%nat * D1 2%nat - D0 2%nat * D1 1%nat) ^ 2 + (D0 2%nat * D1 0%nat - D0 0%nat * D1 2%nat) ^ 2 + (D0 0%nat * D1 1%nat - D0 1%nat * D1 0%nat) ^ 2)
  end.

Section SurfaceJacobian.
Variables (f : surface) (dim id0 id1 : nat) (j1 j2 j3 : nat -> nat -> R) (garbage : mfun).
Hypotheses (Hreg : regular_surface f dim) (Hel0 : element_of (f_degree0 f) (f_knots0 f) id0) (Hel1 : element_of (f_degree1 f) (f_knots1 f) id1).
Local Notation d0 := (f_degree0 f).
Local Notation d1 := (f_degree1 f).
Local Notation p a b := (nth b (nth a (f_points f) []) []).
Local Notation w0 := (knot (f_knots0 f) (id0 + 1) - knot (f_knots0 f) id0).
Local Notation w1 := (knot (f_knots1 f) (id1 + 1) - knot (f_knots1 f) id1).

(** inside of the element the surface is the sum of the functions of the element times its control points *)
Lemma place_window k x y : knot (f_knots0 f) id0 < x < knot (f_knots0 f) (id0 + 1) -> knot (f_knots1 f) id1 < y < knot (f_knots1 f) (id1 + 1) ->
  rsum (S d1) (fun i => rsum (S d0) (fun j => surface_function f (id1 - d1 + i) (id0 - d0 + j) x y * nth k (p (id1 - d1 + i) (id0 - d0 + j)) 0))
  = surface_place f k x y.
Proof.
  intros Hx Hy. pose proof Hreg as (Hm0 & Hc0 & Hm1 & Hc1 & _). unfold surface_place. cbv zeta.
  rewrite (window2 f id0 id1 Hel0 Hel1 x y (fun _ r => bspline d0 (f_knots0 f) d0 (id0 - d0 + r) x) (fun _ r => bspline d1 (f_knots1 f) d1 (id1 - d1 + r) y)
    (fun a b => nth k (p a b) 0)); [|reflexivity|reflexivity|intros m Hmb; apply (outside_zero d0 (f_knots0 f) id0); auto|intros m Hmb; apply (outside_zero d1 (f_knots1 f) id1); auto].
  set (T := rsum (basis_count d1 (f_knots1 f)) _) at 1.
  unfold Rdiv. rewrite <- rsum_scal_r. apply rsum_ext. intros i Hi. rewrite <- rsum_scal_r. apply rsum_ext. intros j Hj.
  unfold surface_function. cbv zeta.
  replace (rsum (basis_count d1 (f_knots1 f)) (fun a => rsum (basis_count d0 (f_knots0 f)) (fun b => bspline d0 (f_knots0 f) d0 b x * bspline d1 (f_knots1 f) d1 a y * nth b (nth a (f_weights f) []) 0))) with T.
  2:{ unfold T. apply rsum_ext. intros a _. apply rsum_ext. intros b _. ring. }
  unfold Rdiv. ring.
Qed.
Lemma surface_values_ok : exists pts, surface_node_values f id0 id1 = Ok (concat pts) /\ length pts = (S d0 * S d1)%nat /\ List.Forall (fun q => length q = dim) pts /\
  forall i j, (i <= d1)%nat -> (j <= d0)%nat -> nth (i * S d0 + j) pts [] = p (id1 - d1 + i) (id0 - d0 + j).
Proof.
  pose proof Hreg as (_ & _ & _ & _ & _ & _ & Hpl & _). pose proof Hel0 as (H0 & _). pose proof Hel1 as (H1 & _).
  exists (map (fun ij => p (id1 - d1 + fst ij) (id0 - d0 + snd ij)) (loop_pairs d0 d1)).
  assert (Hdim : List.Forall (fun q => length q = dim) (map (fun ij => p (id1 - d1 + fst ij) (id0 - d0 + snd ij)) (loop_pairs d0 d1))).
  { apply List.Forall_forall. intros q Hq. apply in_map_iff in Hq. destruct Hq as ((i, j) & <- & Hij). apply loop_pairs_in in Hij. cbn [fst snd].
    apply (p_dim f dim Hreg); lia. }
  split; [|split; [|split; [exact Hdim|]]].
  - unfold surface_node_values. rewrite (surface_dim_ok f dim id0 id1 Hreg Hel0 Hel1). cbn [obind]. rewrite (surface_points_ok f dim id0 id1 Hreg Hel0 Hel1). cbn [obind].
    rewrite same_size_ok by exact Hdim. reflexivity.
  - rewrite map_length, length_loop_pairs. reflexivity.
  - intros i j Hi Hj. rewrite (nth_map_prod _ d0 d1 i j) by assumption. reflexivity.
Qed.

Lemma surface_jacobian_ok s t : (dim = 2 \/ dim = 3)%nat -> -1 < s < 1 -> -1 < t < 1 ->
  exists j, surface_jacobian j1 j2 j3 f id0 id1 s t = Ok j /\
    (forall k, (k < dim)%nat ->
       is_derive (fun s => surface_place f k (parameter (f_knots0 f) id0 s) (parameter (f_knots1 f) id1 t)) s (w0 / 2 * jGet j k 0%nat) /\
       is_derive (fun t => surface_place f k (parameter (f_knots0 f) id0 s) (parameter (f_knots1 f) id1 t)) t (w1 / 2 * jGet j k 1%nat)) /\
    jDet j = area_element dim (fun k => jGet j k 0%nat) (fun k => jGet j k 1%nat).
Proof.
  intros Hd Hs Ht. destruct (surface_derivatives f dim id0 id1 j1 j2 j3 Hreg Hel0 Hel1 s t Hs Ht) as (dN & EN & D).
  destruct surface_values_ok as (pts & Ev & Hlen & Hdim & Hnth).
  set (x := parameter (f_knots0 f) id0 s) in *. set (y := parameter (f_knots1 f) id1 t) in *.
  assert (Ix: knot (f_knots0 f) id0 < x < knot (f_knots0 f) (id0 + 1)) by (destruct Hel0; split; [apply parameter_gt|apply parameter_lt]; auto; lra).
  assert (Iy: knot (f_knots1 f) id1 < y < knot (f_knots1 f) (id1 + 1)) by (destruct Hel1; split; [apply parameter_gt|apply parameter_lt]; auto; lra).
  set (num := (S d0 * S d1)%nat) in *.
  assert (HL : length (concat pts) = (num * dim)%nat) by (rewrite (length_concat _ dim Hdim), Hlen; reflexivity).
  assert (N0 : num <> 0%nat) by (unfold num; lia).
  assert (HG : (length (concat pts) / num)%nat = dim) by (rewrite HL, Nat.mul_comm; apply Nat.div_mul; exact N0).
  set (J := jacobian_matrix dim num (fun q => nth q (concat pts) 0) dN).
  assert (HJ : forall k c, (k < dim)%nat -> J k c = rsum (S d1) (fun i => rsum (S d0) (fun j => dN (i * S d0 + j)%nat c * nth k (p (id1 - d1 + i) (id0 - d0 + j)) 0))).
  { intros k c Hk. unfold J, jacobian_matrix. unfold num at 1. rewrite Nat.mul_comm, rsum_blocks. apply rsum_ext. intros i Hi. apply rsum_ext. intros j Hj.
    assert (Hq : (i * S d0 + j < length pts)%nat) by (rewrite Hlen; unfold num; nia).
    rewrite (concat_nth pts dim) by (auto; lia). rewrite Hnth by lia. ring. }
  assert (HD : forall k, (k < dim)%nat -> is_derive (fun x => surface_place f k x y) x (J k 0%nat) /\ is_derive (fun y => surface_place f k x y) y (J k 1%nat)).
  { intros k Hk. rewrite !HJ by exact Hk. split.
    - eapply is_derive_ext_loc; [eapply filter_imp; [|exact (open_interval _ _ _ Ix)]; intros x' Hx'; apply place_window; assumption|].
      apply is_derive_rsum. intros i Hi. apply is_derive_rsum. intros j Hj. destruct (D i j ltac:(lia) ltac:(lia)) as (Dx & _).
      apply (is_derive_ext (fun x' => scal (nth k (p (id1 - d1 + i) (id0 - d0 + j)) 0) (surface_function f (id1 - d1 + i) (id0 - d0 + j) x' y))); [intros x'; unfold scal; cbn; unfold mult; cbn; ring|].
      replace (dN (i * S d0 + j)%nat 0%nat * nth k (p (id1 - d1 + i) (id0 - d0 + j)) 0) with (scal (nth k (p (id1 - d1 + i) (id0 - d0 + j)) 0) (dN (i * S d0 + j)%nat 0%nat)) by (unfold scal; cbn; unfold mult; cbn; ring).
      apply (is_derive_scal (fun x' => surface_function f (id1 - d1 + i) (id0 - d0 + j) x' y) x). exact Dx.
    - eapply is_derive_ext_loc; [eapply filter_imp; [|exact (open_interval _ _ _ Iy)]; intros y' Hy'; apply place_window; assumption|].
      apply is_derive_rsum. intros i Hi. apply is_derive_rsum. intros j Hj. destruct (D i j ltac:(lia) ltac:(lia)) as (_ & Dy).
      apply (is_derive_ext (fun y' => scal (nth k (p (id1 - d1 + i) (id0 - d0 + j)) 0) (surface_function f (id1 - d1 + i) (id0 - d0 + j) x y'))); [intros y'; unfold scal; cbn; unfold mult; cbn; ring|].
      replace (dN (i * S d0 + j)%nat 1%nat * nth k (p (id1 - d1 + i) (id0 - d0 + j)) 0) with (scal (nth k (p (id1 - d1 + i) (id0 - d0 + j)) 0) (dN (i * S d0 + j)%nat 1%nat)) by (unfold scal; cbn; unfold mult; cbn; ring).
      apply (is_derive_scal (fun y' => surface_function f (id1 - d1 + i) (id0 - d0 + j) x y') y). exact Dy. }
  assert (HE : forall k, (k < dim)%nat ->
       is_derive (fun s => surface_place f k (parameter (f_knots0 f) id0 s) y) s (w0 / 2 * J k 0%nat) /\
       is_derive (fun t => surface_place f k x (parameter (f_knots1 f) id1 t)) t (w1 / 2 * J k 1%nat)).
  { intros k Hk. destruct (HD k Hk) as (Dx & Dy). split; [apply (compose_derive (fun x => surface_place f k x y))|apply (compose_derive (fun y => surface_place f k x y))]; assumption. }
  unfold surface_jacobian. rewrite Ev. cbn [obind]. rewrite EN. cbn [obind]. fold num. unfold make_jacobian.
  destruct (Nat.eqb_spec num 0) as [E0|_]; [contradiction|]. rewrite HG. fold J.
  destruct Hd as [Hd|Hd]; subst dim; cbn [Nat.eqb Nat.add].
  - eexists. split; [reflexivity|]. cbn [jGet jDet]. split; [exact HE|]. unfold area_element, det2. ring.
  - eexists. split; [reflexivity|]. cbn [jGet jDet]. split; [exact HE|]. unfold area_element, det3, cof3, norm3v. cbn [Nat.modulo Nat.divmod Nat.add fst snd Nat.sub].
    set (c0 := J 1%nat 0%nat * J 2%nat 1%nat - J 2%nat 0%nat * J 1%nat 1%nat).
    set (c1 := J 2%nat 0%nat * J 0%nat 1%nat - J 0%nat 0%nat * J 2%nat 1%nat).
    set (c2 := J 0%nat 0%nat * J 1%nat 1%nat - J 1%nat 0%nat * J 0%nat 1%nat).
    set (l := sqrt (c0 * c0 + c1 * c1 + c2 * c2)).
    replace (c0 ^ 2 + c1 ^ 2 + c2 ^ 2) with (c0 * c0 + c1 * c1 + c2 * c2) by ring. fold l.
    assert (P : 0 <= c0 * c0 + c1 * c1 + c2 * c2) by nra.
    assert (L : l * l = c0 * c0 + c1 * c1 + c2 * c2) by (apply sqrt_sqrt; exact P).
    transitivity ((c0 * c0 + c1 * c1 + c2 * c2) / l); [unfold c0, c1, c2, Rdiv; ring|].
    destruct (Req_dec l 0) as [Z|Z].
    + rewrite <- L, Z. unfold Rdiv. ring.
    + rewrite <- L. field. exact Z.
Qed.
End SurfaceJacobian.

(** The Jacobian of a cell on an isogeometric surface element in the plane or in space: its columns are the derivatives of the place by the
    local coordinates divided by half the knot intervals, its determinant is the area element of these columns. *)
Theorem C97_surface_jacobian : forall j1 j2 j3 f dim id0 id1 s t, (dim = 2 \/ dim = 3)%nat -> regular_surface f dim ->
  element_of (f_degree0 f) (f_knots0 f) id0 -> element_of (f_degree1 f) (f_knots1 f) id1 -> -1 < s < 1 -> -1 < t < 1 ->
  exists j, surface_jacobian j1 j2 j3 f id0 id1 s t = Ok j /\
    (forall k, (k < dim)%nat ->
       is_derive (fun s => surface_place f k (parameter (f_knots0 f) id0 s) (parameter (f_knots1 f) id1 t)) s
         ((knot (f_knots0 f) (id0 + 1) - knot (f_knots0 f) id0) / 2 * jGet j k 0%nat) /\
       is_derive (fun t => surface_place f k (parameter (f_knots0 f) id0 s) (parameter (f_knots1 f) id1 t)) t
         ((knot (f_knots1 f) (id1 + 1) - knot (f_knots1 f) id1) / 2 * jGet j k 1%nat)) /\
    jDet j = area_element dim (fun k => jGet j k 0%nat) (fun k => jGet j k 1%nat).
Proof. intros. eapply surface_jacobian_ok; eassumption. Qed.
Print Assumptions C97_surface_jacobian.

Lemma area_scale dim a b D0 D1 : 0 < a -> 0 < b -> area_element dim (fun k => a * D0 k) (fun k => b * D1 k) = a * b * area_element dim D0 D1.
Proof.
  intros A B. assert (P : 0 < a * b) by (now apply Rmult_lt_0_compat). unfold area_element. destruct dim as [|[|[|dim]]]; try ring.
  all: match goal with |- sqrt ?u = _ * sqrt ?v => replace u with ((a * b) * (a * b) * v) by ring; rewrite sqrt_mult_alt by nra; rewrite sqrt_square by lra; reflexivity end.
Qed.
(** Integrals over an isogeometric surface element, for every integrand and every integration rule with points inside of the element: the
    computed value is the quadrature sum of the integrand times the area element, times 4 / (product of the two knot intervals). *)
Theorem C97_surface_integral_factor : forall j1 j2 j3 garbage f dim id0 id1 g rule (D0 D1 : nat -> R -> R -> R), (dim = 2 \/ dim = 3)%nat -> regular_surface f dim ->
  element_of (f_degree0 f) (f_knots0 f) id0 -> element_of (f_degree1 f) (f_knots1 f) id1 ->
  List.Forall (fun '(s, t, _) => -1 < s < 1 /\ -1 < t < 1) rule ->
  (forall k s t, (k < dim)%nat -> -1 < s < 1 -> -1 < t < 1 ->
     is_derive (fun s => surface_place f k (parameter (f_knots0 f) id0 s) (parameter (f_knots1 f) id1 t)) s (D0 k s t) /\
     is_derive (fun t => surface_place f k (parameter (f_knots0 f) id0 s) (parameter (f_knots1 f) id1 t)) t (D1 k s t)) ->
  surface_integrate j1 j2 j3 garbage f id0 id1 g rule =
    Ok (4 / ((knot (f_knots0 f) (id0 + 1) - knot (f_knots0 f) id0) * (knot (f_knots1 f) (id1 + 1) - knot (f_knots1 f) id1)) *
        fold_right (fun '(s, t, w) acc => w * (g (map (fun k => surface_place f k (parameter (f_knots0 f) id0 s) (parameter (f_knots1 f) id1 t)) (seq 0 dim)) *
          area_element dim (fun k => D0 k s t) (fun k => D1 k s t)) + acc) 0 rule).
Proof.
  intros j1 j2 j3 garbage f dim id0 id1 g rule D0 D1 Hd Hreg Hel0 Hel1 HR HD.
  set (w0 := knot (f_knots0 f) (id0 + 1) - knot (f_knots0 f) id0). set (w1 := knot (f_knots1 f) (id1 + 1) - knot (f_knots1 f) id1).
  assert (P0 : 0 < w0) by (destruct Hel0; unfold w0; lra). assert (P1 : 0 < w1) by (destruct Hel1; unfold w1; lra).
  induction HR as [|((s, t), w) rule (Hs & Ht) HR IH]; cbn [surface_integrate fold_right]; [f_equal; lra|].
  destruct (surface_jacobian_ok f dim id0 id1 j1 j2 j3 Hreg Hel0 Hel1 s t Hd Hs Ht) as (j & Ej & DJ & Hdet).
  rewrite Ej. cbn [obind]. rewrite (surface_interpolate_ok f dim id0 id1 j1 j2 j3 garbage Hreg Hel0 Hel1 s t) by (left; lra). cbn [obind]. rewrite IH. cbn [omap obind].
  match goal with |- Ok ?a = Ok ?b => cut (a = b); [intros ->; reflexivity|] end. rewrite Rmult_plus_distr_l. f_equal.
  assert (EJ : forall k, (k < dim)%nat -> D0 k s t = w0 / 2 * jGet j k 0%nat /\ D1 k s t = w1 / 2 * jGet j k 1%nat).
  { intros k Hk. destruct (HD k s t Hk Hs Ht) as (A0 & A1). destruct (DJ k Hk) as (B0 & B1). apply is_derive_unique in A0. apply is_derive_unique in A1.
    apply is_derive_unique in B0. apply is_derive_unique in B1. split; [rewrite <- A0; exact B0|rewrite <- A1; exact B1]. }
  assert (EA : area_element dim (fun k => D0 k s t) (fun k => D1 k s t) = w0 / 2 * (w1 / 2) * jDet j).
  { rewrite Hdet, <- area_scale by lra. unfold area_element. destruct Hd as [Hd|Hd]; subst dim.
    - destruct (EJ 0%nat ltac:(lia)) as (-> & ->), (EJ 1%nat ltac:(lia)) as (-> & ->). reflexivity.
    - destruct (EJ 0%nat ltac:(lia)) as (-> & ->), (EJ 1%nat ltac:(lia)) as (-> & ->), (EJ 2%nat ltac:(lia)) as (-> & ->). reflexivity. }
  rewrite EA. field. lra.
Qed.
Print Assumptions C97_surface_integral_factor.

(** the unit square as one bilinear element *)
Definition unit_square : surface := mkSurface [0; 0; 1; 1] [0; 0; 1; 1] [[[0; 0]; [1; 0]]; [[0; 1]; [1; 1]]] [[1; 1]; [1; 1]] 1 1.
Lemma unit_regular : regular_surface unit_square 2.
Proof.
  unfold regular_surface, unit_square; cbn [f_knots0 f_knots1 f_points f_weights f_degree0 f_degree1].
  assert (M : nondecreasing [0; 0; 1; 1]).
  { intros a b Hab Hb. unfold knot. cbn [length] in Hb. do 4 (destruct b as [|b]; [do 4 (destruct a as [|a]; [cbn [nth]; first [lra | lia]|]); lia|]). lia. }
  assert (C : clamped 1 [0; 0; 1; 1]) by (unfold clamped, knot, basis_count; cbn; repeat split; try lia; lra).
  repeat (split; auto); repeat constructor; lra.
Qed.
Lemma unit_element : element_of 1 [0; 0; 1; 1] 1.
Proof. unfold element_of, basis_count, knot; cbn. split; [lia|lra]. Qed.
Lemma unit_bspline t : 0 <= t <= 1 -> bspline 1 [0; 0; 1; 1] 1 0 t = 1 - t /\ bspline 1 [0; 0; 1; 1] 1 1 t = t.
Proof.
  intros Ht. unfold bspline. cbn [cox_de_boor Nat.add]. unfold cdiv, indicator, knot, basis_count; cbn [nth Nat.add Nat.eqb length Nat.sub].
  destruct (Req_dec t 1) as [E|E]; [subst t|]; repeat split; decide_reals; field.
Qed.
Lemma unit_place x y : 0 <= x <= 1 -> 0 <= y <= 1 -> surface_place unit_square 0 x y = x /\ surface_place unit_square 1 x y = y.
Proof.
  intros Hx Hy. destruct (unit_bspline x Hx) as (X0 & X1), (unit_bspline y Hy) as (Y0 & Y1).
  unfold surface_place. cbv zeta. cbn [f_knots0 f_knots1 f_points f_weights f_degree0 f_degree1 unit_square]. change (basis_count 1 [0; 0; 1; 1]) with 2%nat.
  cbn [rsum nth]. rewrite X0, X1, Y0, Y1. split; field; nra.
Qed.
(** Finding: the area of this element is computed as 4. *)
Theorem C97_area_refuted : exists f, regular_surface f 2 /\ element_of (f_degree0 f) (f_knots0 f) 1 /\ element_of (f_degree1 f) (f_knots1 f) 1 /\
  (forall x y, 0 <= x <= 1 -> 0 <= y <= 1 -> surface_place f 0 x y = x /\ surface_place f 1 x y = y) /\
  (forall s, parameter (f_knots0 f) 1 s = (1 + s) / 2 /\ parameter (f_knots1 f) 1 s = (1 + s) / 2) /\
  forall j1 j2 j3 garbage, surface_integrate j1 j2 j3 garbage f 1 1 (fun _ => 1) [(0, 0, 4)] = Ok 4.
Proof.
  exists unit_square. split; [exact unit_regular|]. split; [exact unit_element|]. split; [exact unit_element|]. split; [exact unit_place|].
  assert (EP : forall s, parameter (f_knots0 unit_square) 1 s = (1 + s) / 2 /\ parameter (f_knots1 unit_square) 1 s = (1 + s) / 2).
  { intros s. unfold parameter, unit_square, knot. cbn [f_knots0 f_knots1 nth Nat.add]. split; field. }
  split; [exact EP|]. intros.
  rewrite (C97_surface_integral_factor _ _ _ _ unit_square 2 1 1 _ _ (fun k _ _ => match k with O => 1/2 | _ => 0 end) (fun k _ _ => match k with O => 0 | _ => 1/2 end));
    [|left; reflexivity|exact unit_regular|exact unit_element|exact unit_element|..].
  - f_equal. cbn [fold_right area_element]. unfold unit_square, knot; cbn [f_knots0 f_knots1 nth Nat.add]. field.
  - repeat constructor; lra.
  - assert (L : forall s, -1 < s < 1 -> locally s (fun y => -1 < y < 1)).
    { intros s Hs. assert (Hd : 0 < Rmin (s + 1) (1 - s)) by (apply Rmin_pos; lra). exists (mkposreal _ Hd). intros y Hy.
      assert (Hy' : Rabs (y - s) < Rmin (s + 1) (1 - s)) by exact Hy. pose proof (Rmin_l (s + 1) (1 - s)). pose proof (Rmin_r (s + 1) (1 - s)). apply Rabs_def2 in Hy'. lra. }
    assert (DL : forall s, is_derive (fun s => (1 + s) / 2) s (1/2)) by (intros s; auto_derive; [trivial|field]).
    assert (DC : forall (c s : R), is_derive (fun _ => c) s 0) by (intros c s; apply (is_derive_const (V := R_NormedModule) c s)).
    intros k s t Hk Hs Ht. rewrite (proj1 (EP s)), (proj2 (EP t)). destruct k as [|[|k]]; [| |lia]; split.
    + apply (is_derive_ext_loc (fun s => (1 + s) / 2)); [|apply DL]. eapply filter_imp; [|exact (L s Hs)]. intros u Hu. cbv beta. rewrite (proj1 (EP u)). symmetry. apply unit_place; lra.
    + apply (is_derive_ext_loc (fun _ => (1 + s) / 2)); [|apply DC]. eapply filter_imp; [|exact (L t Ht)]. intros u Hu. cbv beta. rewrite (proj2 (EP u)). symmetry. apply unit_place; lra.
    + apply (is_derive_ext_loc (fun _ => (1 + t) / 2)); [|apply DC]. eapply filter_imp; [|exact (L s Hs)]. intros u Hu. cbv beta. rewrite (proj1 (EP u)). symmetry. apply unit_place; lra.
    + apply (is_derive_ext_loc (fun t => (1 + t) / 2)); [|apply DL]. eapply filter_imp; [|exact (L t Ht)]. intros u Hu. cbv beta. rewrite (proj2 (EP u)). symmetry. apply unit_place; lra.
Qed.
Print Assumptions C97_area_refuted.
