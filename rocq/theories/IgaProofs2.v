From Coq Require Import Arith Bool Reals Lra Lia Psatz.
From Coquelicot Require Import Coquelicot.
From Coq Require Import List.
From Verif Require Import RSum Outcome AdaptiveModel NurbsModel NurbsSpec NurbsProofs NurbsProofs2 NurbsProofs3 NurbsProofs4 CellModel CellProofs IgaModel IgaSpec IgaProofs.
Import ListNotations.
Local Open Scope R_scope.

(** line element of a curve with the derivatives D i, in one and two dimensions *)
Lemma parameter_derive knots id s : is_derive (fun s => parameter knots id s) s ((knot knots (id + 1) - knot knots id) / 2).
Proof. unfold parameter. auto_derive; [auto|]. field. Qed.

Lemma compose_derive (g : R -> R) knots id s l : is_derive g (parameter knots id s) l ->
  is_derive (fun s => g (parameter knots id s)) s ((knot knots (id + 1) - knot knots id) / 2 * l).
Proof.
  intros H. pose proof (is_derive_comp g (fun s => parameter knots id s) s l _ H (parameter_derive knots id s)) as D.
  exact D.
Qed.

Section Jacobian.
Variables (c : curve) (dim id : nat) (j1 j2 j3 : nat -> nat -> R) (garbage : mfun).
Hypotheses (Hreg : regular c dim) (Hel : element_of (c_degree c) (c_knots c) id).
Local Notation deg := (c_degree c).
Local Notation width := (knot (c_knots c) (id + 1) - knot (c_knots c) id).

Lemma node_values_ok : exists pts, curve_node_values c id = Ok (concat pts) /\ length pts = S deg /\ Forall (fun p => length p = dim) pts /\
  forall k, (k <= deg)%nat -> nth k pts [] = nth (id - deg + k) (c_points c) [].
Proof.
  destruct (points_element_ok c dim id Hreg Hel) as (pts & Ep & Hlen & Hdim & Hnth). exists pts. split; [|auto].
  unfold curve_node_values. rewrite (curve_dim_ok c dim Hreg). cbn [obind]. rewrite Ep. cbn [obind]. rewrite same_size_ok by exact Hdim. reflexivity.
Qed.

Lemma length_concat (pts : list (list R)) d : Forall (fun p => length p = d) pts -> length (concat pts) = (length pts * d)%nat.
Proof. induction 1 as [|p l Hp H IH]; [reflexivity|]. cbn [concat length]. rewrite app_length, IH, Hp. lia. Qed.

Local Notation line_element := (line_element dim).

Lemma norm_quotient x y : - (x * (- x / sqrt (y * y + - x * - x)) - y * (y / sqrt (y * y + - x * - x))) = sqrt (x * x + y * y).
Proof.
  replace (y * y + - x * - x) with (x * x + y * y) by ring. set (l := sqrt (x * x + y * y)).
  assert (E : l * l = x * x + y * y) by (apply sqrt_sqrt; nra).
  destruct (Req_dec l 0) as [H|H].
  - rewrite H in E. assert (x = 0) by nra. assert (y = 0) by nra. subst x y. rewrite H. unfold Rdiv. ring.
  - apply (Rmult_eq_reg_r l); [|exact H]. rewrite E. field. exact H.
Qed.

Lemma jacobian_ok s : (dim = 1 \/ dim = 2)%nat -> -1 < s < 1 ->
  exists dN j, curve_shape j1 j2 j3 1 c id s = Ok dN /\ curve_jacobian j1 j2 j3 c id s = Ok j /\
    (forall r, (r <= deg)%nat -> is_derive (fun s => nurbs_basis deg (c_knots c) (c_weights c) (id - deg + r) (parameter (c_knots c) id s)) s (width / 2 * dN r)) /\
    (forall i, (i < dim)%nat -> is_derive (fun s => place c i (parameter (c_knots c) id s)) s (width / 2 * jGet j i 0%nat)) /\
    jDet j = line_element (fun i => jGet j i 0%nat) /\ jRows j = dim /\ jCols j = 1%nat /\
    (dim = 1%nat -> jInv j = fun a b => / jGet j a b).
Proof.
  intros Hd Hs. assert (Hh : half_open (c_knots c) id s) by (left; lra).
  destruct (shape_ok c dim id j1 j2 j3 Hreg Hel 1 s ltac:(lia) Hh) as (dN & EN & _ & D).
  destruct node_values_ok as (pts & Ev & Hlen & Hdim & Hnth).
  assert (HL : length (concat pts) = (S deg * dim)%nat) by (rewrite (length_concat _ dim Hdim), Hlen; reflexivity).
  assert (HG : (length (concat pts) / S deg)%nat = dim) by (rewrite HL, Nat.mul_comm; apply Nat.div_mul; lia).
  exists dN.
  assert (HJ : forall i, (i < dim)%nat -> jacobian_matrix dim (S deg) (fun q => nth q (concat pts) 0) (fun k _ => dN k) i 0%nat
     = rsum (S deg) (fun k => dN k * nth (id - deg + k) (map (fun p => nth i p 0) (c_points c)) 0)).
  { intros i Hi. unfold jacobian_matrix. apply rsum_ext. intros k Hk. rewrite (concat_nth pts dim) by (auto; lia).
    rewrite nth_map_coord, Hnth by lia. ring. }
  assert (HD : forall i, (i < dim)%nat -> is_derive (fun s => place c i (parameter (c_knots c) id s)) s
     (width / 2 * jacobian_matrix dim (S deg) (fun q => nth q (concat pts) 0) (fun k _ => dN k) i 0%nat)).
  { intros i Hi. rewrite (HJ i Hi). apply (compose_derive (place c i)).
    destruct Hreg as (Hm & Hc & Hwl & Hwp & Hp & _).
    destruct (span_of_element deg (c_knots c) id s Hm Hc Hel Hh) as (E & Ht).
    destruct (evaluate1_all deg (c_knots c) (c_weights c) Hm Hc Hwl Hwp (parameter (c_knots c) id s) j1 j2 j3 1 (map (fun p => nth i p 0) (c_points c)) Ht ltac:(lia))
      as (i' & v & E' & Evv & _ & Dv); [rewrite map_length; exact Hp|].
    assert (i' = id) by congruence. subst i'.
    assert (Evx : v = rsum (S deg) (fun k => dN k * nth (id - deg + k) (map (fun p => nth i p 0) (c_points c)) 0)).
    { unfold Evaluate1 in Evv. rewrite E in Evv. cbn [obind] in Evv.
      unfold curve_shape in EN. rewrite element_knots_ok in EN by (apply (id_in_knots c dim); auto). cbn [obind] in EN. rewrite transformation_parameter in EN.
      rewrite EN in Evv. cbn [obind] in Evv. destruct (andb _ _) in Evv; [|discriminate]. congruence. }
    rewrite <- Evx. apply Dv. destruct Hel as (_ & Hw). split; [apply parameter_gt|apply parameter_lt]; auto; lra. }
  assert (HN : forall r, (r <= deg)%nat -> is_derive (fun s => nurbs_basis deg (c_knots c) (c_weights c) (id - deg + r) (parameter (c_knots c) id s)) s (width / 2 * dN r)).
  { intros r Hr. apply (compose_derive (nurbs_basis deg (c_knots c) (c_weights c) (id - deg + r))). apply D; auto. }
  unfold curve_jacobian. rewrite Ev. cbn [obind]. rewrite EN. cbn [obind]. unfold make_jacobian. cbn [Nat.eqb]. rewrite HG.
  destruct Hd as [Hd|Hd]; subst dim; cbn [Nat.eqb Nat.add].
  - eexists. split; [reflexivity|]. split; [reflexivity|]. cbn [jGet jDet jRows jCols jInv IgaSpec.line_element]. auto 10.
  - eexists. split; [reflexivity|]. split; [reflexivity|]. cbn [jGet jDet jRows jCols jInv].
    split; [exact HN|]. split; [exact HD|]. split; [|split; [reflexivity|split; [reflexivity|discriminate]]].
    unfold IgaSpec.line_element, det2. unfold norm2v. apply norm_quotient.
Qed.

(** Cell::Integrate *)
Lemma integrate_ok f rule (D : nat -> R -> R) : (dim = 1 \/ dim = 2)%nat ->
  Forall (fun sw => -1 < fst sw < 1) rule ->
  (forall i s, (i < dim)%nat -> -1 < s < 1 -> is_derive (fun s => place c i (parameter (c_knots c) id s)) s (D i s)) ->
  curve_integrate j1 j2 j3 garbage c id f rule =
    Ok (2 / width * fold_right (fun sw acc => snd sw * (f (map (fun i => place c i (parameter (c_knots c) id (fst sw))) (seq 0 dim)) * line_element (fun i => D i (fst sw))) + acc) 0 rule).
Proof.
  intros Hd HR HD. assert (Hw : 0 < width) by (destruct Hel as (_ & H); lra).
  induction HR as [|(s & w) rule Hs HR IH]; cbn [curve_integrate fold_right]; [f_equal; lra|]. cbn [fst snd] in *.
  destruct (jacobian_ok s Hd Hs) as (dN & j & _ & Ej & _ & DJ & Hdet & _).
  rewrite Ej. cbn [obind]. rewrite (interpolate_ok c dim id j1 j2 j3 garbage Hreg Hel s) by (left; lra). cbn [obind]. rewrite IH. cbn [omap obind].
  match goal with |- Ok ?a = Ok ?b => cut (a = b); [intros ->; reflexivity|] end. rewrite Rmult_plus_distr_l. f_equal.
  assert (EJ : forall i, (i < dim)%nat -> D i s = width / 2 * jGet j i 0%nat).
  { intros i Hi. pose proof (HD i s Hi Hs) as A. pose proof (DJ i Hi) as B. apply is_derive_unique in A. apply is_derive_unique in B. congruence. }
  assert (EL : line_element (fun i => D i s) = width / 2 * jDet j).
  { rewrite Hdet. unfold IgaSpec.line_element. destruct Hd as [Hd|Hd]; subst dim.
    - apply EJ. lia.
    - rewrite (EJ 0%nat), (EJ 1%nat) by lia.
      replace (width / 2 * jGet j 0%nat 0%nat * (width / 2 * jGet j 0%nat 0%nat) + width / 2 * jGet j 1%nat 0%nat * (width / 2 * jGet j 1%nat 0%nat))
        with ((width / 2) * (width / 2) * (jGet j 0%nat 0%nat * jGet j 0%nat 0%nat + jGet j 1%nat 0%nat * jGet j 1%nat 0%nat)) by ring.
      rewrite sqrt_mult_alt by nra. rewrite sqrt_square by lra. reflexivity. }
  rewrite EL. field. lra.
Qed.
End Jacobian.
