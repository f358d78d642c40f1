From Coq Require Import List Arith Bool Reals Lra Lia Psatz.
From Coquelicot Require Import Coquelicot.
From Coq Require Import List.
From Verif Require Import RSum Outcome AdaptiveModel NurbsModel NurbsSpec NurbsProofs NurbsProofs2 NurbsProofs3 NurbsProofs4 CellModel CellProofs IgaModel IgaSpec.
Import ListNotations.
Local Open Scope R_scope.

Lemma element_knots_ok knots id : (id + 1 < length knots)%nat -> element_knots knots id = Ok (knot knots id, knot knots (id + 1)).
Proof.
  intros H. unfold element_knots, knot. rewrite (nth_error_nth' knots 0) by lia.
  replace (id + 1)%nat with (S id) in * by lia. rewrite (nth_error_nth' knots 0) by lia. reflexivity.
Qed.
Lemma transformation_parameter knots id s : transformation (knot knots id, knot knots (id + 1)) s = parameter knots id s.
Proof. unfold transformation, parameter. simpl. lra. Qed.
Lemma parameter_range knots id s : knot knots id < knot knots (id + 1) -> -1 <= s <= 1 ->
  knot knots id <= parameter knots id s <= knot knots (id + 1).
Proof. intros H Hs. unfold parameter. split; nra. Qed.
Lemma parameter_lt knots id s : knot knots id < knot knots (id + 1) -> s < 1 -> parameter knots id s < knot knots (id + 1).
Proof. intros H Hs. unfold parameter. nra. Qed.
Lemma parameter_gt knots id s : knot knots id < knot knots (id + 1) -> -1 < s -> knot knots id < parameter knots id s.
Proof. intros H Hs. unfold parameter. nra. Qed.

(** the span of the parameter is the element *)
Lemma span_of_element degree knots id s : nondecreasing knots -> clamped degree knots -> element_of degree knots id -> half_open knots id s ->
  FindSpan (parameter knots id s) degree knots = Ok id /\ knot knots 0 <= parameter knots id s <= knot knots (length knots - 1).
Proof.
  intros Hm Hc (Hid & Hw) Hs.
  assert (Hl : (2 * degree + 2 <= length knots)%nat) by (destruct Hc as (H & _); exact H).
  assert (Hs1 : -1 <= s <= 1) by (destruct Hs as [H|(H & _)]; lra).
  pose proof (parameter_range knots id s Hw Hs1) as Ht. unfold basis_count in Hid.
  assert (K0 : knot knots 0 <= knot knots id) by (apply Hm; lia).
  assert (K1 : knot knots (id + 1) <= knot knots (length knots - 1)) by (apply Hm; lia).
  split; [|lra].
  destruct (clamped_span degree knots (parameter knots id s) Hm Hc ltac:(lra)) as (i & E & Hi & Hil & Hsp & Hwi & Hti).
  rewrite E. f_equal. unfold basis_count in Hi.
  destruct (lt_eq_lt_dec i id) as [[L|L]|L]; [exfalso|exact L|exfalso].
  - assert (knot knots (i + 1) <= knot knots id) by (apply Hm; lia).
    destruct Hsp as [Hsp|(E1 & _ & E2)]; [lra|]. unfold basis_count in E1. lia.
  - assert (knot knots (id + 1) <= knot knots i) by (apply Hm; lia).
    destruct Hs as [Hs|(Hs & He)]; [pose proof (parameter_lt knots id s Hw ltac:(lra)); lra|].
    assert (knot knots (i + 1) <= knot knots (length knots - 1)) by (apply Hm; lia). lra.
Qed.

Lemma nth_firstn_skipn {A} (l : list A) a n k d : (k < n)%nat -> nth k (firstn n (skipn a l)) d = nth (a + k) l d.
Proof.
  intros Hk. rewrite <- (firstn_skipn a l) at 2.
  destruct (le_lt_dec a (length l)) as [H|H].
  - rewrite app_nth2; rewrite firstn_length, Nat.min_l by lia; [|lia].
    replace (a + k - a)%nat with k by lia.
    rewrite <- (firstn_skipn n (skipn a l)) at 2.
    destruct (le_lt_dec (length (skipn a l)) k) as [Hk'|Hk'].
    + rewrite (nth_overflow (firstn _ _)) by (rewrite firstn_length; lia).
      rewrite firstn_skipn. rewrite nth_overflow by lia. reflexivity.
    + rewrite app_nth1 by (rewrite firstn_length; lia). reflexivity.
  - rewrite (skipn_all2 l) by lia. rewrite firstn_nil. rewrite app_nil_r. rewrite (nth_overflow (firstn a l)) by (rewrite firstn_length; lia).
    destruct k; reflexivity.
Qed.

Lemma concat_nth (pts : list (list R)) dim k i : Forall (fun p => length p = dim) pts -> (k < length pts)%nat -> (i < dim)%nat ->
  nth (k * dim + i) (concat pts) 0 = nth i (nth k pts []) 0.
Proof.
  intros H. revert k. induction H as [|p pts Hp H IH]; intros k Hk Hi; simpl in Hk; [lia|].
  cbn [concat]. destruct k as [|k].
  - cbn [nth]. rewrite app_nth1 by lia. replace (0 * dim + i)%nat with i by lia. reflexivity.
  - cbn [nth]. rewrite app_nth2 by lia. rewrite <- IH by lia. f_equal. lia.
Qed.

Lemma n_times_values_ok garbage shape num pts dim : Forall (fun p => length p = dim) pts -> length pts = num ->
  n_times_values garbage shape num pts dim = map (fun i => rsum num (fun k => shape k * nth i (nth k pts []) 0)) (seq 0 dim).
Proof.
  intros H Hl. unfold n_times_values. apply map_ext_in. intros i Hi. apply in_seq in Hi.
  rewrite matrix_N_interpolates by lia. apply rsum_ext. intros k Hk. f_equal. apply concat_nth; [exact H|lia|lia].
Qed.

Lemma same_size_ok dim pts : Forall (fun p => length p = dim) pts -> same_size dim pts = true.
Proof. intros H. apply forallb_forall. intros p Hp. apply Nat.eqb_eq. rewrite Forall_forall in H. auto. Qed.

Lemma nth_map_coord (l : list (list R)) i k : nth k (map (fun p => nth i p 0) l) 0 = nth i (nth k l []) 0.
Proof. revert k. induction l as [|p l IH]; intros [|k]; cbn [map nth]; [destruct i; reflexivity|destruct i; reflexivity|reflexivity|apply IH]. Qed.

Section Curve.
Variables (c : curve) (dim id : nat) (j1 j2 j3 : nat -> nat -> R) (garbage : mfun).
Hypotheses (Hreg : regular c dim) (Hel : element_of (c_degree c) (c_knots c) id).
Local Notation deg := (c_degree c).

Lemma id_in_knots : (id + 1 < length (c_knots c))%nat.
Proof. destruct Hreg as (_ & (Hl & _) & _). destruct Hel as (H & _). unfold basis_count in H. lia. Qed.

Lemma points_element_ok : exists pts, curve_points_element c id = Ok pts /\ length pts = S deg /\ Forall (fun p => length p = dim) pts /\
  forall k, (k <= deg)%nat -> nth k pts [] = nth (id - deg + k) (c_points c) [].
Proof.
  destruct Hreg as (_ & (Hl & _) & _ & _ & Hp & Hd). destruct Hel as (Hid & _).
  unfold curve_points_element. rewrite (proj2 (Nat.leb_le (c_degree c) id)) by lia. rewrite (proj2 (Nat.ltb_lt id (length (c_points c)))) by lia.
  eexists. split; [reflexivity|].
  assert (Hlen : length (firstn (S deg) (skipn (id - deg) (c_points c))) = S deg) by (rewrite firstn_length, skipn_length; lia).
  split; [exact Hlen|]. split.
  - apply Forall_forall. intros p H. apply (In_nth _ _ []) in H. destruct H as (k & Hk & E). rewrite Hlen in Hk.
    rewrite nth_firstn_skipn in E by lia. rewrite <- E. rewrite Forall_forall in Hd. apply Hd. apply nth_In. lia.
  - intros k Hk. rewrite nth_firstn_skipn by lia. reflexivity.
Qed.

Lemma curve_dim_ok : curve_dim c = Ok dim.
Proof.
  destruct Hreg as (_ & (Hl & _) & _ & _ & Hp & Hd). unfold curve_dim. unfold basis_count in Hp.
  destruct (c_points c) as [|p l]; [simpl in Hp; lia|]. inversion Hd; subst. reflexivity.
Qed.

(** shape functions of order 0, 1, 2 *)
Lemma shape_ok order s : (order <= 2)%nat -> half_open (c_knots c) id s ->
  exists N, curve_shape j1 j2 j3 order c id s = Ok N /\
    (order = 0%nat -> (forall r, (r <= deg)%nat -> N r = nurbs_basis deg (c_knots c) (c_weights c) (id - deg + r) (parameter (c_knots c) id s) /\ 0 <= N r) /\
       rsum (S deg) N = 1) /\
    (-1 < s < 1 -> forall r, (r <= deg)%nat ->
       is_derive_n (fun y => nurbs_basis deg (c_knots c) (c_weights c) (id - deg + r) y) order (parameter (c_knots c) id s) (N r)).
Proof.
  intros Ho Hs. destruct Hreg as (Hm & Hc & Hwl & Hwp & Hp & Hd).
  destruct (span_of_element deg (c_knots c) id s Hm Hc Hel Hs) as (E & Ht).
  destruct (rational1_all deg (c_knots c) (c_weights c) Hm Hc Hwl Hwp _ j1 j2 j3 order Ht Ho) as (i & N & E' & Hi & Hti & Hsp & EN & V & Z & P & D).
  assert (i = id) by (congruence). subst i.
  exists N. split; [|split].
  - unfold curve_shape. rewrite element_knots_ok by apply id_in_knots. cbn [obind]. rewrite transformation_parameter. exact EN.
  - intros H0. destruct (P H0) as (P0 & P1). split; [|exact P1]. intros r Hr. split; [apply V; auto|apply P0; exact Hr].
  - intros Hs' r Hr. apply D; [|exact Hr]. destruct Hel as (_ & Hw). split; [apply parameter_gt|apply parameter_lt]; auto; lra.
Qed.

Lemma interpolate_ok s : half_open (c_knots c) id s ->
  curve_interpolate j1 j2 j3 garbage c id s = Ok (map (fun i => place c i (parameter (c_knots c) id s)) (seq 0 dim)).
Proof.
  intros Hs. destruct Hreg as (Hm & Hc & Hwl & Hwp & Hp & Hd).
  destruct (span_of_element deg (c_knots c) id s Hm Hc Hel Hs) as (E & Ht).
  destruct (shape_ok 0 s ltac:(lia) Hs) as (N & EN & _ & _).
  destruct points_element_ok as (pts & Ep & Hlen & Hdim & Hnth).
  unfold curve_interpolate. rewrite EN. cbn [obind]. rewrite curve_dim_ok. cbn [obind]. rewrite Ep. cbn [obind].
  rewrite same_size_ok by exact Hdim. f_equal. rewrite n_times_values_ok by auto. apply map_ext_in. intros i Hi.
  unfold place.
  destruct (evaluate1_all deg (c_knots c) (c_weights c) Hm Hc Hwl Hwp (parameter (c_knots c) id s) j1 j2 j3 0 (map (fun p => nth i p 0) (c_points c)) Ht ltac:(lia))
    as (i' & v & E' & Ev & V & _); [rewrite map_length; exact Hp|].
  rewrite <- (V eq_refl).
  unfold Evaluate1 in Ev. rewrite E in Ev. cbn [obind] in Ev.
  unfold curve_shape in EN. rewrite element_knots_ok in EN by apply id_in_knots. cbn [obind] in EN. rewrite transformation_parameter in EN.
  rewrite EN in Ev. cbn [obind] in Ev.
  destruct (andb _ _) in Ev; [|discriminate]. assert (Ev' : v = rsum (S deg) (fun j => N j * nth (id - deg + j) (map (fun p => nth i p 0) (c_points c)) 0)) by congruence.
  rewrite Ev'. apply rsum_ext. intros k Hk. f_equal.
  rewrite Hnth by (lia). rewrite nth_map_coord. reflexivity.
Qed.
End Curve.
