(** * C46, C47, C76: NURBS span search, basis functions and their derivatives *)
From Coq Require Import List Arith Bool Reals Lra Lia Psatz.
From Coquelicot Require Import Coquelicot.
From Verif Require Import RSum Outcome AdaptiveModel AdaptiveProofs NurbsModel NurbsSpec NurbsProofs NurbsProofs2 NurbsProofs3 NurbsProofs4.
Import ListNotations.
Local Open Scope R_scope.

(** ** C46 *)

(** for every parameter of the knot range of a clamped knot vector the search ends with the interval that contains it;
    for the end parameter with the last interval of positive length *)
Theorem C46_find_span : forall degree knots t, nondecreasing knots -> clamped degree knots ->
  knot knots 0 <= t <= knot knots (length knots - 1) ->
  exists i, FindSpan t degree knots = Ok i /\ (degree <= i < basis_count degree knots)%nat /\
    knot knots i < knot knots (i + 1) /\
    (t < knot knots (length knots - 1) -> knot knots i <= t < knot knots (i + 1)) /\
    (t = knot knots (length knots - 1) -> knot knots (i + 1) = t /\ forall q, (i < q)%nat -> (q + 1 < length knots)%nat -> knot knots q = knot knots (q + 1)).
Proof.
  intros degree knots t Hm Hc Ht. destruct (clamped_span degree knots t Hm Hc Ht) as (i & E & Hi & Hl & Hs & Hw & Hti).
  assert (Hend : knot knots (basis_count degree knots) = knot knots (length knots - 1)) by (destruct Hc as (_ & _ & H & _); exact H).
  exists i. split; [exact E|]. split; [exact Hi|]. split; [exact Hw|]. split.
  - intros Hlt. destruct Hs as [Hs|(E' & _ & Ht')]; [exact Hs|]. rewrite E' in Ht'. lra.
  - intros He. destruct Hs as [Hs|(E' & _ & Ht')].
    + assert (knot knots (i + 1) <= knot knots (length knots - 1)) by (apply Hm; lia). lra.
    + split; [symmetry; exact Ht'|]. intros q Hq Hql.
      assert (knot knots (i + 1) <= knot knots q) by (apply Hm; lia).
      assert (knot knots q <= knot knots (q + 1)) by (apply Hm; lia).
      assert (knot knots (q + 1) <= knot knots (length knots - 1)) by (apply Hm; lia). lra.
Qed.
Print Assumptions C46_find_span.

(** clamped or not: the search succeeds exactly for the parameters between knot number [degree] and knot number
    [basis_count]; every other parameter raises the exception; no out-of-range access either way *)
Theorem C46_find_span_domain : forall degree knots t, nondecreasing knots -> (2 * degree + 2 <= length knots)%nat ->
  (knot knots degree <= t < knot knots (basis_count degree knots) ->
     exists i, FindSpan t degree knots = Ok i /\ (degree <= i < basis_count degree knots)%nat /\ knot knots i <= t < knot knots (i + 1)) /\
  (t = knot knots (basis_count degree knots) -> FindSpan t degree knots = Ok (basis_count degree knots - 1)%nat) /\
  (t < knot knots degree \/ knot knots (basis_count degree knots) < t -> FindSpan t degree knots = Throw).
Proof.
  intros degree knots t Hm Hl. destruct (FindSpan_spec knots degree t Hm Hl) as (H1 & H2). unfold domain in *.
  split; [|split].
  - intros Ht. destruct H1 as (i & E & Hi & Ha & _); [lra|]. exists i. split; [exact E|]. split; [exact Hi|]. apply Ha. lra.
  - intros Ht. destruct H1 as (i & E & Hi & _ & Hb).
    { rewrite Ht. split; [|lra]. apply Hm; unfold basis_count; lia. }
    rewrite E. f_equal. specialize (Hb Ht). lia.
  - intros Ht. apply H2. lra.
Qed.
Print Assumptions C46_find_span_domain.

(** ** C47 *)

(** the values: Cox-de Boor B-splines of the interval, nonnegative, sum one; all other B-splines vanish *)
Theorem C47_basis_functions : forall degree knots t junk1 junk2 junk3 order, nondecreasing knots -> clamped degree knots ->
  knot knots 0 <= t <= knot knots (length knots - 1) ->
  exists i ders, FindSpan t degree knots = Ok i /\
    BasisFunctionsAndDerivatives junk1 junk2 junk3 order t i degree knots = Ok ders /\
    (forall r, (r <= degree)%nat -> ders 0%nat r = bspline degree knots degree (i - degree + r)%nat t) /\
    (forall m, (m < basis_count degree knots)%nat -> (m < i - degree \/ i < m)%nat -> bspline degree knots degree m t = 0) /\
    (forall r, (r <= degree)%nat -> 0 <= ders 0%nat r) /\
    rsum (S degree) (fun r => ders 0%nat r) = 1.
Proof.
  intros degree knots t j1 j2 j3 order Hm Hc Ht.
  destruct (basis_all degree knots t j1 j2 j3 order Hm Hc Ht) as (i & ders & E & Hi & Hs & Hw & Hti & Ed & V & Z & N0 & N1 & D).
  exists i, ders. auto 10.
Qed.
Print Assumptions C47_basis_functions.

(** the derivatives, of every order: row k is the k-th derivative of the B-splines at every parameter inside a knot
    interval; at a knot, of the polynomials that the B-splines equal on the interval found by the search *)
Theorem C76_derivatives : forall degree knots t junk1 junk2 junk3 order, nondecreasing knots -> clamped degree knots ->
  knot knots 0 <= t <= knot knots (length knots - 1) ->
  exists i ders, FindSpan t degree knots = Ok i /\
    BasisFunctionsAndDerivatives junk1 junk2 junk3 order t i degree knots = Ok ders /\
    (knot knots i < t < knot knots (i + 1) -> forall k r, (k <= order)%nat -> (r <= degree)%nat ->
       is_derive_n (fun y => bspline degree knots degree (i - degree + r)%nat y) k t (ders k r)) /\
    (forall k r, (k <= order)%nat -> (r <= degree)%nat ->
       is_derive_n (fun y => piece knots i degree (i - degree + r)%nat y) k t (ders k r)) /\
    (forall r y, (r <= degree)%nat -> knot knots i <= y < knot knots (i + 1) ->
       piece knots i degree (i - degree + r)%nat y = bspline degree knots degree (i - degree + r)%nat y).
Proof.
  intros degree knots t j1 j2 j3 order Hm Hc Ht.
  destruct (basis_all degree knots t j1 j2 j3 order Hm Hc Ht) as (i & ders & E & Hi & Hs & Hw & Hti & Ed & V & Z & N0 & N1 & D).
  assert (Hend : knot knots (basis_count degree knots) = knot knots (length knots - 1)) by (destruct Hc as (_ & _ & H & _); exact H).
  assert (Hil : (i + degree + 1 < length knots)%nat) by (unfold basis_count in Hi; lia).
  exists i, ders. split; [exact E|]. split; [exact Ed|]. split; [|split; [exact D|]].
  - intros Hopen k r Hk Hr. apply (bspline_derive_n degree knots i); auto; lia.
  - intros r y Hr Hy. symmetry. apply bspline_piece; auto; try lia. left. exact Hy.
Qed.
Print Assumptions C76_derivatives.

(** positive weights: the rational functions are nonnegative and sum to one *)
Theorem C47_rational : forall degree knots w t junk1 junk2 junk3, nondecreasing knots -> clamped degree knots ->
  length w = basis_count degree knots -> (forall m, (m < length w)%nat -> 0 < nth m w 0) ->
  knot knots 0 <= t <= knot knots (length knots - 1) ->
  exists i N, FindSpan t degree knots = Ok i /\ Rational1 junk1 junk2 junk3 0 t degree knots w = Ok N /\
    (forall r, (r <= degree)%nat -> N r = nurbs_basis degree knots w (i - degree + r)%nat t /\ 0 <= N r) /\
    rsum (S degree) N = 1 /\
    (forall m, (m < basis_count degree knots)%nat -> (m < i - degree \/ i < m)%nat -> nurbs_basis degree knots w m t = 0).
Proof.
  intros degree knots w t j1 j2 j3 Hm Hc Hl Hp Ht.
  destruct (rational1_all degree knots w Hm Hc Hl Hp t j1 j2 j3 0 Ht ltac:(lia)) as (i & N & E & Hi & _ & _ & EN & V & Z & P & _).
  destruct (P eq_refl) as (P0 & P1).
  exists i, N. split; [exact E|]. split; [exact EN|]. split; [intros r Hr; split; [apply V; auto|apply P0; exact Hr]|].
  split; [exact P1|exact Z].
Qed.
Print Assumptions C47_rational.

(** first and second derivatives of the rational functions and of the curve *)
Theorem C76_rational_derivatives : forall degree knots w c t junk1 junk2 junk3 order, nondecreasing knots -> clamped degree knots ->
  length w = basis_count degree knots -> (forall m, (m < length w)%nat -> 0 < nth m w 0) -> length c = basis_count degree knots ->
  (order <= 2)%nat -> knot knots 0 <= t <= knot knots (length knots - 1) ->
  exists i N v, FindSpan t degree knots = Ok i /\ Rational1 junk1 junk2 junk3 order t degree knots w = Ok N /\
    Evaluate1 junk1 junk2 junk3 order t degree knots w c = Ok v /\
    (order = 0%nat -> v = nurbs_curve degree knots w c t) /\
    (knot knots i < t < knot knots (i + 1) ->
       (forall r, (r <= degree)%nat -> is_derive_n (fun y => nurbs_basis degree knots w (i - degree + r)%nat y) order t (N r)) /\
       is_derive_n (fun y => nurbs_curve degree knots w c y) order t v).
Proof.
  intros degree knots w c t j1 j2 j3 order Hm Hc Hl Hp Hcl Ho Ht.
  destruct (rational1_all degree knots w Hm Hc Hl Hp t j1 j2 j3 order Ht Ho) as (i & N & E & Hi & _ & _ & EN & _ & _ & _ & D).
  destruct (evaluate1_all degree knots w Hm Hc Hl Hp t j1 j2 j3 order c Ht Ho Hcl) as (i' & v & E' & Ev & V & Dv).
  assert (i' = i) by congruence. subst i'.
  exists i, N, v. split; [exact E|]. split; [exact EN|]. split; [exact Ev|]. split; [exact V|].
  intros Hopen. split; [exact (D Hopen)|exact (Dv Hopen)].
Qed.
Print Assumptions C76_rational_derivatives.

(** surfaces: for tables s0, s1 that hold the values and derivatives of any two families of functions A, B
    (the two B-spline tables do, C76_derivatives) and a nonzero denominator: partition of unity, first derivatives, and the
    second derivative in direction 0 *)
Theorem C76_surface : forall d0 d1 (A B : nat -> R -> R) (s0 s1 w : nat -> nat -> R) i j x y, (i <= d1)%nat -> (j <= d0)%nat ->
  (forall q, (q <= d0)%nat -> s0 0%nat q = A q x) -> (forall q, (q <= d1)%nat -> s1 0%nat q = B q y) ->
  rsum (S d1) (fun i => rsum (S d0) (fun j => A j x * B i y * w i j)) <> 0 ->
  rational2_value d0 d1 s0 s1 w i j = surface_basis d0 d1 A B w i j x y /\
  rsum (S d1) (fun i => rsum (S d0) (fun j => rational2_value d0 d1 s0 s1 w i j)) = 1 /\
  ((forall q, (q <= d0)%nat -> is_derive (A q) x (s0 1%nat q)) ->
     is_derive (fun x => surface_basis d0 d1 A B w i j x y) x (rational2_first d0 d1 s0 s1 w i j 0)) /\
  ((forall q, (q <= d1)%nat -> is_derive (B q) y (s1 1%nat q)) ->
     is_derive (fun y => surface_basis d0 d1 A B w i j x y) y (rational2_first d0 d1 s0 s1 w i j 1)).
Proof.
  intros d0 d1 A B s0 s1 w i j x y Hi Hj V0 V1 H0.
  assert (S0 : sum2d d0 d1 s0 s1 w 0 0 = rsum (S d1) (fun i => rsum (S d0) (fun j => A j x * B i y * w i j))).
  { unfold sum2d. apply rsum_ext. intros p Hp. apply rsum_ext. intros q Hq. rewrite V0, V1 by lia. reflexivity. }
  split; [|split; [|split]].
  - unfold rational2_value, surface_basis. rewrite S0, V0, V1 by assumption. reflexivity.
  - unfold rational2_value.
    rewrite (rsum_ext (S d1) _ (fun p => / sum2d d0 d1 s0 s1 w 0 0 * rsum (S d0) (fun q => s0 0%nat q * s1 0%nat p * w p q))).
    + rewrite rsum_scal. fold (sum2d d0 d1 s0 s1 w 0 0). apply Rinv_l. rewrite S0. exact H0.
    + intros p _. rewrite <- rsum_scal. apply rsum_ext. intros q _. unfold Rdiv. ring.
  - intros D. apply surface_derive0; auto. rewrite S0. exact H0.
  - intros D.
    apply (is_derive_ext (fun y => surface_basis d1 d0 B A (fun a b => w b a) j i y x)); [intros; symmetry; apply basis_swap|].
    assert (SW : forall k0 k1, sum2d d1 d0 s1 s0 (fun a b => w b a) k1 k0 = sum2d d0 d1 s0 s1 w k0 k1).
    { intros k0 k1. unfold sum2d. rewrite rsum_swap. apply rsum_ext. intros p _. apply rsum_ext. intros q _. ring. }
    pose proof (surface_derive0 d1 d0 B A s1 s0 (fun a b => w b a) j i y x Hj Hi V1 V0 D) as Q. cbv beta in Q. rewrite !SW in Q.
    unfold rational2_first.
    match type of Q with _ -> is_derive _ _ ?l => match goal with |- is_derive _ _ ?l' => replace l' with l; [apply Q; rewrite S0; exact H0|] end end.
    unfold Rdiv. ring.
Qed.
Print Assumptions C76_surface.

Theorem C76_surface_second_direction_0 : forall d0 d1 (A B : nat -> R -> R) (s0 s1 w : nat -> nat -> R) i j x y, (i <= d1)%nat -> (j <= d0)%nat ->
  (forall q, (q <= d0)%nat -> s0 0%nat q = A q x) -> (forall q, (q <= d1)%nat -> s1 0%nat q = B q y) ->
  (forall q y, (q <= d0)%nat -> ex_derive (A q) y) ->
  (forall q, (q <= d0)%nat -> is_derive (A q) x (s0 1%nat q)) ->
  (forall q, (q <= d0)%nat -> is_derive_n (A q) 2 x (s0 2%nat q)) ->
  locally x (fun x' => rsum (S d1) (fun i => rsum (S d0) (fun j => A j x' * B i y * w i j)) <> 0) ->
  is_derive_n (fun x' => surface_basis d0 d1 A B w i j x' y) 2 x (rational2_second d0 d1 s0 s1 w i j 0).
Proof. exact surface_derive00. Qed.
Print Assumptions C76_surface_second_direction_0.

(** the bilinear patch on [0,1]^2 *)
Definition hat (q : nat) (x : R) : R := match q with 0%nat => 1 - x | _ => x end.
Definition hat_table (x : R) (k q : nat) : R :=
  match k with 0%nat => hat q x | 1%nat => match q with 0%nat => -1 | _ => 1 end | _ => 0 end.
Definition wgt (i j : nat) : R := match i, j with 1%nat, 0%nat => 3 | _, _ => 1 end.

(** second derivative in direction 1 and mixed derivative: wrong for a bilinear patch with one weight 3 *)
Theorem C76_surface_second_refuted :
  ~ is_derive_n (fun y => surface_basis 1 1 hat hat wgt 1 0 0 y) 2 (1/2) (rational2_second 1 1 (hat_table 0) (hat_table (1/2)) wgt 1 0 1) /\
  exists f, (forall y, 0 <= y <= 1 -> is_derive (fun x => surface_basis 1 1 hat hat wgt 1 0 x y) 0 (f y)) /\
    ~ is_derive f (1/2) (rational2_second 1 1 (hat_table 0) (hat_table (1/2)) wgt 1 0 2).
Proof.
  split.
  - intros H. apply is_derive_n_unique in H.
    assert (D : is_derive_n (fun y => surface_basis 1 1 hat hat wgt 1 0 0 y) 2 (1/2) (- 3 / 2)).
    { apply (is_derive_n_ext_loc (fun y => 3 * y / (1 + 2 * y))).
      - eapply filter_imp; [|apply (open_interval 0 1 (1/2)); lra]. intros y Hy. unfold surface_basis, hat, wgt; simpl. match goal with |- ?a = ?b => change (@eq R a b) end. field. lra.
      - change (is_derive (Derive_n (fun y => 3 * y / (1 + 2 * y)) 1) (1/2) (- 3 / 2)).
        apply (is_derive_ext_loc (fun y => 3 / ((1 + 2 * y) * (1 + 2 * y)))).
        + eapply filter_imp; [|apply (open_interval 0 1 (1/2)); lra]. intros y Hy. simpl. symmetry. apply is_derive_unique.
          auto_derive; [lra|]. field. lra.
        + auto_derive; [lra|]. field. }
    apply is_derive_n_unique in D. rewrite D in H. unfold rational2_second, sum2d, hat_table, hat, wgt in H; simpl in H. lra.
  - exists (fun y => - 3 * y / ((1 + 2 * y) * (1 + 2 * y))). split.
    + intros y Hy. unfold surface_basis, hat, wgt; simpl. auto_derive; [lra|]. field. lra.
    + intros H. apply is_derive_unique in H.
      assert (D : is_derive (fun y => - 3 * y / ((1 + 2 * y) * (1 + 2 * y))) (1/2) 0).
      { auto_derive; [lra|]. field. }
      apply is_derive_unique in D. pose proof (eq_trans (eq_sym D) H) as H'. clear H. rename H' into H. unfold rational2_second, sum2d, hat_table, hat, wgt in H; simpl in H. lra.
Qed.
Print Assumptions C76_surface_second_refuted.

(** ** Concrete instances: a quadratic knot vector with a repeated interior knot *)
Definition kn : list R := [0; 0; 0; 1; 1; 2; 2; 2].
Lemma kn_mono : nondecreasing kn.
Proof.
  intros a b Hab Hb. simpl in Hb. unfold knot, kn.
  do 8 (destruct a as [|a]; [do 8 (destruct b as [|b]; [simpl; try lra; lia|]); lia|]); lia.
Qed.
Lemma kn_clamped : clamped 2 kn.
Proof. unfold clamped, basis_count, knot, kn; simpl. split; [lia|]. repeat split; lra. Qed.
Example C46_instance : exists i, FindSpan 1 2 kn = Ok i /\ knot kn i <= 1 < knot kn (i + 1).
Proof.
  destruct (C46_find_span 2 kn 1 kn_mono kn_clamped) as (i & E & _ & _ & H & _); [unfold knot, kn; simpl; lra|].
  exists i. split; [exact E|]. apply H. unfold knot, kn; simpl; lra.
Qed.
Example C47_instance : exists i N, FindSpan (1/2) 2 kn = Ok i /\ Rational1 (fun _ _ => 7) (fun _ _ => 7) (fun _ _ => 7) 0 (1/2) 2 kn [1; 2; 3; 2; 1] = Ok N /\
  rsum 3 N = 1.
Proof.
  destruct (C47_rational 2 kn [1; 2; 3; 2; 1] (1/2) (fun _ _ => 7) (fun _ _ => 7) (fun _ _ => 7) kn_mono kn_clamped) as (i & N & E & EN & _ & S & _).
  - reflexivity.
  - intros m Hmm. simpl in Hmm. do 5 (destruct m as [|m]; [simpl; lra|]). lia.
  - unfold knot, kn; simpl; lra.
  - exists i, N. auto.
Qed.
(** an end knot repeated once too often (degree 1: three times) gives an empty interval for the end parameter *)
Example C46_over_repeated_end : FindSpan 1 1 [0; 0; 1; 1; 1] = Ok 2%nat.
Proof.
  unfold FindSpan. simpl. destruct (rltb_spec 1 0) as [(-> & H)|(-> & H)]; [lra|].
  destruct (rltb_spec 1 1) as [(-> & H1)|(-> & H1)]; [lra|]. destruct (Req_EM_T 1 1); [reflexivity|lra].
Qed.
