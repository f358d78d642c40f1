(** * Rational basis functions of Nurbs<1> *)
From Coq Require Import List Arith Bool Reals Lra Lia Psatz.
From Coquelicot Require Import Coquelicot.
From Verif Require Import RSum Outcome AdaptiveModel AdaptiveProofs NurbsModel NurbsSpec NurbsProofs NurbsProofs2 NurbsProofs3.
Import ListNotations.
Local Open Scope R_scope.

Lemma rsum_pos_ex n f : (forall j, (j < n)%nat -> 0 <= f j) -> 0 < rsum n f -> exists j, (j < n)%nat /\ 0 < f j.
Proof.
  induction n as [|n IH]; intros H0 H; cbn [rsum] in H; [lra|].
  destruct (Rlt_dec 0 (f n)) as [Hf|Hf]; [exists n; auto|].
  destruct IH as (j & Hj & Hfj); [auto| |exists j; auto]. pose proof (H0 n ltac:(lia)). lra.
Qed.
Lemma rsum_term n f j : (forall q, (q < n)%nat -> 0 <= f q) -> (j < n)%nat -> f j <= rsum n f.
Proof.
  induction n as [|n IH]; intros H0 Hj; [lia|]. cbn [rsum].
  assert (0 <= rsum n f) by (apply rsum_nonneg; auto). pose proof (H0 n ltac:(lia)).
  destruct (Nat.eq_dec j n) as [->|]; [lra|]. assert (f j <= rsum n f) by (apply IH; auto; lia). lra.
Qed.
Lemma wsum_pos n (N w : nat -> R) : (forall j, (j < n)%nat -> 0 <= N j) -> rsum n N = 1 -> (forall j, (j < n)%nat -> 0 < w j) ->
  0 < rsum n (fun j => N j * w j).
Proof.
  intros HN H1 Hw. destruct (rsum_pos_ex n N HN) as (j & Hj & Hp); [lra|].
  eapply Rlt_le_trans; [|apply (rsum_term n (fun j => N j * w j) j); [|exact Hj]].
  - apply Rmult_lt_0_compat; auto.
  - intros q Hq. apply Rmult_le_pos; [auto|left; auto].
Qed.
Lemma rsum_window n a k f : (a + k <= n)%nat -> (forall q, (q < n)%nat -> (q < a \/ a + k <= q)%nat -> f q = 0) ->
  rsum n f = rsum k (fun r => f (a + r)%nat).
Proof.
  intros Hl H0. replace n with (a + (k + (n - a - k)))%nat by lia. rewrite rsum_split, rsum_split.
  rewrite rsum_zero by (intros; apply H0; lia). rewrite Rplus_0_l.
  rewrite (rsum_zero (n - a - k)) by (intros; apply H0; lia). ring.
Qed.

Section Rational.
Variables (degree : nat) (knots w : list R).
Hypothesis Hm : nondecreasing knots.
Hypothesis Hc : clamped degree knots.
Hypothesis Hwl : length w = basis_count degree knots.
Hypothesis Hwp : forall m, (m < length w)%nat -> 0 < nth m w 0.
Notation nb := (basis_count degree knots).

Lemma denominator_window i t : (degree <= i < nb)%nat -> in_span degree knots i t ->
  rsum nb (fun q => bspline degree knots degree q t * nth q w 0) =
  rsum (S degree) (fun r => piece knots i degree (i - degree + r)%nat t * nth (i - degree + r)%nat w 0).
Proof.
  intros Hi Hs. assert (Hend : knot knots nb = knot knots (length knots - 1)) by (destruct Hc as (_ & _ & H & _); exact H).
  assert (Hl : (2 * degree + 2 <= length knots)%nat) by (destruct Hc as (H & _); exact H).
  assert (B : forall m, (m < nb)%nat -> bspline degree knots degree m t = piece knots i degree m t).
  { intros m Hmn. apply bspline_piece; auto; unfold basis_count in *; lia. }
  rewrite (rsum_window nb (i - degree) (S degree)).
  - apply rsum_ext. intros r Hr. rewrite B by lia. reflexivity.
  - lia.
  - intros q Hq Hout. rewrite B by exact Hq. rewrite P_out by lia. ring.
Qed.

Lemma denominator_pos i t : (degree <= i < nb)%nat -> knot knots i < knot knots (i + 1) -> knot knots i <= t <= knot knots (i + 1) ->
  0 < rsum (S degree) (fun r => piece knots i degree (i - degree + r)%nat t * nth (i - degree + r)%nat w 0).
Proof.
  intros Hi Hw Ht.
  assert (Hl : (2 * degree + 2 <= length knots)%nat) by (destruct Hc as (H & _); exact H).
  apply (wsum_pos (S degree) (fun r => piece knots i degree (i - degree + r)%nat t)).
  - intros j Hj. apply P_nonneg; auto. unfold basis_count in Hi. lia.
  - apply P_partition; auto; unfold basis_count in Hi; lia.
  - intros j Hj. apply Hwp. lia.
Qed.

Lemma rational1_all t j1 j2 j3 order : knot knots 0 <= t <= knot knots (length knots - 1) -> (order <= 2)%nat ->
  exists i R, FindSpan t degree knots = Ok i /\ (degree <= i < nb)%nat /\
    knot knots i <= t <= knot knots (i + 1) /\ in_span degree knots i t /\
    Rational1 j1 j2 j3 order t degree knots w = Ok R /\
    (order = 0%nat -> forall r, (r <= degree)%nat -> R r = nurbs_basis degree knots w (i - degree + r)%nat t) /\
    (forall m, (m < nb)%nat -> (m < i - degree \/ i < m)%nat -> nurbs_basis degree knots w m t = 0) /\
    (order = 0%nat -> (forall r, (r <= degree)%nat -> 0 <= R r) /\ rsum (S degree) R = 1) /\
    (knot knots i < t < knot knots (i + 1) -> forall r, (r <= degree)%nat ->
       is_derive_n (fun y => nurbs_basis degree knots w (i - degree + r)%nat y) order t (R r)).
Proof.
  intros Ht Ho. destruct (basis_all degree knots t j1 j2 j3 order Hm Hc Ht) as (i & ders & E & Hi & Hs & Hw & Hti & Ed & V & Z & N0 & N1 & D).
  assert (Hend : knot knots nb = knot knots (length knots - 1)) by (destruct Hc as (_ & _ & H & _); exact H).
  assert (Hl : (2 * degree + 2 <= length knots)%nat) by (destruct Hc as (H & _); exact H).
  exists i, (rational_value order degree ders (fun r => nth (i - degree + r)%nat w 0)).
  split; [exact E|]. split; [exact Hi|]. split; [exact Hti|]. split; [exact Hs|].
  assert (V' : forall r, (r <= degree)%nat -> ders 0%nat r = piece knots i degree (i - degree + r)%nat t).
  { intros r Hr. symmetry. exact (D 0%nat r ltac:(lia) Hr). }
  pose proof (denominator_pos i t Hi Hw Hti) as Hpos.
  pose proof (denominator_window i t Hi Hs) as Hwin.
  assert (S0 : rsum (S degree) (fun j => ders 0%nat j * nth (i - degree + j)%nat w 0) = rsum nb (fun q => bspline degree knots degree q t * nth q w 0)).
  { rewrite Hwin. apply rsum_ext. intros r Hr. rewrite V' by lia. reflexivity. }
  split; [|split; [|split; [|split]]].
  - unfold Rational1. rewrite E. cbn [obind]. rewrite Ed. cbn [obind].
    rewrite (proj2 (Nat.leb_le degree i)) by lia. rewrite (proj2 (Nat.ltb_lt i (length w))) by lia. reflexivity.
  - intros -> r Hr. unfold rational_value, nurbs_basis. rewrite S0, V by exact Hr. reflexivity.
  - intros m Hmn Hout. unfold nurbs_basis. rewrite Z by assumption. unfold Rdiv. ring.
  - intros ->. unfold rational_value. rewrite S0, Hwin. split.
    + intros r Hr. apply Rmult_le_pos; [|left; apply Rinv_0_lt_compat; exact Hpos].
      apply Rmult_le_pos; [apply N0; exact Hr|left; apply Hwp; lia].
    + rewrite (rsum_ext _ _ (fun j => / rsum (S degree) (fun r => piece knots i degree (i - degree + r)%nat t * nth (i - degree + r)%nat w 0) *
        (ders 0%nat j * nth (i - degree + j)%nat w 0))) by (intros; unfold Rdiv; ring).
      rewrite rsum_scal, S0, Hwin. apply Rinv_l. lra.
  - intros Hopen r Hr.
    eapply is_derive_n_ext_loc.
    2:{ apply (rational_derivs degree (fun j y => piece knots i degree (i - degree + j)%nat y) ders (fun j => nth (i - degree + j)%nat w 0) r t order Ho Hr D).
        - intros j y Hj _. eexists. apply (P_derive_n knots i degree Hm ltac:(lia) ltac:(unfold basis_count in Hi; lia) degree (i - degree + j)%nat 1 y). unfold basis_count in Hi; lia.
        - eapply filter_imp; [|exact (open_interval _ _ _ Hopen)]. intros y Hy. apply Rgt_not_eq. apply denominator_pos; auto. lra. }
    eapply filter_imp; [|exact (open_interval _ _ _ Hopen)]. intros y Hy. simpl.
    assert (Hsy : in_span degree knots i y) by (left; lra).
    unfold nurbs_basis. rewrite (denominator_window i y Hi Hsy).
    rewrite (bspline_piece degree knots i) by (auto; unfold basis_count in Hi; lia). reflexivity.
Qed.

(** the curve point and its derivatives *)
Lemma evaluate1_all t j1 j2 j3 order c : knot knots 0 <= t <= knot knots (length knots - 1) -> (order <= 2)%nat ->
  length c = nb ->
  exists i v, FindSpan t degree knots = Ok i /\ Evaluate1 j1 j2 j3 order t degree knots w c = Ok v /\
    (order = 0%nat -> v = nurbs_curve degree knots w c t) /\
    (knot knots i < t < knot knots (i + 1) -> is_derive_n (fun y => nurbs_curve degree knots w c y) order t v).
Proof.
  intros Ht Ho Hcl. destruct (rational1_all t j1 j2 j3 order Ht Ho) as (i & R & E & Hi & Hti & Hs & ER & V & Z & _ & D).
  exists i, (rsum (S degree) (fun j => R j * nth (i - degree + j)%nat c 0)).
  split; [exact E|]. split; [|split].
  - unfold Evaluate1. rewrite E. cbn [obind]. rewrite ER. cbn [obind].
    rewrite (proj2 (Nat.leb_le degree i)) by lia. rewrite (proj2 (Nat.ltb_lt i (length c))) by lia. reflexivity.
  - intros Ho0. unfold nurbs_curve. rewrite (rsum_window nb (i - degree) (S degree)).
    + apply rsum_ext. intros r Hr. rewrite V by (auto; lia). reflexivity.
    + lia.
    + intros q Hq Hout. rewrite Z by (auto; lia). ring.
  - intros Hopen. specialize (D Hopen).
    assert (Hend : knot knots nb = knot knots (length knots - 1)) by (destruct Hc as (_ & _ & H & _); exact H).
    apply (is_derive_n_ext_loc (fun y => rsum (S degree) (fun r => nurbs_basis degree knots w (i - degree + r)%nat y * nth (i - degree + r)%nat c 0))).
    { eapply filter_imp; [|exact (open_interval _ _ _ Hopen)]. intros y Hy. unfold nurbs_curve. symmetry.
      apply (rsum_window nb (i - degree) (S degree) (fun m => nurbs_basis degree knots w m y * nth m c 0)); [lia|]. intros q Hq Hout. unfold nurbs_basis.
      rewrite (bspline_piece degree knots i y) by (auto; try (left; lra); unfold basis_count in *; lia). rewrite P_out by lia. unfold Rdiv. ring. }
    set (g := fun r y => nurbs_basis degree knots w (i - degree + r)%nat y). set (cc := fun r => nth (i - degree + r)%nat c 0).
    assert (EX : locally t (fun y => forall r, (r < S degree)%nat -> is_derive (g r) y (Derive (g r) y))).
    { eapply filter_imp; [|exact (open_interval _ _ _ Hopen)]. intros y Hy r Hr. apply Derive_correct.
      assert (Hl : (2 * degree + 2 <= length knots)%nat) by (destruct Hc as (H & _); exact H).
      assert (K0 : knot knots 0 <= knot knots i) by (apply Hm; unfold basis_count in Hi; lia).
      assert (K1 : knot knots (i + 1) <= knot knots (length knots - 1)) by (apply Hm; unfold basis_count in Hi; lia).
      destruct (rational1_all y j1 j2 j3 1 ltac:(lra) ltac:(lia)) as (i' & R' & _ & Hi' & Hti' & Hs' & _ & _ & _ & _ & D').
      assert (i' = i).
      { destruct (lt_eq_lt_dec i i') as [[L|L]|L]; [|auto|].
        - assert (knot knots (i + 1) <= knot knots i') by (apply Hm; unfold basis_count in Hi'; lia). lra.
        - assert (knot knots (i' + 1) <= knot knots i) by (apply Hm; unfold basis_count in Hi; lia). lra. }
      subst i'. exists (R' r). exact (D' Hy r ltac:(lia)). }
    change (is_derive_n (fun y => rsum (S degree) (fun r => g r y * cc r)) order t (rsum (S degree) (fun j => R j * cc j))).
    destruct order as [|[|[|o]]]; [| | |lia].
    + change (rsum (S degree) (fun r => g r t * cc r) = rsum (S degree) (fun j => R j * cc j)). apply rsum_ext. intros r Hr. f_equal. exact (D r ltac:(lia)).
    + apply (rsum_wderive (S degree) g t R cc). intros r Hr. exact (D r ltac:(lia)).
    + apply (is_derive_ext_loc (fun y => rsum (S degree) (fun r => Derive (g r) y * cc r))).
      { eapply filter_imp; [|exact EX]. intros y Hy. simpl. symmetry. apply is_derive_unique.
        apply (rsum_wderive (S degree) g y (fun r => Derive (g r) y) cc). exact Hy. }
      apply (rsum_wderive (S degree) (fun r => Derive (g r)) t R cc). intros r Hr. exact (D r ltac:(lia)).
Qed.
End Rational.

(** ** Surfaces: tensor products with weights *)
Section Surface.
Variables (d0 d1 : nat) (s0 s1 w : nat -> nat -> R).

Lemma sum2d_swap k0 k1 : sum2d d0 d1 s0 s1 w k0 k1 = rsum (S d0) (fun j => s0 k0 j * rsum (S d1) (fun i => s1 k1 i * w i j)).
Proof.
  unfold sum2d. rewrite rsum_swap. apply rsum_ext. intros j _. rewrite <- rsum_scal. apply rsum_ext. intros; ring.
Qed.
Lemma sum2d_rows k0 k1 : sum2d d0 d1 s0 s1 w k0 k1 = rsum (S d1) (fun i => s1 k1 i * rsum (S d0) (fun j => s0 k0 j * w i j)).
Proof.
  unfold sum2d. apply rsum_ext. intros j _. rewrite <- rsum_scal. apply rsum_ext. intros; ring.
Qed.
End Surface.

Lemma basis_swap d0 d1 A B w i j x y :
  surface_basis d0 d1 A B w i j x y = surface_basis d1 d0 B A (fun a b => w b a) j i y x.
Proof.
  unfold surface_basis. rewrite rsum_swap.
  rewrite (rsum_ext (S d0) _ (fun q => rsum (S d1) (fun p => B p y * A q x * w p q)));
    [|intros q _; apply rsum_ext; intros p _; ring].
  unfold Rdiv. ring.
Qed.

(** the derivative of a surface basis function in direction 0 *)
Lemma surface_derive0 d0 d1 (A B : nat -> R -> R) (s0 s1 w : nat -> nat -> R) i j (x y : R) : (i <= d1)%nat -> (j <= d0)%nat ->
  (forall q, (q <= d0)%nat -> s0 0%nat q = A q x) -> (forall q, (q <= d1)%nat -> s1 0%nat q = B q y) ->
  (forall q, (q <= d0)%nat -> is_derive (A q) x (s0 1%nat q)) ->
  sum2d d0 d1 s0 s1 w 0 0 <> 0 ->
  is_derive (fun x' => surface_basis d0 d1 A B w i j x' y) x
    ((s0 1%nat j * s1 0%nat i * sum2d d0 d1 s0 s1 w 0 0 - s0 0%nat j * s1 0%nat i * sum2d d0 d1 s0 s1 w 1 0) * w i j /
       (sum2d d0 d1 s0 s1 w 0 0 * sum2d d0 d1 s0 s1 w 0 0)).
Proof.
  intros Hi Hj V0 V1 D H0.
  set (c := fun q => rsum (S d1) (fun p => B p y * w p q)).
  assert (S0 : rsum (S d0) (fun q => A q x * c q) = sum2d d0 d1 s0 s1 w 0 0).
  { rewrite sum2d_swap. apply rsum_ext. intros q Hq. rewrite V0 by lia. f_equal. unfold c. apply rsum_ext. intros p Hp. rewrite V1 by lia. reflexivity. }
  assert (S1 : rsum (S d0) (fun q => s0 1%nat q * c q) = sum2d d0 d1 s0 s1 w 1 0).
  { rewrite sum2d_swap. apply rsum_ext. intros q Hq. f_equal. unfold c. apply rsum_ext. intros p Hp. rewrite V1 by lia. reflexivity. }
  apply (is_derive_ext (fun x' => (A j x' * (B i y * w i j)) / rsum (S d0) (fun q => A q x' * c q))).
  { intros x'. unfold surface_basis. rewrite rsum_swap.
    rewrite (rsum_ext (S d0) (fun j0 => rsum (S d1) _) (fun q => A q x' * c q)); [match goal with |- ?a = ?b => change (@eq R a b) end; unfold Rdiv; ring|].
    intros q _. unfold c. rewrite <- rsum_scal. apply rsum_ext. intros; ring. }
  assert (Di : is_derive (fun x' => A j x' * (B i y * w i j)) x (s0 1%nat j * (B i y * w i j))).
  { apply (is_derive_ext (fun x' => (B i y * w i j) * A j x')); [intros; apply Rmult_comm|]. rewrite (Rmult_comm (s0 1%nat j)). apply is_derive_scal. auto. }
  pose proof (rsum_wderive (S d0) A x (s0 1%nat) c ltac:(intros; apply D; lia)) as DS.
  assert (H0' : rsum (S d0) (fun q => A q x * c q) <> 0) by (rewrite S0; exact H0).
  pose proof (quotient_derive _ _ _ _ _ Di DS H0') as Q. cbv beta in Q. rewrite S0, S1 in Q.
  rewrite V0, V1 by assumption.
  match type of Q with is_derive _ _ ?l => match goal with |- is_derive _ _ ?l' => replace l' with l; [exact Q|] end end.
  field. exact H0.
Qed.

(** the second derivative in direction 0 *)
Lemma surface_derive00 d0 d1 (A B : nat -> R -> R) (s0 s1 w : nat -> nat -> R) i j (x y : R) : (i <= d1)%nat -> (j <= d0)%nat ->
  (forall q, (q <= d0)%nat -> s0 0%nat q = A q x) -> (forall q, (q <= d1)%nat -> s1 0%nat q = B q y) ->
  (forall q y, (q <= d0)%nat -> ex_derive (A q) y) ->
  (forall q, (q <= d0)%nat -> is_derive (A q) x (s0 1%nat q)) ->
  (forall q, (q <= d0)%nat -> is_derive_n (A q) 2 x (s0 2%nat q)) ->
  locally x (fun x' => rsum (S d1) (fun i => rsum (S d0) (fun j => A j x' * B i y * w i j)) <> 0) ->
  let q := sum2d d0 d1 s0 s1 w in
  is_derive_n (fun x' => surface_basis d0 d1 A B w i j x' y) 2 x
    ((s0 2%nat j * s1 0%nat i / q 0%nat 0%nat - 2 * s0 1%nat j * s1 0%nat i * q 1%nat 0%nat / (q 0%nat 0%nat * q 0%nat 0%nat) - s0 0%nat j * s1 0%nat i * q 2%nat 0%nat / (q 0%nat 0%nat * q 0%nat 0%nat) +
              2 * s0 0%nat j * s1 0%nat i * q 1%nat 0%nat * q 1%nat 0%nat / (q 0%nat 0%nat * q 0%nat 0%nat * q 0%nat 0%nat)) * w i j).
Proof.
  intros Hi Hj V0 V1 EX D D2 L0 qq.
  set (c := fun q => rsum (S d1) (fun p => B p y * w p q)).
  assert (C : forall x', rsum (S d1) (fun i => rsum (S d0) (fun j => A j x' * B i y * w i j)) = rsum (S d0) (fun q => A q x' * c q)).
  { intros x'. rewrite rsum_swap. apply rsum_ext. intros q _. unfold c. rewrite <- rsum_scal. apply rsum_ext. intros; ring. }
  assert (S0 : rsum (S d0) (fun q => A q x * c q) = qq 0%nat 0%nat).
  { unfold qq. rewrite sum2d_swap. apply rsum_ext. intros q Hq. rewrite V0 by lia. f_equal. unfold c. apply rsum_ext. intros p Hp. rewrite V1 by lia. reflexivity. }
  assert (Sk : forall k, rsum (S d0) (fun q => s0 k q * c q) = qq k 0%nat).
  { intros k. unfold qq. rewrite sum2d_swap. apply rsum_ext. intros q Hq. f_equal. unfold c. apply rsum_ext. intros p Hp. rewrite V1 by lia. reflexivity. }
  assert (L0' : locally x (fun x' => rsum (S d0) (fun q => A q x' * c q) <> 0)).
  { eapply filter_imp; [|exact L0]. intros x' Hx'. rewrite <- C. exact Hx'. }
  pose proof (locally_singleton x _ L0') as H0. cbv beta in H0. rewrite S0 in H0.
  apply (is_derive_n_ext (fun x' => (A j x' * (B i y * w i j)) / rsum (S d0) (fun q => A q x' * c q))).
  { intros x'. unfold surface_basis. rewrite C. match goal with |- ?a = ?b => change (@eq R a b) end. unfold Rdiv. ring. }
  assert (D1 : forall q x', (q < S d0)%nat -> is_derive (A q) x' (Derive (A q) x')) by (intros; apply Derive_correct; apply EX; lia).
  assert (Di : forall x', is_derive (fun x' => A j x' * (B i y * w i j)) x' (Derive (A j) x' * (B i y * w i j))).
  { intros x'. apply (is_derive_ext (fun x' => (B i y * w i j) * A j x')); [intros; apply Rmult_comm|]. rewrite (Rmult_comm (Derive (A j) x')). apply is_derive_scal. apply D1. lia. }
  assert (Di2 : is_derive (fun x' => Derive (A j) x' * (B i y * w i j)) x (s0 2%nat j * (B i y * w i j))).
  { apply (is_derive_ext (fun x' => (B i y * w i j) * Derive (A j) x')); [intros; apply Rmult_comm|]. rewrite (Rmult_comm (s0 2%nat j)). apply is_derive_scal. apply (D2 j Hj). }
  pose proof (fun x' => rsum_wderive (S d0) A x' (fun q => Derive (A q) x') c (fun q Hq => D1 q x' Hq)) as DS.
  pose proof (rsum_wderive (S d0) (fun q => Derive (A q)) x (s0 2%nat) c ltac:(intros q Hq; apply (D2 q); lia)) as DS2.
  pose proof (quotient_derive2 (fun x' => A j x' * (B i y * w i j)) (fun x' => rsum (S d0) (fun q => A q x' * c q))
    (fun x' => Derive (A j) x' * (B i y * w i j)) (fun x' => rsum (S d0) (fun q => Derive (A q) x' * c q)) x _ _
    (filter_forall (F := locally x) _ Di) (filter_forall (F := locally x) _ DS) L0' Di2 DS2) as Q.
  cbv beta in Q.
  assert (E1 : forall q, (q <= d0)%nat -> Derive (A q) x = s0 1%nat q) by (intros q Hq; apply is_derive_unique; apply D; exact Hq).
  rewrite E1 in Q by exact Hj.
  rewrite (rsum_ext (S d0) (fun q => Derive (A q) x * c q) (fun q => s0 1%nat q * c q)) in Q by (intros; rewrite E1 by lia; reflexivity).
  rewrite S0, !Sk in Q. rewrite V0, V1 by assumption.
  match type of Q with is_derive_n _ _ _ ?l => match goal with |- is_derive_n _ _ _ ?l' => replace l' with l; [exact Q|] end end.
  field. exact H0.
Qed.
