(** * From the pieces to the B-splines, and the quotient rules of the rational basis *)
From Coq Require Import List Arith Bool Reals Lra Lia Psatz.
From Coquelicot Require Import Coquelicot.
From Verif Require Import RSum Outcome AdaptiveModel AdaptiveProofs NurbsModel NurbsSpec NurbsProofs NurbsProofs2.
Import ListNotations.
Local Open Scope R_scope.

Lemma cox_ext base base' u p : forall m t, (forall q, (m <= q <= m + p)%nat -> base q t = base' q t) ->
  cox_de_boor base u p m t = cox_de_boor base' u p m t.
Proof.
  induction p as [|p IH]; intros m t H; cbn [cox_de_boor]; [apply H; lia|].
  rewrite (IH m), (IH (m + 1)%nat); [reflexivity| |]; intros q Hq; apply H; lia.
Qed.

(** [t] lies in span [i]: half-open interval, or the closed last one *)
Definition in_span (degree : nat) (knots : list R) (i : nat) (t : R) : Prop :=
  knot knots i <= t < knot knots (i + 1) \/
  ((i + 1)%nat = basis_count degree knots /\ knot knots i < t /\ t = knot knots (i + 1)).

Lemma indicator_span degree knots i t m : nondecreasing knots -> (m + 1 < length knots)%nat -> (i + 1 < length knots)%nat ->
  knot knots (basis_count degree knots) = knot knots (length knots - 1) ->
  in_span degree knots i t -> indicator degree knots m t = if Nat.eqb m i then 1 else 0.
Proof.
  intros Hm Hml Hil Hend Hs. unfold indicator.
  assert (Km : knot knots (m + 1) <= knot knots (length knots - 1)) by (apply Hm; lia).
  assert (Ki : knot knots (i + 1) <= knot knots (length knots - 1)) by (apply Hm; lia).
  destruct (Nat.eqb_spec m i) as [->|Hne].
  - destruct Hs as [Hs|(E & Hs & Ht)].
    + destruct (rleb_spec (knot knots i) t) as [(-> & H)|(-> & H)]; [|lra].
      destruct (rltb_spec t (knot knots (i + 1))) as [(-> & H1)|(-> & H1)]; [reflexivity|lra].
    + replace (orb _ _) with true; [reflexivity|]. symmetry. apply orb_true_iff. right.
      rewrite (proj2 (Nat.eqb_eq _ _) E). destruct (rltb_spec (knot knots i) t) as [(-> & H)|(-> & H)]; [|lra].
      destruct (Req_EM_T t (knot knots (i + 1))); [reflexivity|lra].
  - replace (orb _ _) with false; [reflexivity|]. symmetry. apply orb_false_iff.
    destruct (lt_dec m i) as [Hlt|Hge].
    + assert (K : knot knots (m + 1) <= knot knots i) by (apply Hm; lia). split.
      * apply andb_false_iff. right. destruct (rltb_spec t (knot knots (m + 1))) as [(-> & H)|(-> & H)]; [|reflexivity].
        destruct Hs as [Hs|(_ & Hs & _)]; lra.
      * apply andb_false_iff. destruct (Nat.eqb_spec (m + 1) (basis_count degree knots)) as [Eb|Eb]; [right|left; reflexivity].
        apply andb_false_iff. right. destruct (Req_EM_T t (knot knots (m + 1))) as [E|E]; [|reflexivity].
        rewrite <- Eb in Hend. destruct Hs as [Hs|(E' & Hs & Ht)]; [lra|lia].
    + assert (K : knot knots (i + 1) <= knot knots m) by (apply Hm; lia). split.
      * apply andb_false_iff. destruct Hs as [Hs|(E & Hs & Ht)].
        -- left. destruct (rleb_spec (knot knots m) t) as [(-> & H)|(-> & H)]; [lra|reflexivity].
        -- right. destruct (rltb_spec t (knot knots (m + 1))) as [(-> & H)|(-> & H)]; [|reflexivity].
           rewrite <- E in Hend. lra.
      * apply andb_false_iff. right. apply andb_false_iff. left.
        destruct (rltb_spec (knot knots m) t) as [(-> & H)|(-> & H)]; [|reflexivity].
        destruct Hs as [Hs|(_ & _ & Ht)]; lra.
Qed.

(** on its span the B-spline is the piece *)
Lemma bspline_piece degree knots i t p m : nondecreasing knots -> (m + p + 1 < length knots)%nat -> (i + 1 < length knots)%nat ->
  knot knots (basis_count degree knots) = knot knots (length knots - 1) ->
  in_span degree knots i t -> bspline degree knots p m t = piece knots i p m t.
Proof.
  intros Hm Hl Hil Hend Hs. apply cox_ext. intros q Hq. apply (indicator_span degree knots i t q); auto; lia.
Qed.

(** what the search returns, for clamped knot vectors *)
Lemma clamped_span degree knots t : nondecreasing knots -> clamped degree knots ->
  knot knots 0 <= t <= knot knots (length knots - 1) ->
  exists i, FindSpan t degree knots = Ok i /\ (degree <= i < basis_count degree knots)%nat /\
    (i + degree + 1 < length knots)%nat /\ in_span degree knots i t /\ knot knots i < knot knots (i + 1) /\
    knot knots i <= t <= knot knots (i + 1).
Proof.
  intros Hm (Hl & H0 & H1 & H2) Ht.
  destruct (proj1 (FindSpan_spec knots degree t Hm Hl)) as (i & E & Hi & Ha & Hb).
  { unfold domain. lra. }
  exists i. split; [exact E|]. split; [exact Hi|]. split; [unfold basis_count in Hi; lia|].
  destruct (Req_EM_T t (knot knots (basis_count degree knots))) as [He|He].
  - specialize (Hb He). replace (basis_count degree knots - 1)%nat with i in H2 by lia. rewrite <- Hb in H2, He.
    split; [right; repeat split; [exact Hb|lra|exact He]|]. split; [exact H2|]. lra.
  - assert (Hlt : t < knot knots (basis_count degree knots)) by lra. specialize (Ha Hlt).
    split; [left; exact Ha|]. split; lra.
Qed.

(** everything about the table, for clamped knot vectors *)
Lemma basis_all degree knots t j1 j2 j3 order : nondecreasing knots -> clamped degree knots ->
  knot knots 0 <= t <= knot knots (length knots - 1) ->
  exists i ders, FindSpan t degree knots = Ok i /\ (degree <= i < basis_count degree knots)%nat /\
    in_span degree knots i t /\ knot knots i < knot knots (i + 1) /\ knot knots i <= t <= knot knots (i + 1) /\
    BasisFunctionsAndDerivatives j1 j2 j3 order t i degree knots = Ok ders /\
    (forall r, (r <= degree)%nat -> ders 0%nat r = bspline degree knots degree (i - degree + r)%nat t) /\
    (forall m, (m < basis_count degree knots)%nat -> (m < i - degree \/ i < m)%nat -> bspline degree knots degree m t = 0) /\
    (forall r, (r <= degree)%nat -> 0 <= ders 0%nat r) /\
    rsum (S degree) (fun r => ders 0%nat r) = 1 /\
    (forall k r, (k <= order)%nat -> (r <= degree)%nat ->
       is_derive_n (fun y => piece knots i degree (i - degree + r)%nat y) k t (ders k r)).
Proof.
  intros Hm Hc Ht. destruct (clamped_span degree knots t Hm Hc Ht) as (i & E & Hi & Hil & Hs & Hw & Hti).
  destruct (table_value knots i t degree Hm Hw ltac:(lia) ltac:(lia) j1 j2 j3 order) as (ders & Ed & V0 & Vk).
  assert (Hend : knot knots (basis_count degree knots) = knot knots (length knots - 1)) by (destruct Hc as (_ & _ & H & _); exact H).
  exists i, ders. split; [exact E|]. split; [exact Hi|]. split; [exact Hs|]. split; [exact Hw|]. split; [exact Hti|]. split; [exact Ed|].
  split; [|split; [|split; [|split]]].
  - intros r Hr. rewrite V0 by exact Hr. symmetry. apply bspline_piece; auto; lia.
  - intros m Hmn Hout. rewrite (bspline_piece degree knots i) by (auto; unfold basis_count in *; lia). apply P_out. lia.
  - intros r Hr. rewrite V0 by exact Hr. apply P_nonneg; auto. lia.
  - rewrite (rsum_ext _ _ (fun r => piece knots i degree (i - degree + r)%nat t)) by (intros; apply V0; lia).
    apply P_partition; auto; lia.
  - intros k r Hk Hr. rewrite Vk by assumption. apply (P_derive_n knots i degree); auto; lia.
Qed.

(** inside an open span the derivatives of the piece are those of the B-spline *)
Lemma open_interval a b t : a < t < b -> locally t (fun y : R => a < y < b).
Proof.
  intros H. assert (Hp : 0 < Rmin (t - a) (b - t)) by (apply Rmin_glb_lt; lra).
  exists (mkposreal _ Hp). intros y Hy. unfold ball in Hy; simpl in Hy. unfold AbsRing_ball, abs, minus, plus, opp in Hy; simpl in Hy.
  apply Rabs_def2 in Hy. pose proof (Rmin_l (t - a) (b - t)). pose proof (Rmin_r (t - a) (b - t)). lra.
Qed.

Lemma bspline_derive_n degree knots i t p m k v : nondecreasing knots -> (m + p + 1 < length knots)%nat -> (i + 1 < length knots)%nat ->
  knot knots (basis_count degree knots) = knot knots (length knots - 1) ->
  knot knots i < t < knot knots (i + 1) ->
  is_derive_n (fun y => piece knots i p m y) k t v -> is_derive_n (fun y => bspline degree knots p m y) k t v.
Proof.
  intros Hm Hl Hil Hend Ht Hd. eapply is_derive_n_ext_loc; [|exact Hd].
  eapply filter_imp; [|exact (open_interval _ _ _ Ht)]. intros y Hy. simpl. symmetry. apply bspline_piece; auto. left. lra.
Qed.

(** ** Quotient rules *)
Lemma quotient_derive (f g : R -> R) t f1 g1 : is_derive f t f1 -> is_derive g t g1 -> g t <> 0 ->
  is_derive (fun y => f y / g y) t ((f1 * g t - f t * g1) / (g t * g t)).
Proof.
  intros Hf Hg H0. pose proof (is_derive_div f g t f1 g1 Hf Hg H0) as D.
  match type of D with is_derive _ _ ?l => replace ((f1 * g t - f t * g1) / (g t * g t)) with l; [exact D|] end.
  field. exact H0.
Qed.

Lemma quotient_derive2 (f g f1 g1 : R -> R) t f2 g2 :
  locally t (fun y => is_derive f y (f1 y)) -> locally t (fun y => is_derive g y (g1 y)) -> locally t (fun y => g y <> 0) ->
  is_derive f1 t f2 -> is_derive g1 t g2 ->
  is_derive_n (fun y => f y / g y) 2 t
    (f2 / g t - 2 * f1 t * g1 t / (g t * g t) - f t * g2 / (g t * g t) + 2 * f t * g1 t * g1 t / (g t * g t * g t)).
Proof.
  intros Lf Lg L0 Hf2 Hg2.
  pose proof (locally_singleton t _ Lf) as Hf. pose proof (locally_singleton t _ Lg) as Hg. pose proof (locally_singleton t _ L0) as H0.
  simpl in Hf, Hg, H0.
  change (is_derive (Derive_n (fun y => f y / g y) 1) t
    (f2 / g t - 2 * f1 t * g1 t / (g t * g t) - f t * g2 / (g t * g t) + 2 * f t * g1 t * g1 t / (g t * g t * g t))).
  apply (is_derive_ext_loc (fun y => (f1 y * g y - f y * g1 y) / (g y * g y))).
  { generalize (filter_and _ _ Lf (filter_and _ _ Lg L0)). apply filter_imp. intros y (Hfy & Hgy & H0y).
    simpl. symmetry. apply is_derive_unique. apply quotient_derive; assumption. }
  assert (Dn : is_derive (fun y => f1 y * g y - f y * g1 y) t (f2 * g t + f1 t * g1 t - (f1 t * g1 t + f t * g2))).
  { apply (@is_derive_minus R_AbsRing R_NormedModule).
    - apply (is_derive_mult f1 g t f2 (g1 t)); auto. apply Rmult_comm.
    - apply (is_derive_mult f g1 t (f1 t) g2); auto. apply Rmult_comm. }
  assert (Dd : is_derive (fun y => g y * g y) t (g1 t * g t + g t * g1 t)).
  { apply (is_derive_mult g g t (g1 t) (g1 t)); auto. apply Rmult_comm. }
  pose proof (quotient_derive _ _ _ _ _ Dn Dd ltac:(apply Rmult_integral_contrapositive_currified; assumption)) as D.
  cbv beta in D.
  match type of D with is_derive _ _ ?l => match goal with |- is_derive _ _ ?l' => replace l' with l; [exact D|] end end.
  field. exact H0.
Qed.

Lemma rsum_derive n (f : nat -> R -> R) t (f1 : nat -> R) : (forall j, (j < n)%nat -> is_derive (f j) t (f1 j)) ->
  is_derive (fun y => rsum n (fun j => f j y)) t (rsum n f1).
Proof.
  induction n as [|n IH]; intros H; cbn [rsum]; [apply (@is_derive_const R_AbsRing R_NormedModule)|].
  apply (@is_derive_plus R_AbsRing R_NormedModule); [apply IH; auto|apply H; lia].
Qed.
Lemma rsum_wderive n (f : nat -> R -> R) t (f1 w : nat -> R) : (forall j, (j < n)%nat -> is_derive (f j) t (f1 j)) ->
  is_derive (fun y => rsum n (fun j => f j y * w j)) t (rsum n (fun j => f1 j * w j)).
Proof.
  intros H. apply (rsum_derive n (fun j y => f j y * w j) t (fun j => f1 j * w j)). intros j Hj.
  apply (is_derive_ext (fun y => w j * f j y)); [intros; apply Rmult_comm|]. rewrite Rmult_comm. apply is_derive_scal. auto.
Qed.

(** [rational_value] differentiates w_i N_i / sum w_j N_j, for any functions N_j *)
Lemma rational_derivs degree (N : nat -> R -> R) (ders : nat -> nat -> R) (w : nat -> R) i t order :
  (order <= 2)%nat -> (i <= degree)%nat ->
  (forall k j, (k <= order)%nat -> (j <= degree)%nat -> is_derive_n (N j) k t (ders k j)) ->
  (forall j y, (j <= degree)%nat -> (1 <= order)%nat -> ex_derive (N j) y) ->
  locally t (fun y => rsum (S degree) (fun j => N j y * w j) <> 0) ->
  is_derive_n (fun y => N i y * w i / rsum (S degree) (fun j => N j y * w j)) order t (rational_value order degree ders w i).
Proof.
  intros Ho Hi HD Hex L0. pose proof (locally_singleton t _ L0) as H0. simpl in H0.
  assert (V0 : forall j, (j <= degree)%nat -> ders 0%nat j = N j t).
  { intros j Hj. symmetry. exact (HD 0%nat j ltac:(lia) Hj). }
  assert (S0 : rsum (S degree) (fun j => ders 0%nat j * w j) = rsum (S degree) (fun j => N j t * w j)).
  { apply rsum_ext. intros j Hj. rewrite V0 by lia. reflexivity. }
  destruct order as [|[|[|o]]]; [| | |lia]; unfold rational_value; rewrite ?S0; rewrite V0 by exact Hi.
  - reflexivity.
  - assert (D1 : forall j, (j < S degree)%nat -> is_derive (N j) t (ders 1%nat j)) by (intros j Hj; exact (HD 1%nat j ltac:(lia) ltac:(lia))).
    pose proof (rsum_wderive (S degree) N t (ders 1%nat) w D1) as DS.
    assert (Di : is_derive (fun y => N i y * w i) t (ders 1%nat i * w i)).
    { apply (is_derive_ext (fun y => w i * N i y)); [intros; apply Rmult_comm|]. rewrite Rmult_comm. apply is_derive_scal. apply D1. lia. }
    pose proof (quotient_derive _ _ _ _ _ Di DS H0) as Q. cbv beta in Q.
    change (is_derive (fun y => N i y * w i / rsum (S degree) (fun j => N j y * w j)) t
      ((ders 1%nat i * rsum (S degree) (fun j => N j t * w j) - N i t * rsum (S degree) (fun j => ders 1%nat j * w j)) * w i /
         (rsum (S degree) (fun j => N j t * w j) * rsum (S degree) (fun j => N j t * w j)))).
    match type of Q with is_derive _ _ ?l => match goal with |- is_derive _ _ ?l' => replace l' with l; [exact Q|] end end.
    field. exact H0.
  - assert (D1 : forall j y, (j < S degree)%nat -> is_derive (N j) y (Derive (N j) y)) by (intros j y Hj; apply Derive_correct; apply Hex; lia).
    assert (E1 : forall j, (j < S degree)%nat -> Derive (N j) t = ders 1%nat j).
    { intros j Hj. apply is_derive_unique. exact (HD 1%nat j ltac:(lia) ltac:(lia)). }
    assert (D2 : forall j, (j < S degree)%nat -> is_derive (Derive (N j)) t (ders 2%nat j)).
    { intros j Hj. exact (HD 2%nat j ltac:(lia) ltac:(lia)). }
    pose proof (fun y => rsum_wderive (S degree) N y (fun j => Derive (N j) y) w (fun j Hj => D1 j y Hj)) as DS.
    pose proof (rsum_wderive (S degree) (fun j => Derive (N j)) t (ders 2%nat) w D2) as DS2.
    assert (Di : forall y, is_derive (fun y => N i y * w i) y (Derive (N i) y * w i)).
    { intros y. apply (is_derive_ext (fun y => w i * N i y)); [intros; apply Rmult_comm|]. rewrite Rmult_comm. apply is_derive_scal. apply D1. lia. }
    assert (Di2 : is_derive (fun y => Derive (N i) y * w i) t (ders 2%nat i * w i)).
    { apply (is_derive_ext (fun y => w i * Derive (N i) y)); [intros; apply Rmult_comm|]. rewrite Rmult_comm. apply is_derive_scal. apply D2. lia. }
    pose proof (quotient_derive2 (fun y => N i y * w i) (fun y => rsum (S degree) (fun j => N j y * w j))
      (fun y => Derive (N i) y * w i) (fun y => rsum (S degree) (fun j => Derive (N j) y * w j)) t _ _
      (filter_forall (F := locally t) _ Di) (filter_forall (F := locally t) _ DS) L0 Di2 DS2) as Q.
    cbv beta in Q. rewrite (E1 i) in Q by lia.
    rewrite (rsum_ext (S degree) (fun j => Derive (N j) t * w j) (fun j => ders 1%nat j * w j)) in Q by (intros j Hj; rewrite E1 by exact Hj; reflexivity).
    cbv zeta.
    match type of Q with is_derive_n _ _ _ ?l => match goal with |- is_derive_n _ _ _ ?l' => replace l' with l; [exact Q|] end end.
    field. exact H0.
Qed.
