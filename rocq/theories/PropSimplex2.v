(** * C35: the triangle rule of order 18 and the tetrahedron rules of the orders 10 - 20 *)
From Coq Require Import List Arith Bool Reals ZArith Lra Lia.
From Coquelicot Require Import Coquelicot.
From Verif Require Import RSum Outcome SimplexTables SimplexModel SimplexSpec SimplexProofs PropSimplex GrundmannProofs SimplexProofs2.
Import ListNotations.
Local Open Scope R_scope.

Lemma triangle_18 : check_out (nth 17 triangle_data []) 18 = true.
Proof. vm_compute. reflexivity. Qed.
Lemma tetrahedron_gm : forallb (fun p => let index := nth p order_to_index 0%nat in check_gm (index - 4) (nth index tetrahedron_data []) && (p <=? 2 * (index - 4) + 1)%nat) (seq 10 11) = true.
Proof. vm_compute. reflexivity. Qed.

(** C35, triangles: every order 1 - 19 (for order 20 see [C35_order20_refuted]) *)
Theorem C35_triangle : forall order : nat, (1 <= order <= 19)%nat ->
  exists r, gauss_triangle (Z.of_nat order) = Ok r /\
    forall t, degree_at_most 2 order t ->
      exists v, simplex_integral 2 1 (evaluate t) v /\ Rabs (apply_rule r (evaluate t) - v) <= 5 / 10 ^ 15 * coefficient_sum t.
Proof.
  intros order Ho. destruct (Nat.eq_dec order 18) as [->|H18]; [|apply C35_triangle_partial; assumption].
  exists (map (fun '(x, y, w) => (weight2 w, [coord x; coord y])) (nth 17 triangle_data [])). split; [reflexivity|].
  apply (rule_error (simplex_integral 2 1) _ 2 18 _ (moment 1)).
  - intros g h v. apply simplex_ext.
  - intros g h v w. apply simplex_plus.
  - intros g v c. apply simplex_scal.
  - apply simplex_zero.
  - intros e Hl _. rewrite <- Hl. apply simplex_monomial.
  - apply (triangle_moments_out _ 18); [lia|exact triangle_18].
Qed.
Print Assumptions C35_triangle.

(** C35, tetrahedra: every order 1 - 20.  From order 10 on the tables are the rules of Grundmann and Moeller, whose weights
    alternate in sign: the rounding of their digits is amplified by the sum of the absolute weights, up to 433 *)
Theorem C35_tetrahedron : forall order : nat, (1 <= order <= 20)%nat ->
  exists r, gauss_tetrahedron (Z.of_nat order) = Ok r /\
    forall t, degree_at_most 3 order t ->
      exists v, simplex_integral 3 1 (evaluate t) v /\
        Rabs (apply_rule r (evaluate t) - v) <= (if (order <=? 9)%nat then 5 / 10 ^ 15 else 3 / 10 ^ 12) * coefficient_sum t.
Proof.
  intros order Ho. destruct (Nat.leb_spec order 9) as [H9|H9]; [apply C35_tetrahedron_partial; lia|].
  pose proof tetrahedron_gm as C. rewrite forallb_forall in C. specialize (C order). rewrite in_seq in C. specialize (C ltac:(lia)). cbv zeta in C.
  set (index := nth order order_to_index 0%nat) in *. apply andb_prop in C. destruct C as (C & Cp). apply Nat.leb_le in Cp.
  assert (Hi : (index < 15)%nat) by (unfold index; do 21 (destruct order as [|order]; [simpl; lia|]); lia).
  exists (map (fun '(x, y, z, w) => (weight3 w, [coord x; coord y; coord z])) (nth index tetrahedron_data [])). split.
  - unfold gauss_tetrahedron. destruct (Z.ltb_spec 0 (Z.of_nat order)); [|lia]. destruct (Z.ltb_spec (Z.of_nat order) 21); [|lia]. cbn [andb].
    unfold tetrahedron_type. destruct (Z.ltb_spec (Z.of_nat order) 0); [lia|]. rewrite Nat2Z.id.
    rewrite (nth_error_nth' order_to_index 0%nat) by (change (length order_to_index) with 22%nat; lia). fold index.
    rewrite (nth_error_nth' tetrahedron_data []) by (change (length tetrahedron_data) with 15%nat; lia). reflexivity.
  - apply (rule_error (simplex_integral 3 1) _ 3 order _ (moment 1)).
    + intros g h v. apply simplex_ext.
    + intros g h v w. apply simplex_plus.
    + intros g v c. apply simplex_scal.
    + apply simplex_zero.
    + intros e Hl _. rewrite <- Hl. apply simplex_monomial.
    + apply (gm_moments (index - 4)); [exact C|exact Cp|lia].
Qed.
Print Assumptions C35_tetrahedron.

(** the rule of order 11 has 56 + 35 + 20 + 10 + 4 + 1 points; x^3 y^4 z^4 is a polynomial of that order *)
Example order11 : exists r, gauss_tetrahedron 11 = Ok r /\ length r = 126%nat /\ degree_at_most 3 11 [(1, [3; 4; 4]%nat)].
Proof. eexists. split; [reflexivity|]. split; [reflexivity|]. repeat constructor; simpl; lia. Qed.
