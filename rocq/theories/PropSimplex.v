(** * C35: the integration tables for triangles, tetrahedra and prisms *)
From Coq Require Import List Arith Bool Reals ZArith Lra Lia.
From Coquelicot Require Import Coquelicot.
From Verif Require Import RSum Outcome SimplexTables SimplexModel SimplexSpec SimplexProofs.
Import ListNotations.
Local Open Scope R_scope.

Lemma triangle_checks : forallb (fun k => check_triangle (nth k triangle_data []) (S k)) (seq 0 17 ++ [18]%nat) = true.
Proof. vm_compute. reflexivity. Qed.
Lemma tetrahedron_checks : forallb (fun p => check_tetrahedron (nth (nth p order_to_index 0%nat) tetrahedron_data []) p) (seq 1 9) = true.
Proof. vm_compute. reflexivity. Qed.

(** C35, triangles: for the orders 1 - 17 and 19 the rule exists and integrates every polynomial of total degree at most the
    order over the unit triangle, up to 5e-15 times the sum of the absolute coefficients (the rounding of the digits) *)
Theorem C35_triangle_partial : forall order : nat, (1 <= order <= 19)%nat -> order <> 18%nat ->
  exists r, gauss_triangle (Z.of_nat order) = Ok r /\
    forall t, degree_at_most 2 order t ->
      exists v, simplex_integral 2 1 (evaluate t) v /\ Rabs (apply_rule r (evaluate t) - v) <= 5 / 10 ^ 15 * coefficient_sum t.
Proof.
  intros order Ho H18. destruct order as [|k]; [lia|]. assert (Hk : (k < 19)%nat) by lia.
  pose proof triangle_checks as C. rewrite forallb_forall in C. specialize (C k). rewrite in_app_iff, in_seq in C.
  assert (Hin : (0 <= k < 0 + 17)%nat \/ In k [18%nat]) by (simpl; lia). specialize (C Hin).
  exists (map (fun '(x, y, w) => (weight2 w, [coord x; coord y])) (nth k triangle_data [])). split.
  - unfold gauss_triangle. destruct (Z.ltb_spec 0 (Z.of_nat (S k))); [|lia]. destruct (Z.ltb_spec (Z.of_nat (S k)) 21); [|lia]. cbn [andb].
    unfold triangle_type. destruct (Z.ltb_spec (Z.of_nat (S k) - 1) 0); [lia|]. replace (Z.to_nat (Z.of_nat (S k) - 1)) with k by lia.
    rewrite (nth_error_nth' triangle_data []) by (change (length triangle_data) with 20%nat; lia). reflexivity.
  - apply (rule_error (simplex_integral 2 1) _ 2 (S k) _ (moment 1)).
    + intros g h v. apply simplex_ext.
    + intros g h v w. apply simplex_plus.
    + intros g v c. apply simplex_scal.
    + apply simplex_zero.
    + intros e Hl _. rewrite <- Hl. apply simplex_monomial.
    + apply (triangle_moments _ (S k)); [lia|exact C].
Qed.
Print Assumptions C35_triangle_partial.

(** C35, tetrahedra: the orders 1 - 9 *)
Theorem C35_tetrahedron_partial : forall order : nat, (1 <= order <= 9)%nat ->
  exists r, gauss_tetrahedron (Z.of_nat order) = Ok r /\
    forall t, degree_at_most 3 order t ->
      exists v, simplex_integral 3 1 (evaluate t) v /\ Rabs (apply_rule r (evaluate t) - v) <= 5 / 10 ^ 15 * coefficient_sum t.
Proof.
  intros order Ho. pose proof tetrahedron_checks as C. rewrite forallb_forall in C. specialize (C order). rewrite in_seq in C. specialize (C ltac:(lia)).
  set (index := nth order order_to_index 0%nat) in *.
  assert (Hi : (index < 15)%nat) by (unfold index; do 10 (destruct order as [|order]; [simpl; lia|]); lia).
  exists (map (fun '(x, y, z, w) => (weight3 w, [coord x; coord y; coord z])) (nth index tetrahedron_data [])). split.
  - unfold gauss_tetrahedron. destruct (Z.ltb_spec 0 (Z.of_nat order)); [|lia]. destruct (Z.ltb_spec (Z.of_nat order) 21); [|lia]. cbn [andb].
    unfold tetrahedron_type. destruct (Z.ltb_spec (Z.of_nat order) 0); [lia|]. rewrite Nat2Z.id.
    rewrite (nth_error_nth' order_to_index 0%nat) by (change (length order_to_index) with 22%nat; lia). fold index.
    rewrite (nth_error_nth' tetrahedron_data []) by (change (length tetrahedron_data) with 15%nat; lia). reflexivity.
  - apply (rule_error (simplex_integral 3 1) _ 3 order _ (moment 1)).
    + intros g h v. apply simplex_ext.
    + intros g h v w. apply simplex_plus.
    + intros g v c. apply simplex_scal.
    + apply simplex_zero.
    + intros e Hl _. rewrite <- Hl. apply simplex_monomial.
    + apply (tetrahedron_moments _ order); [lia|exact C].
Qed.
Print Assumptions C35_tetrahedron_partial.

(** ** volumes of all tables *)
Lemma weight_sum {A} (f : A -> Z) sc pts : rlsum (map (fun p => IZR (f p) / sc) pts) = IZR (zsum (map f pts)) / sc.
Proof. unfold Rdiv. induction pts as [|x l IH]; simpl; [ring|]. rewrite IH, plus_IZR. ring. Qed.
Lemma bound_sum (s sc k d e : Z) : (0 < sc)%Z -> (0 < k)%Z -> (0 < e)%Z -> (Z.abs (k * s - sc) * e <=? d * k * sc)%Z = true -> Rabs (IZR s / IZR sc - 1 / IZR k) <= IZR d / IZR e.
Proof.
  intros Hsc Hk He H. apply Z.leb_le in H. apply IZR_le in H. rewrite !mult_IZR, abs_IZR, minus_IZR, mult_IZR in H.
  apply IZR_lt in Hsc. apply IZR_lt in Hk. apply IZR_lt in He.
  replace (IZR s / IZR sc - 1 / IZR k) with ((IZR k * IZR s - IZR sc) * / (IZR k * IZR sc)) by (field; lra).
  assert (Hp : 0 < IZR k * IZR sc) by (apply Rmult_lt_0_compat; lra).
  rewrite Rabs_mult, (Rabs_pos_eq (/ _)) by (apply Rlt_le, Rinv_0_lt_compat; lra).
  apply (Rmult_le_reg_r (IZR e * (IZR k * IZR sc))); [apply Rmult_lt_0_compat; lra|].
  replace (Rabs (IZR k * IZR s - IZR sc) * / (IZR k * IZR sc) * (IZR e * (IZR k * IZR sc))) with (Rabs (IZR k * IZR s - IZR sc) * IZR e) by (field; lra).
  replace (IZR d / IZR e * (IZR e * (IZR k * IZR sc))) with (IZR d * IZR k * IZR sc) by (field; lra). exact H.
Qed.
Lemma volume_checks : forallb (fun pts => (Z.abs (2 * zsum (map tw pts) - sc20) * 10 ^ 15 <=? 5 * 2 * sc20)%Z) triangle_data = true /\
  forallb (fun pts => (Z.abs (6 * zsum (map uw pts) - sc26) * 10 ^ 15 <=? 11 * 6 * sc26)%Z) tetrahedron_data = true.
Proof. split; vm_compute; reflexivity. Qed.

(** every tabulated order, 1 - 20: the weights sum to the volume of the reference element *)
Theorem C35_volume_partial : forall order : Z, (1 <= order <= 20)%Z ->
  (exists r, gauss_triangle order = Ok r /\ Rabs (apply_rule r (fun _ => 1) - 1 / 2) <= 5 / 10 ^ 15) /\
  (exists r, gauss_tetrahedron order = Ok r /\ Rabs (apply_rule r (fun _ => 1) - 1 / 6) <= 11 / 10 ^ 15).
Proof.
  intros order Ho. destruct volume_checks as (C1 & C2). rewrite forallb_forall in C1, C2.
  assert (E15 : IZR (10 ^ 15) = 10 ^ 15) by (rewrite (pow_IZR 10 15); reflexivity). split.
  - set (k := Z.to_nat (order - 1)). assert (Hk : (k < length triangle_data)%nat) by (change (length triangle_data) with 20%nat; unfold k; lia).
    exists (map (fun '(x, y, w) => (weight2 w, [coord x; coord y])) (nth k triangle_data [])). split.
    + unfold gauss_triangle. destruct (Z.ltb_spec 0 order); [|lia]. destruct (Z.ltb_spec order 21); [|lia]. cbn [andb].
      unfold triangle_type. destruct (Z.ltb_spec (order - 1) 0); [lia|]. fold k. rewrite (nth_error_nth' triangle_data []) by exact Hk. reflexivity.
    + specialize (C1 _ (nth_In triangle_data [] Hk)). apply bound_sum in C1; try reflexivity. rewrite <- weight_sum, E15, IZR_sc20 in C1.
      unfold apply_rule. rewrite map_map. rewrite (map_ext _ (fun p => IZR (tw p) / 10 ^ 20)); [exact C1|]. intros ((x, y), w). unfold weight2, tw. cbn [fst snd]. apply Rmult_1_r.
  - set (i := nth (Z.to_nat order) order_to_index 0%nat).
    assert (Hi : (i < length tetrahedron_data)%nat).
    { change (length tetrahedron_data) with 15%nat. unfold i. assert (Ho' : (Z.to_nat order <= 20)%nat) by lia. revert Ho'. generalize (Z.to_nat order). intros n Hn.
      do 21 (destruct n as [|n]; [simpl; lia|]). lia. }
    exists (map (fun '(x, y, z, w) => (weight3 w, [coord x; coord y; coord z])) (nth i tetrahedron_data [])). split.
    + unfold gauss_tetrahedron. destruct (Z.ltb_spec 0 order); [|lia]. destruct (Z.ltb_spec order 21); [|lia]. cbn [andb].
      unfold tetrahedron_type. destruct (Z.ltb_spec order 0); [lia|].
      rewrite (nth_error_nth' order_to_index 0%nat) by (change (length order_to_index) with 22%nat; lia). fold i.
      rewrite (nth_error_nth' tetrahedron_data []) by exact Hi. reflexivity.
    + specialize (C2 _ (nth_In tetrahedron_data [] Hi)). apply bound_sum in C2; try reflexivity. rewrite <- weight_sum, E15, IZR_sc26 in C2.
      unfold apply_rule. rewrite map_map. rewrite (map_ext _ (fun p => IZR (uw p) / 10 ^ 26)); [exact C2|]. intros (((x, y), z), w). unfold weight3, uw. cbn [fst snd]. apply Rmult_1_r.
Qed.
Print Assumptions C35_volume_partial.

(** orders that are not tabulated are rejected *)
Theorem C35_rejected : forall order : Z, (order < 1 \/ 20 < order)%Z -> gauss_triangle order = Throw /\ gauss_tetrahedron order = Throw.
Proof.
  intros order Ho. unfold gauss_triangle, gauss_tetrahedron. destruct (Z.ltb_spec 0 order); cbn [andb]; [|auto]. destruct (Z.ltb_spec order 21); [lia|auto].
Qed.
Print Assumptions C35_rejected.

(** finding: the table for order 20 misses the integral of y over the triangle (1/6) by more than 1e-10, although all
    digits are given with 16 decimals and all other tables reach 5e-15 *)
Theorem C35_order20_refuted : exists r, gauss_triangle 20 = Ok r /\
  exists v, simplex_integral 2 1 (evaluate [(1, [0; 1]%nat)]) v /\ Rabs (apply_rule r (evaluate [(1, [0; 1]%nat)]) - v) > 1 / 10 ^ 10.
Proof.
  exists (map (fun '(x, y, w) => (weight2 w, [coord x; coord y])) tri20). split; [reflexivity|]. exists (moment 1 [0; 1]%nat). split.
  - apply (simplex_ext 2 1 (monomial [0; 1]%nat)); [|exact (simplex_monomial [0; 1]%nat 1)]. intros l. unfold evaluate. simpl. ring.
  - replace (moment 1 [0; 1]%nat) with (1 / 6) by (unfold moment; simpl; field).
    assert (E : apply_rule (map (fun '(x, y, w) => (weight2 w, [coord x; coord y])) tri20) (evaluate [(1, [0; 1]%nat)]) =
                rlsum (map (fun p => IZR (ty p * tw p) / (10 ^ 39)) tri20)).
    { unfold apply_rule. rewrite map_map. f_equal. apply map_ext. intros ((x, y), w). unfold evaluate, weight2, coord, ty, tw. simpl map. simpl rlsum. simpl fst. simpl snd. rewrite mult_IZR. simpl monomial. field. }
    rewrite E, weight_sum. set (s := zsum (map (fun p => ty p * tw p)%Z tri20)).
    assert (Hs : (10 ^ 29 * 6 < 6 * s - 10 ^ 39 \/ 10 ^ 29 * 6 < - (6 * s - 10 ^ 39))%Z) by (vm_compute; (left; reflexivity) || (right; reflexivity)).
    assert (E39 : IZR (10 ^ 39) = 10 ^ 39) by (rewrite (pow_IZR 10 39); reflexivity). assert (E29 : IZR (10 ^ 29) = 10 ^ 29) by (rewrite (pow_IZR 10 29); reflexivity).
    assert (H39 : 0 < 10 ^ 39) by (apply pow_lt; lra). assert (R29 : 10 ^ 29 = 1 / 10 ^ 10 * 10 ^ 39) by (replace 39%nat with (29 + 10)%nat by reflexivity; rewrite pow_add; field; apply pow_nonzero; lra).
    replace (IZR s / 10 ^ 39 - 1 / 6) with ((6 * IZR s - 10 ^ 39) * / (6 * 10 ^ 39)) by (field; lra).
    rewrite Rabs_mult, (Rabs_pos_eq (/ _)) by (apply Rlt_le, Rinv_0_lt_compat; lra). apply Rlt_gt. apply (Rmult_lt_reg_r (6 * 10 ^ 39)); [lra|].
    rewrite Rmult_assoc, Rinv_l by lra. rewrite Rmult_1_r.
    { destruct Hs as [Hs|Hs]; apply IZR_lt in Hs; rewrite ?opp_IZR, mult_IZR, minus_IZR, mult_IZR, E39, E29 in Hs.
        - eapply Rlt_le_trans; [|apply Rle_abs]. lra.
        - rewrite <- Rabs_Ropp. eapply Rlt_le_trans; [|apply Rle_abs]. lra. }
Qed.
Print Assumptions C35_order20_refuted.

(** ** prisms *)
Definition line_moment (c : nat) : R := (1 - (-1) ^ S c) / (INR c + 1).
Lemma line_monomial c : is_RInt (fun z => z ^ c) (-1) 1 (line_moment c).
Proof.
  assert (Hc : INR c + 1 <> 0) by (pose proof (pos_INR c); lra).
  replace (line_moment c) with (minus (1 ^ S c / (INR c + 1)) ((-1) ^ S c / (INR c + 1))).
  - apply (is_RInt_derive (fun z => z ^ S c / (INR c + 1)) (fun z => z ^ c)).
    + intros x _. auto_derive; auto. rewrite Nat.pred_succ || idtac. change (match c with 0%nat => 1 | S _ => INR c + 1 end) with (INR (S c)). rewrite S_INR. field. exact Hc.
    + intros x _. apply (ex_derive_continuous (V := R_NormedModule)). auto_derive. auto.
  - unfold minus, plus, opp, line_moment; simpl. rewrite pow1. field. exact Hc.
Qed.
Definition prism_moment (e : list nat) : R := match e with [a; b; c] => moment 1 [a; b] * line_moment c | _ => 0 end.
Lemma simplex_ext_length d : forall s g h v, (forall l, length l = d -> g l = h l) -> simplex_integral d s g v -> simplex_integral d s h v.
Proof.
  induction d as [|d IH]; simpl; intros s g h v He; [intros ->; apply He; reflexivity|]. intros (q & Hq & Hv). exists q. split; [|exact Hv].
  intros x Hx. apply (IH _ (fun l => g (x :: l))); auto. intros l Hl. apply He. simpl. congruence.
Qed.
Lemma prism_monomial e : length e = 3%nat -> prism_integral (monomial e) (prism_moment e).
Proof.
  destruct e as [|a [|b [|c [|]]]]; try discriminate. intros _. exists (fun z => moment 1 [a; b] * z ^ c). split.
  - intros z. rewrite Rmult_comm. apply (simplex_ext_length 2 1 (fun l => z ^ c * monomial [a; b] l)); [|apply simplex_scal; exact (simplex_monomial [a; b] 1)].
    intros l Hl. destruct l as [|x [|y [|]]]; try discriminate. simpl. ring.
  - apply rint_scal. apply line_monomial.
Qed.
Lemma prism_ext g h v : (forall l, g l = h l) -> prism_integral g v -> prism_integral h v.
Proof. intros E (q & Hq & Hv). exists q. split; [|exact Hv]. intros z. apply (simplex_ext 2 1 (fun l => g (l ++ [z]))); auto. Qed.
Lemma prism_plus g h v w : prism_integral g v -> prism_integral h w -> prism_integral (fun l => g l + h l) (v + w).
Proof.
  intros (q & Hq & Hv) (r & Hr & Hw). exists (fun z => q z + r z). split; [|apply rint_plus; auto].
  intros z. apply (simplex_plus 2 1 (fun l => g (l ++ [z])) (fun l => h (l ++ [z]))); auto.
Qed.
Lemma prism_scal g v c : prism_integral g v -> prism_integral (fun l => c * g l) (c * v).
Proof.
  intros (q & Hq & Hv). exists (fun z => c * q z). split; [|apply rint_scal; auto].
  intros z. apply (simplex_scal 2 1 (fun l => g (l ++ [z]))); auto.
Qed.
Lemma prism_zero : prism_integral (fun _ => 0) 0.
Proof. exists (fun _ => 0). split; [|apply is_RInt_zero]. intros z. apply (simplex_zero 2). Qed.

Lemma prism1_moments e : length e = 3%nat -> (list_sum e <= 1)%nat -> Rabs (apply_rule prism1 (monomial e) - prism_moment e) <= 0.
Proof.
  destruct e as [|a [|b [|c [|]]]]; try discriminate. intros _ Hs. simpl in Hs.
  assert (E : apply_rule prism1 (monomial [a; b; c]) = prism_moment [a; b; c]).
  { destruct a as [|[|a]]; [| |lia]; (destruct b as [|[|b]]; [| |lia]); (destruct c as [|[|c]]; [| |lia]); try lia;
      unfold apply_rule, prism1, prism_moment, line_moment, moment; simpl; field. }
  rewrite E. replace (prism_moment [a; b; c] - prism_moment [a; b; c]) with 0 by ring. rewrite Rabs_R0. lra.
Qed.
Lemma prism2_moments e : length e = 3%nat -> (list_sum e <= 2)%nat -> Rabs (apply_rule prism2 (monomial e) - prism_moment e) <= 1 / 10 ^ 15.
Proof.
  destruct e as [|a [|b [|c [|]]]]; try discriminate. intros _ Hs. simpl in Hs.
  assert (H15 : 0 < 1 / 10 ^ 15) by (apply Rdiv_lt_0_compat; [lra|apply pow_lt; lra]).
  assert (C : (a = 0 /\ b = 0 /\ c = 2)%nat \/ apply_rule prism2 (monomial [a; b; c]) = prism_moment [a; b; c]).
  { destruct a as [|[|[|a]]]; [| | |lia]; (destruct b as [|[|[|b]]]; [| | |lia]); (destruct c as [|[|[|c]]]; [| | |lia]); try lia; try (left; auto; fail); right;
      unfold apply_rule, prism2, prism_moment, line_moment, moment; simpl; field. }
  destruct C as [(-> & -> & ->)|E].
  - replace (apply_rule prism2 (monomial [0; 0; 2]%nat) - prism_moment [0; 0; 2]%nat) with (g6 * g6 - 1 / 3)
      by (unfold apply_rule, prism2, prism_moment, line_moment, moment; simpl; field).
    unfold g6. apply Rabs_le. simpl. lra.
  - rewrite E. replace (prism_moment [a; b; c] - prism_moment [a; b; c]) with 0 by ring. rewrite Rabs_R0. lra.
Qed.

(** C35, prisms (unit triangle times [-1,1]): the two rules *)
Theorem C35_prism : forall order, (exists r, gauss_prism order = Ok r) ->
  exists r, gauss_prism order = Ok r /\ (order = 1 \/ order = 2)%Z /\
    forall t, degree_at_most 3 (Z.to_nat order) t ->
      exists v, prism_integral (evaluate t) v /\ Rabs (apply_rule r (evaluate t) - v) <= 1 / 10 ^ 15 * coefficient_sum t.
Proof.
  intros order (r & Hr). exists r. split; [exact Hr|].
  assert (C : (order = 1 /\ r = prism1)%Z \/ (order = 2 /\ r = prism2)%Z).
  { unfold gauss_prism in Hr. destruct order as [|[|[]|]|]; try discriminate; inversion Hr; auto. }
  assert (H15 : 0 < 1 / 10 ^ 15) by (apply Rdiv_lt_0_compat; [lra|apply pow_lt; lra]).
  destruct C as [(-> & ->)|(-> & ->)]; (split; [auto|]).
  - apply (rule_error prism_integral _ 3 1 _ prism_moment prism_ext prism_plus prism_scal prism_zero).
    + intros e Hl _. apply prism_monomial. exact Hl.
    + intros e Hl Hs. eapply Rle_trans; [apply prism1_moments; auto|lra].
  - apply (rule_error prism_integral _ 3 2 _ prism_moment prism_ext prism_plus prism_scal prism_zero).
    + intros e Hl _. apply prism_monomial. exact Hl.
    + intros e Hl Hs. apply prism2_moments; auto.
Qed.
Print Assumptions C35_prism.

(** no rule is ever delivered for a pyramid *)
Theorem C35_pyramid_rejected : forall order, gauss_pyramid order = Throw.
Proof. reflexivity. Qed.
Print Assumptions C35_pyramid_rejected.

(** the rule of order 5 for the triangle has seven points and integrates x^2 y^3, whose integral is 2! 3! / 7! *)
Example order5 : exists r, gauss_triangle 5 = Ok r /\ length r = 7%nat /\ degree_at_most 2 5 [(1, [2; 3]%nat)] /\ moment 1 [2; 3]%nat = 1 / 420.
Proof.
  eexists. split; [reflexivity|]. split; [reflexivity|]. split; [repeat constructor; simpl; lia|]. unfold moment. simpl. field.
Qed.
