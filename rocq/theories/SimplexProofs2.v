(** * Proofs for C35: the tetrahedron tables of the orders 10 - 20 are the rules of Grundmann and Moeller, up to their digits *)
From Coq Require Import List Arith Bool Reals ZArith Lra Lia.
From Verif Require Import RSum Outcome SimplexTables SimplexModel SimplexSpec SimplexProofs GrundmannProofs.
Import ListNotations.
Local Open Scope R_scope.

(** ** the comparison *)
Local Open Scope Z_scope.
(** a row of the table against numerator and denominator of the weight and of the coordinates *)
Definition row_close (N num den : Z) (be : list nat) (p : Z * Z * Z * Z) : bool :=
  match be with
  | [_; b1; b2; b3] =>
    (Z.abs (ux p * N - (2 * Z.of_nat b1 + 1) * sc19) <=? 3000 * N) && (Z.abs (uy p * N - (2 * Z.of_nat b2 + 1) * sc19) <=? 3000 * N)
    && (Z.abs (uz p * N - (2 * Z.of_nat b3 + 1) * sc19) <=? 3000 * N) && (Z.abs (uw p * den - num * sc26) <=? 10000000000 * den)
    && (0 <=? ux p) && (ux p <=? sc19) && (0 <=? uy p) && (uy p <=? sc19) && (0 <=? uz p) && (uz p <=? sc19)
  | _ => false
  end.
Fixpoint match_rows (N num den : Z) (bes : list (list nat)) (pts : list (Z * Z * Z * Z)) : option (list (Z * Z * Z * Z)) :=
  match bes, pts with
  | [], _ => Some pts
  | be :: bes', p :: pts' => if row_close N num den be p then match_rows N num den bes' pts' else None
  | _ :: _, [] => None
  end.
Definition gm_N (s i : nat) : Z := Z.of_nat (2 * (s - i) + 4).
Definition gm_num (s i : nat) : Z := (if Nat.even i then 1 else -1) * gm_N s i ^ Z.of_nat (2 * s + 1).
Definition gm_dn (s i : nat) : Z := 4 ^ Z.of_nat s * zfact i * zfact (2 * s + 4 - i).
Fixpoint match_blocks (s : nat) (is : list nat) (pts : list (Z * Z * Z * Z)) : bool :=
  match is with
  | [] => match pts with [] => true | _ => false end
  | i :: is' => match match_rows (gm_N s i) (gm_num s i) (gm_dn s i) (comps 4 (s - i)) pts with
                | Some rest => match_blocks s is' rest
                | None => false
                end
  end.
Definition check_gm (s : nat) (pts : list (Z * Z * Z * Z)) : bool :=
  match_blocks s (seq 0 (S s)) pts && (zsum (map (fun p => Z.abs (uw p)) pts) <=? 433 * sc26) && (Z.of_nat (length pts) <=? 1001).
Local Close Scope Z_scope.

(** ** what it means *)
Definition eps : R := 3 / 10 ^ 16.
Definition row (p : Z * Z * Z * Z) : R * list R := (weight3 (uw p), [coord (ux p); coord (uy p); coord (uz p)]).
Definition close (g t : R * list R) : Prop :=
  Rabs (fst t - fst g) <= 1 / 10 ^ 16 /\ (forall x, In x (snd t) -> 0 <= x <= 1) /\
  length (snd t) = 3%nat /\ exists l0 l, snd g = l0 :: l /\ Forall2 (fun x y => Rabs (x - y) <= eps) (snd t) l.

Lemma abs_div a b c n : (0 < n)%Z -> 0 < c -> (Z.abs (a * n - b) <= 3000 * n)%Z -> Rabs (IZR a / c - IZR b / (c * IZR n)) <= 3000 / c.
Proof.
  intros Hn Hc H. assert (Hn' : 0 < IZR n) by (apply IZR_lt; exact Hn). apply IZR_le in H. rewrite abs_IZR, minus_IZR, !mult_IZR in H.
  replace (IZR a / c - IZR b / (c * IZR n)) with ((IZR a * IZR n - IZR b) * / (c * IZR n)) by (field; split; lra).
  assert (Hi : 0 < / (c * IZR n)) by (apply Rinv_0_lt_compat, Rmult_lt_0_compat; lra).
  rewrite Rabs_mult, (Rabs_pos_eq (/ (c * IZR n))) by lra.
  replace (3000 / c) with (3000 * IZR n * / (c * IZR n)) by (field; split; lra). apply Rmult_le_compat_r; lra.
Qed.
Lemma IZR_neg1 i : IZR (if Nat.even i then 1 else -1) = (-1) ^ i.
Proof.
  assert (G : forall i, IZR (if Nat.even i then 1 else -1) = (-1) ^ i /\ IZR (if Nat.even (S i) then 1 else -1) = (-1) ^ S i).
  { clear i. induction i as [|i (IH1 & IH2)]; [split; cbn; lra|]. split; [exact IH2|]. change (Nat.even (S (S i))) with (Nat.even i). rewrite IH1. cbn [pow]. ring. }
  apply G.
Qed.
Lemma zfact_pos n : (0 < zfact n)%Z.
Proof. induction n as [|n IH]; [reflexivity|]. cbn [zfact]. apply Z.mul_pos_pos; [lia|exact IH]. Qed.
Lemma gm_dn_pos s i : (0 < gm_dn s i)%Z.
Proof. unfold gm_dn. apply Z.mul_pos_pos; [|apply zfact_pos]. apply Z.mul_pos_pos; [|apply zfact_pos]. apply Z.pow_pos_nonneg; lia. Qed.
Lemma gm_weight_Z s i : (i <= s)%nat -> gm_weight 3 s i = IZR (gm_num s i) / IZR (gm_dn s i).
Proof.
  intros Hi. unfold gm_weight, gm_num, gm_dn, gm_N, gm_den. rewrite !mult_IZR, <- !pow_IZR, IZR_neg1, !zfact_fact, <- INR_IZR_INZ.
  replace (2 * s + 1 + 3 - i)%nat with (2 * s + 4 - i)%nat by lia. reflexivity.
Qed.
Lemma row_close_ok s i be p : (i <= s)%nat -> row_close (gm_N s i) (gm_num s i) (gm_dn s i) be p = true ->
  close (gm_weight 3 s i, gm_point 3 s i be) (row p).
Proof.
  intros Hi H. destruct be as [|b0 [|b1 [|b2 [|b3 [|]]]]]; try discriminate. cbn [row_close] in H. rewrite !andb_true_iff, !Z.leb_le in H.
  destruct H as (((((((((H1 & H2) & H3) & H4) & X1) & X2) & Y1) & Y2) & Z1) & Z2).
  assert (N : (0 < gm_N s i)%Z) by (unfold gm_N; lia). pose proof IZR_sc19 as S19. assert (P19 : 0 < 10 ^ 19) by (apply pow_lt; lra).
  assert (In01 : forall z, (0 <= z)%Z -> (z <= sc19)%Z -> 0 <= coord z <= 1).
  { intros z A1 A2. apply IZR_le in A1, A2. rewrite S19 in A2. unfold coord. split; [apply Rmult_le_pos; [lra|apply Rlt_le, Rinv_0_lt_compat, P19]|].
    apply (Rmult_le_reg_r (10 ^ 19)); [lra|]. unfold Rdiv. rewrite Rmult_assoc, Rinv_l by lra. lra. }
  assert (C : forall a b, (Z.abs (a * gm_N s i - (2 * Z.of_nat b + 1) * sc19) <= 3000 * gm_N s i)%Z -> Rabs (coord a - odd b / gm_den 3 s i) <= eps).
  { intros a b Hc. apply (abs_div _ _ (10 ^ 19) _ N P19) in Hc. unfold coord.
    replace (odd b / gm_den 3 s i) with (IZR ((2 * Z.of_nat b + 1) * sc19) / (10 ^ 19 * IZR (gm_N s i))).
    - eapply Rle_trans; [exact Hc|]. unfold eps. apply Req_le. field.
    - rewrite mult_IZR, plus_IZR, mult_IZR, S19, <- INR_IZR_INZ. unfold odd, gm_den, gm_N. rewrite <- INR_IZR_INZ.
      field. apply not_0_INR; lia. }
  unfold close, row. cbn [fst snd]. split; [|split; [|split; [reflexivity|]]].
  - rewrite (gm_weight_Z s i Hi). pose proof (gm_dn_pos s i) as Dp. apply IZR_lt in Dp. unfold weight3. rewrite <- IZR_sc26.
    assert (P26 : 0 < IZR sc26) by (apply IZR_lt; reflexivity). apply IZR_le in H4. rewrite abs_IZR, minus_IZR, !mult_IZR in H4.
    replace (IZR (uw p) / IZR sc26 - IZR (gm_num s i) / IZR (gm_dn s i)) with ((IZR (uw p) * IZR (gm_dn s i) - IZR (gm_num s i) * IZR sc26) * / (IZR sc26 * IZR (gm_dn s i))) by (field; split; lra).
    assert (Hinv : 0 < / (IZR sc26 * IZR (gm_dn s i))) by (apply Rinv_0_lt_compat, Rmult_lt_0_compat; lra).
    rewrite Rabs_mult, (Rabs_pos_eq (/ _)) by lra.
    replace (1 / 10 ^ 16) with (10000000000 * IZR (gm_dn s i) * / (IZR sc26 * IZR (gm_dn s i))).
    + apply Rmult_le_compat_r; lra.
    + rewrite IZR_sc26. field. lra.
  - intros x [<-|[<-|[<-|[]]]]; apply In01; assumption.
  - exists (odd b0 / gm_den 3 s i), [odd b1 / gm_den 3 s i; odd b2 / gm_den 3 s i; odd b3 / gm_den 3 s i]. split; [reflexivity|].
    apply Forall2_cons; [apply C, H1|]. apply Forall2_cons; [apply C, H2|]. apply Forall2_cons; [apply C, H3|]. apply Forall2_nil.
Qed.
Lemma match_rows_ok s i bes : (i <= s)%nat -> forall pts rest, match_rows (gm_N s i) (gm_num s i) (gm_dn s i) bes pts = Some rest ->
  exists first, pts = first ++ rest /\ Forall2 close (map (fun be => (gm_weight 3 s i, gm_point 3 s i be)) bes) (map row first).
Proof.
  intros Hi. induction bes as [|be bes IH]; intros pts rest H; cbn [match_rows] in H.
  - exists []. split; [injection H as ->; reflexivity|constructor].
  - destruct pts as [|p pts]; [discriminate|]. destruct (row_close _ _ _ be p) eqn:E; [|discriminate].
    destruct (IH pts rest H) as (first & -> & HF). exists (p :: first). split; [reflexivity|]. cbn [map]. constructor; [apply row_close_ok; assumption|exact HF].
Qed.
Lemma match_blocks_ok s is : (forall i, In i is -> (i <= s)%nat) -> forall pts, match_blocks s is pts = true ->
  Forall2 close (flat_map (fun i => map (fun be => (gm_weight 3 s i, gm_point 3 s i be)) (comps 4 (s - i))) is) (map row pts).
Proof.
  induction is as [|i is IH]; intros Hi pts H; cbn [match_blocks] in H; [destruct pts; [constructor|discriminate]|].
  destruct (match_rows _ _ _ _ pts) as [rest|] eqn:E; [|discriminate].
  destruct (match_rows_ok s i _ (Hi i (or_introl eq_refl)) pts rest E) as (first & -> & HF).
  cbn [flat_map]. rewrite map_app. apply Forall2_app; [exact HF|]. apply IH; [intros j Hj; apply Hi; right; exact Hj|exact H].
Qed.

(** ** the error *)
Lemma pow_close x y k : 0 <= x <= 1 -> 0 <= y <= 1 -> Rabs (x ^ k - y ^ k) <= INR k * Rabs (x - y) /\ 0 <= x ^ k <= 1.
Proof.
  intros Hx Hy. induction k as [|k (IH1 & IH2)]; [cbn; rewrite Rminus_diag_eq by reflexivity; rewrite Rabs_R0; lra|].
  cbn [pow]. rewrite S_INR. split.
  - replace (x * x ^ k - y * y ^ k) with (x ^ k * (x - y) + y * (x ^ k - y ^ k)) by ring.
    eapply Rle_trans; [apply Rabs_triang|]. rewrite !Rabs_mult, (Rabs_pos_eq (x ^ k)), (Rabs_pos_eq y) by lra.
    pose proof (Rabs_pos (x - y)). pose proof (Rabs_pos (x ^ k - y ^ k)).
    assert (x ^ k * Rabs (x - y) <= 1 * Rabs (x - y)) by (apply Rmult_le_compat_r; lra).
    assert (y * Rabs (x ^ k - y ^ k) <= 1 * Rabs (x ^ k - y ^ k)) by (apply Rmult_le_compat_r; lra). lra.
  - split; [apply Rmult_le_pos; lra|]. rewrite <- (Rmult_1_l 1). apply Rmult_le_compat; lra.
Qed.
Lemma monomial_close e : forall xs ys, Forall2 (fun x y => Rabs (x - y) <= eps) xs ys ->
  (forall x, In x xs -> 0 <= x <= 1) -> (forall y, In y ys -> 0 <= y <= 1) ->
  Rabs (monomial e xs - monomial e ys) <= INR (list_sum e) * eps /\ 0 <= monomial e xs <= 1 /\ 0 <= monomial e ys <= 1.
Proof.
  assert (E0 : 0 <= eps) by (unfold eps; apply Rmult_le_pos; [lra|]; apply Rlt_le, Rinv_0_lt_compat, pow_lt; lra).
  induction e as [|k e IH]; intros xs ys H Hx Hy.
  - cbn [monomial list_sum fold_right INR]. rewrite Rminus_diag_eq by reflexivity. rewrite Rabs_R0. lra.
  - destruct H as [|x y xs ys H1 H].
    + cbn [monomial]. rewrite Rminus_diag_eq by reflexivity. rewrite Rabs_R0. pose proof (pos_INR (list_sum (k :: e))). split; [apply Rmult_le_pos; assumption|lra].
    + cbn [monomial]. destruct (IH xs ys H (fun z Hz => Hx z (or_intror Hz)) (fun z Hz => Hy z (or_intror Hz))) as (I1 & I2 & I3).
      destruct (pow_close x y k (Hx x (or_introl eq_refl)) (Hy y (or_introl eq_refl))) as (J1 & J2).
      destruct (pow_close y x k (Hy y (or_introl eq_refl)) (Hx x (or_introl eq_refl))) as (_ & J3).
      change (list_sum (k :: e)) with (k + list_sum e)%nat. rewrite plus_INR. split; [|split].
      * replace (x ^ k * monomial e xs - y ^ k * monomial e ys) with ((x ^ k - y ^ k) * monomial e xs + y ^ k * (monomial e xs - monomial e ys)) by ring.
        eapply Rle_trans; [apply Rabs_triang|]. rewrite !Rabs_mult, (Rabs_pos_eq (monomial e xs)), (Rabs_pos_eq (y ^ k)) by lra.
        assert (A1 : Rabs (x ^ k - y ^ k) * monomial e xs <= INR k * eps * 1).
        { apply Rmult_le_compat; [apply Rabs_pos|lra| |lra]. eapply Rle_trans; [exact J1|]. apply Rmult_le_compat_l; [apply pos_INR|exact H1]. }
        assert (A2 : y ^ k * Rabs (monomial e xs - monomial e ys) <= 1 * (INR (list_sum e) * eps)) by (apply Rmult_le_compat; [lra|apply Rabs_pos|lra|exact I1]).
        lra.
      * split; [apply Rmult_le_pos; lra|]. rewrite <- (Rmult_1_l 1). apply Rmult_le_compat; lra.
      * split; [apply Rmult_le_pos; lra|]. rewrite <- (Rmult_1_l 1). apply Rmult_le_compat; lra.
Qed.
Lemma rules_close e G T : Forall2 close G T -> (forall g, In g G -> forall x, In x (snd g) -> 0 <= x <= 1) ->
  Rabs (apply_rule T (monomial e) - apply_rule G (monomial (0%nat :: e))) <=
  rlsum (map (fun t => Rabs (fst t)) T) * (INR (list_sum e) * eps) + INR (length T) * (1 / 10 ^ 16).
Proof.
  induction 1 as [|g t G T Hc H IH]; intros Hg.
  - unfold apply_rule. cbn [map rlsum length INR]. rewrite Rminus_diag_eq by reflexivity. rewrite Rabs_R0. lra.
  - specialize (IH (fun g' H' => Hg g' (or_intror H'))). specialize (Hg g (or_introl eq_refl)).
    destruct Hc as (C1 & C2 & _ & l0 & l & El & C4). unfold apply_rule in *. cbn [map rlsum]. set (A := rlsum (map _ T)) in *. set (B := rlsum (map _ G)) in *.
    rewrite El in *. change (monomial (0%nat :: e) (l0 :: l)) with (l0 ^ 0 * monomial e l). rewrite pow_O, Rmult_1_l.
    destruct (monomial_close e (snd t) l C4 C2 (fun y Hy => Hg y (or_intror Hy))) as (M1 & M2 & M3).
    cbn [length]. rewrite S_INR.
    replace (fst t * monomial e (snd t) + A - (fst g * monomial e l + B)) with (fst t * (monomial e (snd t) - monomial e l) + (fst t - fst g) * monomial e l + (A - B)) by ring.
    eapply Rle_trans; [apply Rabs_triang|]. eapply Rle_trans; [apply Rplus_le_compat_r, Rabs_triang|]. rewrite !Rabs_mult, (Rabs_pos_eq (monomial e l)) by lra.
    assert (A1 : Rabs (fst t) * Rabs (monomial e (snd t) - monomial e l) <= Rabs (fst t) * (INR (list_sum e) * eps)) by (apply Rmult_le_compat_l; [apply Rabs_pos|exact M1]).
    assert (A2 : Rabs (fst t - fst g) * monomial e l <= 1 / 10 ^ 16 * 1) by (apply Rmult_le_compat; [apply Rabs_pos|lra|exact C1|lra]).
    lra.
Qed.
Lemma weights_abs pts : rlsum (map (fun t => Rabs (fst t)) (map row pts)) = IZR (zsum (map (fun p => Z.abs (uw p)) pts)) / 10 ^ 26.
Proof.
  induction pts as [|p pts IH]; [cbn; lra|]. cbn [map rlsum zsum]. rewrite IH, plus_IZR, abs_IZR. unfold row. cbn [fst]. unfold weight3, Rdiv.
  rewrite Rabs_mult, (Rabs_pos_eq (/ 10 ^ 26)) by (apply Rlt_le, Rinv_0_lt_compat, pow_lt; lra). ring.
Qed.
Lemma gm_moments s pts p : check_gm s pts = true -> (p <= 2 * s + 1)%nat -> (p <= 21)%nat -> forall e, length e = 3%nat -> (list_sum e <= p)%nat ->
  Rabs (apply_rule (map (fun '(x, y, z, w) => (weight3 w, [coord x; coord y; coord z])) pts) (monomial e) - moment 1 e) <= 3 / 10 ^ 12.
Proof.
  intros H Hp H21 e Hl Hs. unfold check_gm in H. rewrite !andb_true_iff, !Z.leb_le in H. destruct H as ((HM & HW) & HN).
  rewrite (map_ext _ row) by (intros (((x, y), z), w); reflexivity).
  assert (HF : Forall2 close (gm_rule 3 s) (map row pts)).
  { apply match_blocks_ok; [|exact HM]. intros i Hi. apply in_seq in Hi. lia. }
  replace (moment 1 e) with (apply_rule (gm_rule 3 s) (monomial (0%nat :: e))).
  2:{ rewrite (gm_exact 3 s (2 * s + 1 - list_sum e) (0%nat :: e)); [|cbn [length]; lia|change (list_sum (0%nat :: e)) with (list_sum e); lia].
      change (list_sum (0%nat :: e)) with (list_sum e). unfold moment. rewrite Hl, pow1. cbn [factp fold_right]. fold (factp e). change (fact 0) with 1%nat. cbn [INR]. unfold Rdiv. ring. }
  eapply Rle_trans; [apply (rules_close e _ _ HF)|].
  - intros g Hg x Hx. destruct (gm_in 3 s g Hg) as (_ & _ & B). apply B. exact Hx.
  - rewrite weights_abs, map_length.
    assert (W : IZR (zsum (map (fun p => Z.abs (uw p)) pts)) / 10 ^ 26 <= 433).
    { apply IZR_le in HW. rewrite mult_IZR, IZR_sc26 in HW. apply (Rmult_le_reg_r (10 ^ 26)); [apply pow_lt; lra|]. unfold Rdiv. rewrite Rmult_assoc, Rinv_l by (apply pow_nonzero; lra). lra. }
    assert (W0 : 0 <= IZR (zsum (map (fun p => Z.abs (uw p)) pts)) / 10 ^ 26).
    { apply Rmult_le_pos; [|apply Rlt_le, Rinv_0_lt_compat, pow_lt; lra]. apply IZR_le. clear. induction pts as [|p pts IH]; cbn [map zsum]; lia. }
    assert (N : INR (length pts) <= 1001) by (rewrite INR_IZR_INZ; apply IZR_le; exact HN).
    assert (Sx : INR (list_sum e) <= 21) by (rewrite INR_IZR_INZ; apply IZR_le; lia).
    pose proof (pos_INR (list_sum e)). unfold eps.
    assert (INR (list_sum e) * (3 / 10 ^ 16) <= 21 * (3 / 10 ^ 16)) by (apply Rmult_le_compat_r; [lra|exact Sx]).
    assert (IZR (zsum (map (fun p => Z.abs (uw p)) pts)) / 10 ^ 26 * (INR (list_sum e) * (3 / 10 ^ 16)) <= 433 * (21 * (3 / 10 ^ 16))) by (apply Rmult_le_compat; [exact W0|apply Rmult_le_pos; lra|exact W|assumption]).
    assert (INR (length pts) * (1 / 10 ^ 16) <= 1001 * (1 / 10 ^ 16)) by (apply Rmult_le_compat_r; [lra|exact N]). lra.
Qed.

(** ** points slightly outside of the triangle: the table of order 18 *)
Definition nearc (c : Z) (t : R) : Prop := Rabs (IZR c * u - t) <= u /\ Rabs t <= 65 / 64.
Definition nearw (k : nat) (c : Z) (v : R) : Prop := Rabs (IZR c * u - v) <= (3 * INR k + 1) * u /\ Rabs v <= / 60 * (65 / 64) ^ k.
Lemma conv_error sc z : (0 < sc)%Z -> Rabs (IZR (SimplexProofs.conv sc z) * u - IZR z / IZR sc) <= u.
Proof.
  intros Hs. assert (Hs' : 0 < IZR sc) by (apply IZR_lt; auto). unfold SimplexProofs.conv. rewrite Z.shiftl_mul_pow2 by lia. set (q := (z * 2 ^ 64 / sc)%Z).
  pose proof (Z.div_mod (z * 2 ^ 64) sc ltac:(lia)) as D. pose proof (Z.mod_pos_bound (z * 2 ^ 64) sc Hs) as B. fold q in D. set (m := ((z * 2 ^ 64) mod sc)%Z) in *.
  apply (f_equal IZR) in D. rewrite plus_IZR, !mult_IZR, two64 in D. destruct B as (B1 & B2). apply IZR_le in B1. apply IZR_lt in B2.
  pose proof u_pos as Hu. assert (E : IZR z / IZR sc = IZR q * u + IZR m / IZR sc * u).
  { replace (IZR z) with ((IZR sc * IZR q + IZR m) * u) by (rewrite <- D; field; lra). field. lra. }
  rewrite E. replace (IZR q * u - (IZR q * u + IZR m / IZR sc * u)) with (- (IZR m / IZR sc * u)) by ring.
  rewrite Rabs_Ropp, Rabs_pos_eq.
  - rewrite <- (Rmult_1_l u) at 2. apply Rmult_le_compat_r; [lra|]. apply (Rmult_le_reg_r (IZR sc)); [lra|]. unfold Rdiv. rewrite Rmult_assoc, Rinv_l by lra. lra.
  - apply Rmult_le_pos; [|lra]. apply Rmult_le_pos; [lra|]. apply Rlt_le, Rinv_0_lt_compat. lra.
Qed.
Lemma abs_quotient z sc b : 0 < sc -> Rabs z <= b * sc -> Rabs (z / sc) <= b.
Proof.
  intros Hs H. unfold Rdiv. rewrite Rabs_mult, (Rabs_pos_eq (/ sc)) by (apply Rlt_le, Rinv_0_lt_compat; lra).
  apply (Rmult_le_reg_r sc); [lra|]. rewrite Rmult_assoc, Rinv_l by lra. lra.
Qed.
Lemma growth k : (k <= 20)%nat -> 1 <= (65 / 64) ^ k <= 2.
Proof.
  intros H. split; [apply pow_R1_Rle; lra|]. eapply Rle_trans; [apply (Rle_pow _ _ 20); [lra|exact H]|]. lra.
Qed.
Lemma mul_nearw k c v y t : (k <= 20)%nat -> nearw k c v -> nearc y t -> nearw (S k) (Z.shiftr (c * y) 64) (v * t).
Proof.
  intros Hk (Hc & Hv) (Hy & Ht). pose proof u_pos as Hu. pose proof u_small as Hs. pose proof (pos_INR k) as Hk0.
  assert (HkR : INR k <= 20) by (rewrite INR_IZR_INZ; apply IZR_le; lia). pose proof (growth k Hk) as Hg. split.
  - rewrite Z.shiftr_div_pow2 by lia. set (q := (c * y / 2 ^ 64)%Z).
    pose proof (Z.div_mod (c * y) (2 ^ 64) ltac:(lia)) as D. pose proof (Z.mod_pos_bound (c * y) (2 ^ 64) ltac:(lia)) as B. fold q in D. set (m := ((c * y) mod 2 ^ 64)%Z) in *.
    apply (f_equal IZR) in D. rewrite plus_IZR, !mult_IZR, two64 in D. destruct B as (B1 & B2). apply IZR_le in B1. apply IZR_lt in B2. rewrite two64 in B2.
    assert (E : IZR q * u = (IZR c * u) * (IZR y * u) - IZR m * u * u).
    { replace (IZR c * u * (IZR y * u)) with (IZR c * IZR y * u * u) by ring. rewrite D. field. lra. }
    assert (Hm : 0 <= IZR m * u * u <= u).
    { assert (IZR m * u <= 1) by (apply (Rmult_le_reg_r (/ u)); [apply Rinv_0_lt_compat; lra|]; rewrite Rmult_assoc, Rinv_r by lra; lra).
      assert (0 <= IZR m * u) by (apply Rmult_le_pos; lra). split; [apply Rmult_le_pos; lra|]. pose proof (Rmult_le_compat_r u _ _ (Rlt_le _ _ Hu) H). lra. }
    rewrite E. set (C := IZR c * u) in *. set (Y := IZR y * u) in *.
    assert (HC : Rabs C <= 1 / 2).
    { replace C with ((C - v) + v) by ring. eapply Rle_trans; [apply Rabs_triang|].
      assert ((3 * INR k + 1) * u <= 61 * u) by (apply Rmult_le_compat_r; lra). lra. }
    replace (C * Y - IZR m * u * u - v * t) with (C * (Y - t) + ((C - v) * t - IZR m * u * u)) by ring.
    eapply Rle_trans; [apply Rabs_triang|]. rewrite Rabs_mult.
    assert (H1 : Rabs C * Rabs (Y - t) <= 1 / 2 * u) by (apply Rmult_le_compat; auto; apply Rabs_pos).
    assert (H2 : Rabs ((C - v) * t - IZR m * u * u) <= (3 * INR k + 1) * u * (65 / 64) + u).
    { eapply Rle_trans; [apply Rabs_triang|]. rewrite Rabs_mult, Rabs_Ropp, (Rabs_pos_eq (IZR m * u * u)) by lra.
      apply Rplus_le_compat; [|lra]. apply Rmult_le_compat; auto; apply Rabs_pos. }
    assert (H3 : (3 * INR k + 1) * u <= 61 * u) by (apply Rmult_le_compat_r; lra).
    rewrite S_INR. lra.
  - rewrite Rabs_mult. cbn [pow]. replace (/ 60 * (65 / 64 * (65 / 64) ^ k)) with (/ 60 * (65 / 64) ^ k * (65 / 64)) by ring. apply Rmult_le_compat; auto; apply Rabs_pos.
Qed.
Lemma mul2_nearw k cur vals col ys : (k <= 20)%nat -> Forall2 (nearw k) cur vals -> Forall2 nearc col ys -> Forall2 (nearw (S k)) (mul2 cur col) (vmul vals ys).
Proof.
  intros Hk H. revert col ys. induction H as [|c v cur vals Hc H IH]; intros col ys Hy; simpl; [constructor|].
  destruct Hy as [|y t col ys Hy1 Hy]; [constructor|]. constructor; [apply mul_nearw; auto|apply IH; auto].
Qed.
Lemma sum_nearw k cur vals : Forall2 (nearw k) cur vals -> Rabs (IZR (zsum cur) * u - rlsum vals) <= INR (length cur) * ((3 * INR k + 1) * u).
Proof.
  induction 1 as [|c v cur vals (Hc & _) H IH]; simpl zsum; simpl rlsum; [simpl; rewrite Rmult_0_l, Rminus_0_r, Rabs_R0; lra|].
  rewrite plus_IZR. replace ((IZR c + IZR (zsum cur)) * u - (v + rlsum vals)) with ((IZR c * u - v) + (IZR (zsum cur) * u - rlsum vals)) by ring.
  eapply Rle_trans; [apply Rabs_triang|]. cbn [length]. rewrite S_INR. lra.
Qed.
Lemma check_sound_out cols ycols : Forall2 (Forall2 nearc) cols ycols ->
  forall fuel cur vals e, (list_sum e + fuel <= 20)%nat -> Forall2 (nearw (list_sum e)) cur vals -> check cols cur e fuel = true ->
  forall e', length e' = length cols -> (list_sum e' <= fuel)%nat -> Rabs (rlsum (mono ycols e' vals) - moment 1 (rev e ++ e')) <= 5 / 10 ^ 15.
Proof.
  induction 1 as [|col ys cols ycols Hcol H IH]; intros fuel cur vals e Hfuel Hn Hc e' Hl Hsum.
  - destruct e'; [|discriminate]. rewrite app_nil_r. cbn [check] in Hc. apply test_sound in Hc. pose proof (sum_nearw _ _ _ Hn) as Hs. simpl mono.
    rewrite mult_IZR, plus_IZR, mult_IZR, <- !INR_IZR_INZ in Hc.
    replace (rlsum vals - moment 1 (rev e)) with (- (IZR (zsum cur) * u - rlsum vals) + (IZR (zsum cur) * u - moment 1 (rev e))) by ring.
    eapply Rle_trans; [apply Rabs_triang|]. rewrite Rabs_Ropp. lra.
  - destruct e' as [|k e']; [discriminate|]. simpl in Hl, Hsum. cbn [mono]. change (loop_check cols col e cur 0 fuel = true) in Hc.
    assert (G : forall n cur vals j, loop_check cols col e cur j n = true -> (list_sum e + j + n <= 20)%nat -> Forall2 (nearw (list_sum e + j)) cur vals ->
      forall k, (k + list_sum e' <= n)%nat -> Rabs (rlsum (mono ycols e' (vpow vals ys k)) - moment 1 (rev e ++ (j + k)%nat :: e')) <= 5 / 10 ^ 15).
    { clear Hc Hsum Hn cur vals Hfuel k fuel. induction n as [|n IHn]; intros cur vals j Hc Hb Hn k Hk.
      - simpl in Hc. apply andb_prop in Hc. destruct Hc as (Hc & _). assert (k = 0)%nat by lia. subst k. rewrite Nat.add_0_r. simpl vpow.
        replace (rev e ++ j :: e') with (rev (j :: e) ++ e') by (simpl; rewrite <- app_assoc; reflexivity).
          apply (IH 0%nat cur vals (j :: e)); [simpl; lia|simpl; rewrite Nat.add_comm; exact Hn|exact Hc|lia|lia].
      - simpl in Hc. apply andb_prop in Hc. destruct Hc as (Hc & Hc2). destruct k as [|k].
        + rewrite Nat.add_0_r. simpl vpow. replace (rev e ++ j :: e') with (rev (j :: e) ++ e') by (simpl; rewrite <- app_assoc; reflexivity).
          apply (IH (S n) cur vals (j :: e)); [simpl; lia|simpl; rewrite Nat.add_comm; exact Hn|exact Hc|lia|lia].
        + simpl vpow. replace (j + S k)%nat with (S j + k)%nat by lia. apply (IHn (mul2 cur col)); [exact Hc2|lia| |lia].
          replace (list_sum e + S j)%nat with (S (list_sum e + j)) by lia. apply mul2_nearw; auto. lia. }
    apply (G fuel cur vals 0%nat); auto; try lia. rewrite Nat.add_0_r. exact Hn.
Qed.
Definition check_out (pts : list (Z * Z * Z)) (p : nat) : bool :=
  forallb (fun z => 64 * Z.abs z <=? 65 * sc19)%Z (map tx pts) && forallb (fun z => 64 * Z.abs z <=? 65 * sc19)%Z (map ty pts) &&
  forallb (fun z => 60 * Z.abs z <=? sc20)%Z (map tw pts) &&
  check [map (SimplexProofs.conv sc19) (map tx pts); map (SimplexProofs.conv sc19) (map ty pts)] (map (SimplexProofs.conv sc20) (map tw pts)) [] p.
Lemma nearc_list l : forallb (fun z => 64 * Z.abs z <=? 65 * sc19)%Z l = true -> Forall2 nearc (map (SimplexProofs.conv sc19) l) (map (fun z => IZR z / IZR sc19) l).
Proof.
  intros H. rewrite forallb_forall in H. induction l as [|z l IH]; simpl; constructor.
  - split; [apply conv_error; reflexivity|]. apply abs_quotient; [apply IZR_lt; reflexivity|]. specialize (H z (or_introl eq_refl)). apply Z.leb_le in H.
    apply IZR_le in H. rewrite !mult_IZR, abs_IZR in H. lra.
  - apply IH. intros x Hx. apply H. right; auto.
Qed.
Lemma nearw_list l : forallb (fun z => 60 * Z.abs z <=? sc20)%Z l = true -> Forall2 (nearw 0) (map (SimplexProofs.conv sc20) l) (map (fun z => IZR z / IZR sc20) l).
Proof.
  intros H. rewrite forallb_forall in H. induction l as [|z l IH]; simpl; constructor.
  - split; [cbn [INR]; replace ((3 * 0 + 1) * u) with u by ring; apply conv_error; reflexivity|]. rewrite pow_O, Rmult_1_r.
    apply abs_quotient; [apply IZR_lt; reflexivity|]. specialize (H z (or_introl eq_refl)). apply Z.leb_le in H.
    apply IZR_le in H. rewrite !mult_IZR, abs_IZR in H. lra.
  - apply IH. intros x Hx. apply H. right; auto.
Qed.
Lemma triangle_moments_out pts p : (p <= 20)%nat -> check_out pts p = true -> forall e, length e = 2%nat -> (list_sum e <= p)%nat ->
  Rabs (apply_rule (map (fun '(x, y, w) => (weight2 w, [coord x; coord y])) pts) (monomial e) - moment 1 e) <= 5 / 10 ^ 15.
Proof.
  intros Hp H e Hl Hs. unfold check_out in H. apply andb_prop in H. destruct H as (H & Hc). apply andb_prop in H. destruct H as (H & Hw). apply andb_prop in H. destruct H as (Hx & Hy).
  assert (Nx := nearc_list _ Hx). assert (Ny := nearc_list _ Hy). assert (Nw := nearw_list _ Hw).
  assert (R := check_sound_out _ _ (Forall2_cons _ _ Nx (Forall2_cons _ _ Ny (Forall2_nil _))) p _ _ [] ltac:(simpl; lia) Nw Hc e Hl Hs). simpl rev in R. simpl app in R.
  rewrite IZR_sc19, IZR_sc20 in R. rewrite !map_map in R.
  replace (apply_rule _ _) with (rlsum (mono [map (fun x => IZR (tx x) / 10 ^ 19) pts; map (fun x => IZR (ty x) / 10 ^ 19) pts] e (map (fun x => IZR (tw x) / 10 ^ 20) pts))); [exact R|].
  pose proof (mono_map pts [(fun x => IZR (tx x) / 10 ^ 19); (fun x => IZR (ty x) / 10 ^ 19)] e (fun x => IZR (tw x) / 10 ^ 20) Hl) as M. cbn [map] in M. rewrite M.
  unfold apply_rule. rewrite map_map. f_equal. apply map_ext. intros ((x, y), w). reflexivity.
Qed.
