(** * Proofs for C35 *)
From Coq Require Import List Arith Bool Reals ZArith Lra Lia.
From Coquelicot Require Import Coquelicot.
From Verif Require Import RSum Outcome SimplexTables SimplexModel SimplexSpec.
Import ListNotations.
Local Open Scope R_scope.

(** ** exact integrals of monomials *)
Definition factp (e : list nat) : R := fold_right (fun k r => INR (fact k) * r) 1 e.
Definition moment (s : R) (e : list nat) : R := s ^ (list_sum e + length e) * factp e / INR (fact (list_sum e + length e)).

Lemma fact_nz n : INR (fact n) <> 0. Proof. apply INR_fact_neq_0. Qed.
Lemma fact_S n : INR (fact (S n)) = (INR n + 1) * INR (fact n).
Proof. change (fact (S n)) with (S n * fact n)%nat. rewrite mult_INR, S_INR. reflexivity. Qed.

Lemma pow_derive s a m x : is_derive (fun x => x ^ a * (s - x) ^ m) x
  (INR a * x ^ pred a * (s - x) ^ m - INR m * x ^ a * (s - x) ^ pred m).
Proof.
  assert (H1 : is_derive (fun x : R => x ^ a) x (INR a * 1 * x ^ pred a)) by apply (is_derive_pow (fun x => x) a x 1 (is_derive_id x)).
  assert (H2 : is_derive (fun x : R => (s - x) ^ m) x (INR m * (-1) * (s - x) ^ pred m)).
  { apply (is_derive_pow (fun x => s - x) m x (-1)). auto_derive; [auto|]. ring. }
  assert (H := is_derive_mult _ _ x _ _ H1 H2 Rmult_comm).
  replace (INR a * x ^ pred a * (s - x) ^ m - INR m * x ^ a * (s - x) ^ pred m) with
    (plus (mult (INR a * 1 * x ^ pred a) ((s - x) ^ m)) (mult (x ^ a) (INR m * -1 * (s - x) ^ pred m))); [exact H|].
  unfold plus, mult; simpl. ring.
Qed.
Lemma pow_continuous s a m x : continuous (fun x : R => x ^ a * (s - x) ^ m) x.
Proof. apply (ex_derive_continuous (V := R_NormedModule)). eexists. apply pow_derive. Qed.

Lemma rint_plus (f g : R -> R) a b (v w : R) : is_RInt f a b v -> is_RInt g a b w -> is_RInt (fun x => f x + g x) a b (v + w).
Proof. apply (is_RInt_plus f g). Qed.
Lemma rint_scal (f : R -> R) a b (c v : R) : is_RInt f a b v -> is_RInt (fun x => c * f x) a b (c * v).
Proof. apply (is_RInt_scal f). Qed.
Lemma rint_value (f : R -> R) a b (v w : R) : v = w -> is_RInt f a b v -> is_RInt f a b w.
Proof. intros ->. auto. Qed.

Lemma rint_ext (f g : R -> R) a b (v : R) : (forall x, f x = g x) -> is_RInt f a b v -> is_RInt g a b v.
Proof. intros E. apply is_RInt_ext. intros; auto. Qed.

(** the Beta integral on [0, s] *)
Lemma beta s m : forall a, is_RInt (fun x => x ^ a * (s - x) ^ m) 0 s (s ^ (a + m + 1) * INR (fact a) * INR (fact m) / INR (fact (a + m + 1))).
Proof.
  induction m as [|m IH]; intros a.
  - assert (H : is_RInt (fun x => x ^ a) 0 s (s ^ S a / INR (S a) - 0 ^ S a / INR (S a))).
    { apply (is_RInt_derive (fun x => x ^ S a / INR (S a)) (fun x => x ^ a)).
      - intros x _. pose proof (is_derive_pow (fun x => x) (S a) x 1 (is_derive_id x)) as Hd. apply (is_derive_scal _ x (/ INR (S a))) in Hd.
        apply (is_derive_ext (fun x => / INR (S a) * x ^ S a)); [intros t; unfold Rdiv; apply Rmult_comm|].
        replace (x ^ a) with (/ INR (S a) * (INR (S a) * 1 * x ^ pred (S a))); [exact Hd|]. simpl pred. field. apply not_0_INR; lia.
      - intros x _. apply (ex_derive_continuous (V := R_NormedModule)). auto_derive. auto. }
    apply (is_RInt_ext (fun x => x ^ a)); [intros; simpl; ring|].
    replace (s ^ (a + 0 + 1) * INR (fact a) * INR (fact 0) / INR (fact (a + 0 + 1))) with (s ^ S a / INR (S a) - 0 ^ S a / INR (S a)); [exact H|].
    replace (a + 0 + 1)%nat with (S a) by lia. rewrite fact_S, S_INR. simpl (0 ^ S a). simpl (INR (fact 0)). pose proof (fact_nz a). pose proof (pos_INR a). field. split; [auto|lra].
  - pose proof (pos_INR a) as Ha. pose proof (pos_INR m) as Hm.
    assert (H : is_RInt (fun x => INR (S a) * x ^ a * (s - x) ^ S m - INR (S m) * x ^ S a * (s - x) ^ m) 0 s (s ^ S a * (s - s) ^ S m - 0 ^ S a * (s - 0) ^ S m)).
    { apply (is_RInt_derive (fun x => x ^ S a * (s - x) ^ S m)).
      - intros x _. apply (pow_derive s (S a) (S m) x).
      - intros x _. apply (ex_derive_continuous (V := R_NormedModule)). auto_derive. auto. }
    assert (H2 := rint_scal _ _ _ (/ INR (S a)) _ (rint_plus _ _ _ _ _ _ H (rint_scal _ _ _ (INR (S m)) _ (IH (S a))))).
    apply (rint_ext _ (fun x => x ^ a * (s - x) ^ S m)) in H2.
    + revert H2. apply rint_value. replace (S a + m + 1)%nat with (S (a + m + 1)) by lia. replace (a + S m + 1)%nat with (S (a + m + 1)) by lia.
      rewrite (fact_S a), (fact_S m), (S_INR a), (S_INR m). simpl (0 ^ S a). replace (s - s) with 0 by ring. simpl (0 ^ S m).
      pose proof (fact_nz (S (a + m + 1))). field. split; [auto|lra].
    + intros x. rewrite (S_INR a). simpl pow. field. lra.
Qed.

Lemma simplex_ext d : forall s g h v, (forall l, g l = h l) -> simplex_integral d s g v -> simplex_integral d s h v.
Proof.
  induction d as [|d IH]; simpl; intros s g h v E H; [rewrite <- E; auto|]. destruct H as (q & Hq & Hv). exists q. split; auto.
  intros x Hx. apply (IH (s - x) (fun l => g (x :: l))); auto.
Qed.
Lemma simplex_plus d : forall s g h v u, simplex_integral d s g v -> simplex_integral d s h u -> simplex_integral d s (fun l => g l + h l) (v + u).
Proof.
  induction d as [|d IH]; simpl; intros s g h v u; [intros -> ->; reflexivity|]. intros (q & Hq & Hv) (r & Hr & Hu). exists (fun x => q x + r x).
  split; [intros x Hx; apply (IH (s - x) (fun l => g (x :: l)) (fun l => h (x :: l))); auto|]. apply (is_RInt_plus q r); auto.
Qed.
Lemma simplex_scal d : forall s g v c, simplex_integral d s g v -> simplex_integral d s (fun l => c * g l) (c * v).
Proof.
  induction d as [|d IH]; simpl; intros s g v c; [intros ->; reflexivity|]. intros (q & Hq & Hv). exists (fun x => c * q x).
  split; [intros x Hx; apply (IH (s - x) (fun l => g (x :: l))); auto|]. apply (is_RInt_scal q); auto.
Qed.
Lemma is_RInt_zero a b : is_RInt (fun _ : R => 0) a b 0.
Proof.
  assert (E : scal (b - a) 0 = 0 :> R) by (unfold scal; simpl; unfold mult; simpl; ring).
  exact (eq_ind _ (fun v => is_RInt (fun _ : R => 0) a b v) (is_RInt_const a b 0) _ E).
Qed.
Lemma simplex_zero d : forall s, simplex_integral d s (fun _ => 0) 0.
Proof. induction d as [|d IH]; simpl; auto. intros s. exists (fun _ => 0). split; auto. apply is_RInt_zero. Qed.

Lemma simplex_monomial e : forall s, simplex_integral (length e) s (monomial e) (moment s e).
Proof.
  induction e as [|k e IH]; intros s; [unfold moment; simpl; field|]. cbn [length simplex_integral].
  exists (fun x => x ^ k * moment (s - x) e). split; [intros x Hx; apply simplex_scal; apply IH|].
  set (m := (list_sum e + length e)%nat). pose proof (beta s m k) as B.
  apply (rint_scal _ _ _ (factp e / INR (fact m))) in B.
  apply (rint_ext _ (fun x => x ^ k * moment (s - x) e)) in B.
  - revert B. apply rint_value. unfold moment. simpl list_sum. cbn [length factp fold_right]. fold (factp e).
    replace (k + list_sum e + S (length e))%nat with (k + m + 1)%nat by (unfold m; lia).
    pose proof (fact_nz m). pose proof (fact_nz (k + m + 1)). field. auto.
  - intros x. unfold moment. fold m. unfold Rdiv. ring.
Qed.

(** ** linearity of the rule *)
Lemma rule_ext r g h : (forall l, g l = h l) -> apply_rule r g = apply_rule r h.
Proof. intros E. unfold apply_rule. f_equal. apply map_ext. intros; rewrite E; reflexivity. Qed.
Lemma rule_plus r g h : apply_rule r (fun l => g l + h l) = apply_rule r g + apply_rule r h.
Proof. unfold apply_rule. induction r as [|x r IH]; simpl; [ring|]. rewrite IH. ring. Qed.
Lemma rule_scal r g c : apply_rule r (fun l => c * g l) = c * apply_rule r g.
Proof. unfold apply_rule. induction r as [|x r IH]; simpl; [ring|]. rewrite IH. ring. Qed.
Lemma rule_zero r : apply_rule r (fun _ => 0) = 0.
Proof. unfold apply_rule. induction r as [|x r IH]; simpl; [ring|]. rewrite IH. ring. Qed.

Lemma rule_error (Int : (list R -> R) -> R -> Prop) r d p eps exact :
  (forall g h v, (forall l, g l = h l) -> Int g v -> Int h v) ->
  (forall g h v u, Int g v -> Int h u -> Int (fun l => g l + h l) (v + u)) -> (forall g v c, Int g v -> Int (fun l => c * g l) (c * v)) -> Int (fun _ => 0) 0 ->
  (forall e, length e = d -> (list_sum e <= p)%nat -> Int (monomial e) (exact e)) ->
  (forall e, length e = d -> (list_sum e <= p)%nat -> Rabs (apply_rule r (monomial e) - exact e) <= eps) ->
  forall t, degree_at_most d p t -> exists v, Int (evaluate t) v /\ Rabs (apply_rule r (evaluate t) - v) <= eps * coefficient_sum t.
Proof.
  intros Hext Hplus Hscal Hzero Hint Herr. induction t as [|(c, e) t IH]; intros Hd.
  - exists 0. split; [apply (Hext (fun _ => 0)); auto|]. unfold coefficient_sum. simpl. rewrite (rule_ext r _ (fun _ => 0)) by reflexivity. rewrite rule_zero.
    replace (0 - 0) with 0 by ring. rewrite Rabs_R0. lra.
  - destruct (Forall_inv Hd) as (Hl & Hs). assert (Hd' := Forall_inv_tail Hd). simpl in Hl, Hs. destruct (IH Hd') as (v & Hv & Hb). exists (c * exact e + v). split.
    + apply (Hext (fun l => c * monomial e l + evaluate t l)); [reflexivity|]. apply Hplus; [apply Hscal|]; auto.
    + rewrite (rule_ext r _ (fun l => c * monomial e l + evaluate t l)) by reflexivity. rewrite rule_plus, rule_scal.
      unfold coefficient_sum. cbn [map rlsum fst]. fold (coefficient_sum t).
      replace (c * apply_rule r (monomial e) + apply_rule r (evaluate t) - (c * exact e + v)) with (c * (apply_rule r (monomial e) - exact e) + (apply_rule r (evaluate t) - v)) by ring.
      eapply Rle_trans; [apply Rabs_triang|]. rewrite Rabs_mult. pose proof (Herr e Hl Hs). pose proof (Rabs_pos c).
      assert (Rabs c * Rabs (apply_rule r (monomial e) - exact e) <= Rabs c * eps) by (apply Rmult_le_compat_l; auto). lra.
Qed.

(** ** a fixed point check of all moments *)
Local Open Scope Z_scope.
Fixpoint zfact (n : nat) : Z := match n with O => 1 | S m => Z.of_nat n * zfact m end.
Definition zfactp (e : list nat) : Z := fold_right (fun k r => zfact k * r) 1 e.
Fixpoint zsum (l : list Z) : Z := match l with [] => 0 | x :: t => x + zsum t end.
(** multiply and drop 64 binary digits *)
Fixpoint mul2 (l m : list Z) : list Z := match l, m with x :: t, y :: u => Z.shiftr (x * y) 64 :: mul2 t u | _, _ => [] end.
(** |s / 2^64 - moment| + err / 2^64 <= 5 / 10^15 *)
Definition test (s err : Z) (e : list nat) : bool :=
  let ff := zfact (list_sum e + length e) in
  (Z.abs (s * ff - Z.shiftl (zfactp e) 64) + err * ff) * 10 ^ 15 <=? 5 * Z.shiftl ff 64.

Fixpoint check (cols : list (list Z)) (cur : list Z) (e : list nat) (fuel : nat) {struct cols} : bool :=
  match cols with
  | [] => test (zsum cur) (Z.of_nat (length cur) * (3 * Z.of_nat (list_sum e) + 1)) (rev e)
  | col :: rest =>
    (fix loop (cur : list Z) (j : nat) (n : nat) {struct n} : bool :=
       check rest cur (j :: e) n && match n with O => true | S m => loop (mul2 cur col) (S j) m end) cur O fuel
  end.
Definition loop_check (rest : list (list Z)) (col : list Z) (e : list nat) : list Z -> nat -> nat -> bool :=
  fix loop (cur : list Z) (j : nat) (n : nat) {struct n} : bool :=
       check rest cur (j :: e) n && match n with O => true | S m => loop (mul2 cur col) (S j) m end.
Definition conv (sc z : Z) : Z := Z.shiftl z 64 / sc.
Local Close Scope Z_scope.

Definition u : R := / 2 ^ 64.
Lemma u_pos : 0 < u. Proof. apply Rinv_0_lt_compat. apply pow_lt. lra. Qed.
Lemma u_small : u < / 1000. Proof. unfold u. apply Rinv_lt_contravar; [apply Rmult_lt_0_compat; [lra|apply pow_lt; lra]|]. simpl. lra. Qed.
Lemma two64 : IZR (2 ^ 64) = / u.
Proof. unfold u. rewrite Rinv_inv. rewrite (pow_IZR 2 64). reflexivity. Qed.

Definition near (k : nat) (c : Z) (v : R) : Prop := Rabs (IZR c * u - v) <= (3 * INR k + 1) * u /\ Rabs v <= 1.

Lemma conv_near sc z : (0 < sc)%Z -> (Z.abs z <= sc)%Z -> near 0 (conv sc z) (IZR z / IZR sc).
Proof.
  intros Hs Hz. assert (Hs' : 0 < IZR sc) by (apply IZR_lt; auto). split.
  - unfold conv. rewrite Z.shiftl_mul_pow2 by lia. set (q := (z * 2 ^ 64 / sc)%Z).
    pose proof (Z.div_mod (z * 2 ^ 64) sc ltac:(lia)) as D. pose proof (Z.mod_pos_bound (z * 2 ^ 64) sc Hs) as B. fold q in D. set (m := ((z * 2 ^ 64) mod sc)%Z) in *.
    apply (f_equal IZR) in D. rewrite plus_IZR, !mult_IZR, two64 in D. destruct B as (B1 & B2). apply IZR_le in B1. apply IZR_lt in B2.
    pose proof u_pos as Hu. assert (E : IZR z / IZR sc = IZR q * u + IZR m / IZR sc * u).
    { replace (IZR z) with ((IZR sc * IZR q + IZR m) * u) by (rewrite <- D; field; lra). field. lra. }
    rewrite E. replace (IZR q * u - (IZR q * u + IZR m / IZR sc * u)) with (- (IZR m / IZR sc * u)) by ring.
    rewrite Rabs_Ropp, Rabs_pos_eq.
    + simpl INR. replace ((3 * 0 + 1) * u) with (1 * u) by ring. apply Rmult_le_compat_r; [lra|]. apply (Rmult_le_reg_r (IZR sc)); [lra|]. unfold Rdiv. rewrite Rmult_assoc, Rinv_l by lra. lra.
    + apply Rmult_le_pos; [|lra]. apply Rmult_le_pos; [lra|]. apply Rlt_le, Rinv_0_lt_compat. lra.
  - unfold Rdiv. rewrite Rabs_mult, (Rabs_pos_eq (/ IZR sc)) by (apply Rlt_le, Rinv_0_lt_compat; lra). rewrite <- abs_IZR.
    apply (Rmult_le_reg_r (IZR sc)); [lra|]. rewrite Rmult_assoc, Rinv_l by lra. apply IZR_le in Hz. lra.
Qed.

Lemma mul_near k c v y t : (INR k <= 100) -> near k c v -> near 0 y t -> near (S k) (Z.shiftr (c * y) 64) (v * t).
Proof.
  intros Hk (Hc & Hv) (Hy & Ht). pose proof u_pos as Hu. pose proof u_small as Hs. pose proof (pos_INR k) as Hk0. split.
  - rewrite Z.shiftr_div_pow2 by lia. set (q := (c * y / 2 ^ 64)%Z).
    pose proof (Z.div_mod (c * y) (2 ^ 64) ltac:(lia)) as D. pose proof (Z.mod_pos_bound (c * y) (2 ^ 64) ltac:(lia)) as B. fold q in D. set (m := ((c * y) mod 2 ^ 64)%Z) in *.
    apply (f_equal IZR) in D. rewrite plus_IZR, !mult_IZR, two64 in D. destruct B as (B1 & B2). apply IZR_le in B1. apply IZR_lt in B2. rewrite two64 in B2.
    assert (E : IZR q * u = (IZR c * u) * (IZR y * u) - IZR m * u * u).
    { replace (IZR c * u * (IZR y * u)) with (IZR c * IZR y * u * u) by ring. rewrite D. field. lra. }
    assert (Hm : 0 <= IZR m * u * u <= u).
    { assert (IZR m * u <= 1) by (apply (Rmult_le_reg_r (/ u)); [apply Rinv_0_lt_compat; lra|]; rewrite Rmult_assoc, Rinv_r by lra; lra).
      assert (0 <= IZR m * u) by (apply Rmult_le_pos; lra). split; [apply Rmult_le_pos; lra|]. pose proof (Rmult_le_compat_r u _ _ (Rlt_le _ _ Hu) H). lra. }
    rewrite E. set (C := IZR c * u) in *. set (Y := IZR y * u) in *. simpl INR in Hy. replace ((3 * 0 + 1) * u) with u in Hy by ring.
    assert (HC : Rabs C <= 2).
    { replace C with ((C - v) + v) by ring. eapply Rle_trans; [apply Rabs_triang|].
      assert ((3 * INR k + 1) * u <= 301 * u) by (apply Rmult_le_compat_r; lra). lra. }
    replace (C * Y - IZR m * u * u - v * t) with (C * (Y - t) + ((C - v) * t - IZR m * u * u)) by ring.
    eapply Rle_trans; [apply Rabs_triang|]. rewrite Rabs_mult.
    assert (H1 : Rabs C * Rabs (Y - t) <= 2 * u) by (apply Rmult_le_compat; auto; apply Rabs_pos).
    assert (H2 : Rabs ((C - v) * t - IZR m * u * u) <= (3 * INR k + 1) * u * 1 + u).
    { eapply Rle_trans; [apply Rabs_triang|]. rewrite Rabs_mult, Rabs_Ropp, (Rabs_pos_eq (IZR m * u * u)) by lra.
      apply Rplus_le_compat; [|lra]. apply Rmult_le_compat; auto; apply Rabs_pos. }
    rewrite S_INR. lra.
  - rewrite Rabs_mult. rewrite <- (Rmult_1_r 1). apply Rmult_le_compat; auto; apply Rabs_pos.
Qed.

Fixpoint vmul (l m : list R) : list R := match l, m with x :: t, y :: w => x * y :: vmul t w | _, _ => [] end.
Lemma mul2_near k cur vals col ys : INR k <= 100 -> Forall2 (near k) cur vals -> Forall2 (near 0) col ys -> Forall2 (near (S k)) (mul2 cur col) (vmul vals ys).
Proof.
  intros Hk H. revert col ys. induction H as [|c v cur vals Hc H IH]; intros col ys Hy; simpl; [constructor|].
  destruct Hy as [|y t col ys Hy1 Hy]; [constructor|]. constructor; [apply mul_near; auto|apply IH; auto].
Qed.
Lemma sum_near k cur vals : Forall2 (near k) cur vals -> Rabs (IZR (zsum cur) * u - rlsum vals) <= INR (length cur) * ((3 * INR k + 1) * u).
Proof.
  induction 1 as [|c v cur vals (Hc & _) H IH]; simpl zsum; simpl rlsum; [simpl; rewrite Rmult_0_l, Rminus_0_r, Rabs_R0; lra|].
  rewrite plus_IZR. replace ((IZR c + IZR (zsum cur)) * u - (v + rlsum vals)) with ((IZR c * u - v) + (IZR (zsum cur) * u - rlsum vals)) by ring.
  eapply Rle_trans; [apply Rabs_triang|]. cbn [length]. rewrite S_INR. lra.
Qed.

Lemma zfact_fact n : IZR (zfact n) = INR (fact n).
Proof. induction n as [|n IH]; [reflexivity|]. cbn [zfact]. rewrite mult_IZR, IH, fact_S, <- INR_IZR_INZ, S_INR. reflexivity. Qed.
Lemma zfactp_factp e : IZR (zfactp e) = factp e.
Proof. induction e as [|k e IH]; [reflexivity|]. cbn [zfactp factp fold_right]. rewrite mult_IZR, zfact_fact. f_equal. exact IH. Qed.

Lemma test_sound s err e : test s err e = true -> Rabs (IZR s * u - moment 1 e) + IZR err * u <= 5 / 10 ^ 15.
Proof.
  unfold test. intros H. apply Z.leb_le in H. rewrite !Z.shiftl_mul_pow2 in H by lia. apply IZR_le in H.
  set (n := (list_sum e + length e)%nat) in *. pose proof (fact_nz n) as Hf. assert (Hfp : 0 < INR (fact n)) by (apply lt_0_INR; apply lt_O_fact). pose proof u_pos as Hu.
  rewrite !mult_IZR, plus_IZR, abs_IZR, minus_IZR, !mult_IZR, two64, zfact_fact, zfactp_factp in H.
  rewrite (pow_IZR 10 15) in H || idtac.
  replace (IZR (10 ^ 15)) with (10 ^ 15) in H by (rewrite (pow_IZR 10 15); reflexivity).
  unfold moment. fold n. rewrite pow1, Rmult_1_l.
  replace (IZR s * u - factp e / INR (fact n)) with ((IZR s * INR (fact n) - factp e * / u) * (u / INR (fact n))) by (field; lra).
  assert (Hp : 0 < u / INR (fact n)) by (apply Rmult_lt_0_compat; [lra|apply Rinv_0_lt_compat; lra]).
  rewrite Rabs_mult, (Rabs_pos_eq (u / INR (fact n))) by lra.
  replace (IZR err * u) with (IZR err * INR (fact n) * (u / INR (fact n))) by (field; lra). rewrite <- Rmult_plus_distr_r.
  set (X := Rabs _ + _) in *. assert (HX : X <= 5 * (INR (fact n) * / u) / 10 ^ 15).
  { apply (Rmult_le_reg_r (10 ^ 15)); [apply pow_lt; lra|]. unfold Rdiv. rewrite Rmult_assoc, Rinv_l by (apply pow_nonzero; lra). lra. }
  replace (5 / 10 ^ 15) with (5 * (INR (fact n) * / u) / 10 ^ 15 * (u / INR (fact n))) by (field; lra).
  apply Rmult_le_compat_r; lra.
Qed.

(** the true values *)
Fixpoint vpow (vals ys : list R) (k : nat) : list R := match k with O => vals | S k' => vpow (vmul vals ys) ys k' end.
Fixpoint mono (cols : list (list R)) (e : list nat) (vals : list R) : list R :=
  match cols, e with ys :: r, k :: e' => mono r e' (vpow vals ys k) | _, _ => vals end.

Lemma check_sound cols ycols : Forall2 (Forall2 (near 0)) cols ycols ->
  forall fuel cur vals e, (list_sum e + fuel <= 100)%nat -> Forall2 (near (list_sum e)) cur vals -> check cols cur e fuel = true ->
  forall e', length e' = length cols -> (list_sum e' <= fuel)%nat -> Rabs (rlsum (mono ycols e' vals) - moment 1 (rev e ++ e')) <= 5 / 10 ^ 15.
Proof.
  induction 1 as [|col ys cols ycols Hcol H IH]; intros fuel cur vals e Hfuel Hn Hc e' Hl Hsum.
  - destruct e'; [|discriminate]. rewrite app_nil_r. cbn [check] in Hc. apply test_sound in Hc. pose proof (sum_near _ _ _ Hn) as Hs. simpl mono.
    rewrite mult_IZR, plus_IZR, mult_IZR, <- !INR_IZR_INZ in Hc.
    replace (rlsum vals - moment 1 (rev e)) with (- (IZR (zsum cur) * u - rlsum vals) + (IZR (zsum cur) * u - moment 1 (rev e))) by ring.
    eapply Rle_trans; [apply Rabs_triang|]. rewrite Rabs_Ropp. lra.
  - destruct e' as [|k e']; [discriminate|]. simpl in Hl, Hsum. cbn [mono]. change (loop_check cols col e cur 0 fuel = true) in Hc.
    assert (G : forall n cur vals j, loop_check cols col e cur j n = true -> (list_sum e + j + n <= 100)%nat -> Forall2 (near (list_sum e + j)) cur vals ->
      forall k, (k + list_sum e' <= n)%nat -> Rabs (rlsum (mono ycols e' (vpow vals ys k)) - moment 1 (rev e ++ (j + k)%nat :: e')) <= 5 / 10 ^ 15).
    { clear Hc Hsum Hn cur vals Hfuel k fuel. induction n as [|n IHn]; intros cur vals j Hc Hb Hn k Hk.
      - simpl in Hc. apply andb_prop in Hc. destruct Hc as (Hc & _). assert (k = 0)%nat by lia. subst k. rewrite Nat.add_0_r. simpl vpow.
        replace (rev e ++ j :: e') with (rev (j :: e) ++ e') by (simpl; rewrite <- app_assoc; reflexivity).
          apply (IH 0%nat cur vals (j :: e)); [simpl; lia|simpl; rewrite Nat.add_comm; exact Hn|exact Hc|lia|lia].
      - simpl in Hc. apply andb_prop in Hc. destruct Hc as (Hc & Hc2). destruct k as [|k].
        + rewrite Nat.add_0_r. simpl vpow. replace (rev e ++ j :: e') with (rev (j :: e) ++ e') by (simpl; rewrite <- app_assoc; reflexivity).
          apply (IH (S n) cur vals (j :: e)); [simpl; lia|simpl; rewrite Nat.add_comm; exact Hn|exact Hc|lia|lia].
        + simpl vpow. replace (j + S k)%nat with (S j + k)%nat by lia. apply (IHn (mul2 cur col)); [exact Hc2|lia| |lia].
          replace (list_sum e + S j)%nat with (S (list_sum e + j)) by lia. apply mul2_near; auto. change 100 with (IZR 100). rewrite INR_IZR_INZ. apply IZR_le. lia. }
    apply (G fuel cur vals 0%nat); auto; try lia. rewrite Nat.add_0_r. exact Hn.
Qed.

Lemma mono_map {A} (pts : list A) fs : forall e (v : A -> R), length e = length fs ->
  mono (map (fun f => map f pts) fs) e (map v pts) = map (fun p => v p * monomial e (map (fun f => f p) fs)) pts.
Proof.
  assert (P : forall f k (v : A -> R), vpow (map v pts) (map f pts) k = map (fun p => v p * f p ^ k) pts).
  { intros f. induction k as [|k IH]; intros v; simpl; [apply map_ext; intros; ring|].
    replace (vmul (map v pts) (map f pts)) with (map (fun p => v p * f p) pts).
    - rewrite IH. apply map_ext. intros; ring.
    - clear. induction pts as [|x l IH]; simpl; congruence. }
  induction fs as [|f fs IH]; intros e v Hl; destruct e as [|k e]; try discriminate; simpl.
  - apply map_ext. intros; ring.
  - rewrite P, IH by (simpl in Hl; lia). apply map_ext. intros; ring.
Qed.

(** ** the two families *)
Definition sc19 : Z := Eval compute in (10 ^ 19)%Z.
Definition sc20 : Z := Eval compute in (10 ^ 20)%Z.
Definition sc26 : Z := Eval compute in (10 ^ 26)%Z.
Definition bounded (l : list Z) (sc : Z) : bool := forallb (fun z => Z.leb (Z.abs z) sc) l.
Lemma near_list sc l : (0 < sc)%Z -> bounded l sc = true -> Forall2 (near 0) (map (conv sc) l) (map (fun z => IZR z / IZR sc) l).
Proof.
  intros Hs H. unfold bounded in H. rewrite forallb_forall in H. induction l as [|z l IH]; simpl; constructor.
  - apply conv_near; auto. apply Z.leb_le. apply H. left; reflexivity.
  - apply IH. intros x Hx. apply H. right; auto.
Qed.

Definition tx (p : Z * Z * Z) : Z := fst (fst p).
Definition ty (p : Z * Z * Z) : Z := snd (fst p).
Definition tw (p : Z * Z * Z) : Z := snd p.
Definition check_triangle (pts : list (Z * Z * Z)) (p : nat) : bool :=
  bounded (map tx pts) sc19 && bounded (map ty pts) sc19 && bounded (map tw pts) sc20 &&
  check [map (conv sc19) (map tx pts); map (conv sc19) (map ty pts)] (map (conv sc20) (map tw pts)) [] p.

Lemma IZR_sc19 : IZR sc19 = 10 ^ 19. Proof. change sc19 with (10 ^ 19)%Z. rewrite (pow_IZR 10 19). reflexivity. Qed.
Lemma IZR_sc20 : IZR sc20 = 10 ^ 20. Proof. change sc20 with (10 ^ 20)%Z. rewrite (pow_IZR 10 20). reflexivity. Qed.
Lemma IZR_sc26 : IZR sc26 = 10 ^ 26. Proof. change sc26 with (10 ^ 26)%Z. rewrite (pow_IZR 10 26). reflexivity. Qed.

Lemma triangle_moments pts p : (p <= 100)%nat -> check_triangle pts p = true -> forall e, length e = 2%nat -> (list_sum e <= p)%nat ->
  Rabs (apply_rule (map (fun '(x, y, w) => (weight2 w, [coord x; coord y])) pts) (monomial e) - moment 1 e) <= 5 / 10 ^ 15.
Proof.
  intros Hp H e Hl Hs. unfold check_triangle in H. apply andb_prop in H. destruct H as (H & Hc). apply andb_prop in H. destruct H as (H & Hw). apply andb_prop in H. destruct H as (Hx & Hy).
  assert (Nx := near_list sc19 _ eq_refl Hx). assert (Ny := near_list sc19 _ eq_refl Hy). assert (Nw := near_list sc20 _ eq_refl Hw).
  assert (R := check_sound _ _ (Forall2_cons _ _ Nx (Forall2_cons _ _ Ny (Forall2_nil _))) p _ _ [] ltac:(simpl; lia) Nw Hc e Hl Hs). simpl rev in R. simpl app in R.
  rewrite IZR_sc19, IZR_sc20 in R. rewrite !map_map in R.
  replace (apply_rule _ _) with (rlsum (mono [map (fun x => IZR (tx x) / 10 ^ 19) pts; map (fun x => IZR (ty x) / 10 ^ 19) pts] e (map (fun x => IZR (tw x) / 10 ^ 20) pts))); [exact R|].
  pose proof (mono_map pts [(fun x => IZR (tx x) / 10 ^ 19); (fun x => IZR (ty x) / 10 ^ 19)] e (fun x => IZR (tw x) / 10 ^ 20) Hl) as M. cbn [map] in M. rewrite M.
  unfold apply_rule. rewrite map_map. f_equal. apply map_ext. intros ((x, y), w). reflexivity.
Qed.

Definition ux (p : Z * Z * Z * Z) : Z := fst (fst (fst p)).
Definition uy (p : Z * Z * Z * Z) : Z := snd (fst (fst p)).
Definition uz (p : Z * Z * Z * Z) : Z := snd (fst p).
Definition uw (p : Z * Z * Z * Z) : Z := snd p.
Definition check_tetrahedron (pts : list (Z * Z * Z * Z)) (p : nat) : bool :=
  bounded (map ux pts) sc19 && bounded (map uy pts) sc19 && bounded (map uz pts) sc19 && bounded (map uw pts) sc26 &&
  check [map (conv sc19) (map ux pts); map (conv sc19) (map uy pts); map (conv sc19) (map uz pts)] (map (conv sc26) (map uw pts)) [] p.
Lemma tetrahedron_moments pts p : (p <= 100)%nat -> check_tetrahedron pts p = true -> forall e, length e = 3%nat -> (list_sum e <= p)%nat ->
  Rabs (apply_rule (map (fun '(x, y, z, w) => (weight3 w, [coord x; coord y; coord z])) pts) (monomial e) - moment 1 e) <= 5 / 10 ^ 15.
Proof.
  intros Hp H e Hl Hs. unfold check_tetrahedron in H. apply andb_prop in H. destruct H as (H & Hc). apply andb_prop in H. destruct H as (H & Hw). apply andb_prop in H. destruct H as (H & Hz). apply andb_prop in H. destruct H as (Hx & Hy).
  assert (Nx := near_list sc19 _ eq_refl Hx). assert (Ny := near_list sc19 _ eq_refl Hy). assert (Nz := near_list sc19 _ eq_refl Hz). assert (Nw := near_list sc26 _ eq_refl Hw).
  assert (R := check_sound _ _ (Forall2_cons _ _ Nx (Forall2_cons _ _ Ny (Forall2_cons _ _ Nz (Forall2_nil _)))) p _ _ [] ltac:(simpl; lia) Nw Hc e Hl Hs). simpl rev in R. simpl app in R.
  rewrite IZR_sc19, IZR_sc26 in R. rewrite !map_map in R.
  replace (apply_rule _ _) with (rlsum (mono [map (fun x => IZR (ux x) / 10 ^ 19) pts; map (fun x => IZR (uy x) / 10 ^ 19) pts; map (fun x => IZR (uz x) / 10 ^ 19) pts] e (map (fun x => IZR (uw x) / 10 ^ 26) pts))); [exact R|].
  pose proof (mono_map pts [(fun x => IZR (ux x) / 10 ^ 19); (fun x => IZR (uy x) / 10 ^ 19); (fun x => IZR (uz x) / 10 ^ 19)] e (fun x => IZR (uw x) / 10 ^ 26) Hl) as M. cbn [map] in M. rewrite M.
  unfold apply_rule. rewrite map_map. f_equal. apply map_ext. intros (((x, y), z), w). reflexivity.
Qed.
