(** * Proofs about InputModel.v *)
From Coq Require Import String Ascii List ZArith QArith Qpower Bool Lia Qfield.
From Verif Require Import TextModel InputModel InputSpec.
Import ListNotations.
Local Open Scope Z_scope.

(** ** Characters *)
Lemma is_space_white c : is_space c = true <-> white c.
Proof.
  unfold is_space, white. split.
  - intro H. apply orb_true_iff in H. destruct H as [H|H].
    + apply andb_true_iff in H. destruct H as [H1 H2]. apply Nat.leb_le in H1. apply Nat.leb_le in H2.
      destruct (nat_of_ascii c) as [|[|[|[|[|[|[|[|[|[|[|[|[|[|n]]]]]]]]]]]]]]; cbn [In]; lia.
    + apply Nat.eqb_eq in H. cbn [In]. lia.
  - cbn [In]. intro H. apply orb_true_iff.
    destruct (Nat.eq_dec (nat_of_ascii c) 32) as [E|E].
    + right. apply Nat.eqb_eq. exact E.
    + left. apply andb_true_iff. split; apply Nat.leb_le; lia.
Qed.
Lemma is_space_false c : is_space c = false <-> ~ white c.
Proof. rewrite <- is_space_white. destruct (is_space c); split; congruence. Qed.

Lemma digit_digit_char d : is_digit d -> digit (digit_char d) = Some d.
Proof.
  unfold is_digit. intro H. assert (E : exists n, d = Z.of_nat n) by (exists (Z.to_nat d); lia). destruct E as [n ->].
  unfold digit_char. rewrite Nat2Z.id.
  destruct n as [|[|[|[|[|[|[|[|[|[|n]]]]]]]]]]; try reflexivity. lia.
Qed.
Lemma digit_Some c d : digit c = Some d -> is_digit d /\ c = digit_char d.
Proof.
  unfold digit. destruct ((48 <=? nat_of_ascii c) && (nat_of_ascii c <=? 57))%nat eqn:E; [|discriminate].
  intro H. injection H as H. subst d. apply andb_true_iff in E. destruct E as [E1 E2].
  apply Nat.leb_le in E1. apply Nat.leb_le in E2. split; [unfold is_digit; lia|].
  unfold digit_char. rewrite Nat2Z.id. rewrite <- (ascii_nat_embedding c) at 1. f_equal. lia.
Qed.
Lemma digit_None c : (forall d, is_digit d -> c <> digit_char d) -> digit c = None.
Proof. intro H. destruct (digit c) as [d|] eqn:E; [|reflexivity]. apply digit_Some in E. destruct E as [E1 E2]. destruct (H d E1 E2). Qed.

(** a character that is not a digit, given by the value of [digit] *)
Lemma digit_not_space c d : digit c = Some d -> is_space c = false.
Proof.
  unfold digit, is_space. destruct ((48 <=? nat_of_ascii c) && (nat_of_ascii c <=? 57))%nat eqn:E; [|discriminate]. intros _.
  apply andb_true_iff in E. destruct E as [E1 E2]. apply Nat.leb_le in E1. apply Nat.leb_le in E2.
  apply orb_false_iff. split; [apply andb_false_iff; right; apply Nat.leb_gt; lia | apply Nat.eqb_neq; lia].
Qed.
Lemma digit_not_sign c d : digit c = Some d -> take_sign (c :: nil) = (false, c :: nil) /\ (c =? "-")%char = false /\ (c =? "+")%char = false
  /\ (c =? ".")%char = false /\ is_e c = false.
Proof.
  intro H. assert (N : forall k, digit k = None -> (c =? k)%char = false).
  { intros k Hk. apply Ascii.eqb_neq. intros ->. congruence. }
  assert (E1 := N "-"%char eq_refl). assert (E2 := N "+"%char eq_refl). assert (E3 := N "."%char eq_refl).
  assert (E4 := N "e"%char eq_refl). assert (E5 := N "E"%char eq_refl).
  unfold take_sign, is_e. rewrite E1, E2, E3, E4, E5. auto.
Qed.

(** ** Digits *)
Lemma take_digits_stop t : (match t with [] => True | c :: _ => digit c = None end) -> take_digits t = ([], t).
Proof. destruct t as [|c t]; intro H; [reflexivity|]. cbn [take_digits]. rewrite H. reflexivity. Qed.
Lemma take_digits_map ds t : Forall is_digit ds -> (match t with [] => True | c :: _ => digit c = None end) ->
  take_digits (map digit_char ds ++ t) = (ds, t).
Proof.
  intros H Ht. induction H as [|d ds Hd H IH]; [apply take_digits_stop, Ht|].
  change (map digit_char (d :: ds) ++ t) with (digit_char d :: (map digit_char ds ++ t)).
  cbn [take_digits]. rewrite (digit_digit_char d Hd), IH. reflexivity.
Qed.
Lemma take_digits_inv t ds r : take_digits t = (ds, r) ->
  Forall is_digit ds /\ t = map digit_char ds ++ r /\ (match r with [] => True | c :: _ => digit c = None end).
Proof.
  revert ds r. induction t as [|c t IH]; intros ds r; cbn [take_digits].
  - intro H. injection H as <- <-. repeat split; constructor.
  - destruct (digit c) as [d|] eqn:E.
    + destruct (take_digits t) as [ds' r'] eqn:Et. intro H. injection H as <- <-.
      destruct (IH _ _ eq_refl) as [I1 [I2 I3]]. apply digit_Some in E. destruct E as [E1 E2].
      repeat split; [constructor; assumption | rewrite E2, I2 at 1; reflexivity | exact I3].
    + intro H. injection H as <- <-. repeat split; [constructor | exact E].
Qed.

Lemma fold_digits ds a : fold_left (fun a d => 10 * a + d) ds a = a * 10 ^ Z.of_nat (length ds) + positional ds.
Proof.
  revert a. induction ds as [|d ds IH]; intro a; [cbn [fold_left length positional]; change (Z.of_nat 0) with 0; lia|].
  cbn [fold_left positional]. rewrite IH.
  change (length (d :: ds)) with (S (length ds)). rewrite Nat2Z.inj_succ, Z.pow_succ_r by lia. ring.
Qed.
Lemma digits_value_positional ds : digits_value ds = positional ds.
Proof. unfold digits_value. rewrite fold_digits. ring. Qed.
Lemma positional_app a b : positional (a ++ b) = positional a * 10 ^ Z.of_nat (length b) + positional b.
Proof. rewrite <- !digits_value_positional. unfold digits_value. rewrite fold_left_app, fold_digits, !fold_digits. ring_simplify. reflexivity. Qed.

Lemma signed_with_sign (s : option bool) z : signed (match s with Some true => true | _ => false end) z = with_sign s z.
Proof. destruct s as [[|]|]; reflexivity. Qed.

Lemma decimal_power m e : decimal_value (m, e) = Qred (inject_Z m * inject_Z 10 ^ e).
Proof.
  unfold decimal_value. apply Qred_complete. destruct (Z.leb_spec 0 e) as [H|H].
  - rewrite inject_Z_mult.
    rewrite <- (Z2Nat.id e) by lia. generalize (Z.to_nat e) as n. intro n.
    assert (P : (inject_Z (10 ^ Z.of_nat n) == inject_Z 10 ^ Z.of_nat n)%Q).
    { induction n as [|n IH]; [reflexivity|].
      rewrite Nat2Z.inj_succ, Z.pow_succ_r by lia. rewrite inject_Z_mult, IH.
      unfold Z.succ. rewrite Qpower_plus by (intro Hc; discriminate Hc). change (inject_Z 10 ^ 1)%Q with (inject_Z 10). ring. }
    rewrite P. reflexivity.
  - assert (P : forall n, (inject_Z (10 ^ Z.of_nat n) == inject_Z 10 ^ Z.of_nat n)%Q).
    { intro n. induction n as [|n IH]; [reflexivity|].
      rewrite Nat2Z.inj_succ, Z.pow_succ_r by lia. rewrite inject_Z_mult, IH.
      unfold Z.succ. rewrite Qpower_plus by (intro Hc; discriminate Hc). change (inject_Z 10 ^ 1)%Q with (inject_Z 10). ring. }
    assert (E : e = - Z.of_nat (Z.to_nat (- e))) by lia. rewrite E. set (n := Z.to_nat (- e)).
    rewrite Z.opp_involutive, Qpower_opp, <- P.
    assert (Hp : 0 < 10 ^ Z.of_nat n) by (apply Z.pow_pos_nonneg; lia).
    rewrite (Qmake_Qdiv m (Z.to_pos (10 ^ Z.of_nat n))). rewrite Z2Pos.id by exact Hp. reflexivity.
Qed.

Lemma pow10_nz z : ~ (inject_Z 10 ^ z == 0)%Q.
Proof. apply Qpower_not_0. intro H. discriminate H. Qed.
Lemma inject_pow n : (inject_Z (10 ^ Z.of_nat n) == inject_Z 10 ^ Z.of_nat n)%Q.
Proof.
  induction n as [|n IH]; [reflexivity|].
  rewrite Nat2Z.inj_succ, Z.pow_succ_r by lia. rewrite inject_Z_mult, IH.
  unfold Z.succ. rewrite Qpower_plus by (intro Hc; discriminate Hc). change (inject_Z 10 ^ 1)%Q with (inject_Z 10). ring.
Qed.

Lemma scan_value l : decimal_value (with_sign (l_sign l) (positional (l_int l ++ fraction l)),
                                    exponent l - Z.of_nat (length (fraction l))) = literal_value l.
Proof.
  rewrite decimal_power. unfold literal_value. apply Qred_complete.
  unfold Z.sub. rewrite Qpower_plus by (intro Hc; discriminate Hc). rewrite Qpower_opp.
  set (f := length (fraction l)).
  assert (S : (inject_Z (with_sign (l_sign l) (positional (l_int l ++ fraction l)))
               == inject_Z (with_sign (l_sign l) (positional (l_int l))) * inject_Z 10 ^ Z.of_nat f
                  + inject_Z (with_sign (l_sign l) (positional (fraction l))))%Q).
  { rewrite positional_app, <- inject_pow, <- inject_Z_mult, <- inject_Z_plus.
    destruct (l_sign l) as [[|]|]; cbn [with_sign]; fold f; [|reflexivity|reflexivity].
    assert (E : - (positional (l_int l) * 10 ^ Z.of_nat f + positional (fraction l))
                = - positional (l_int l) * 10 ^ Z.of_nat f + - positional (fraction l)) by ring.
    rewrite E. reflexivity. }
  rewrite S. field. apply pow10_nz.
Qed.

(** ** Literals *)
Definition no_digit (t : text) : Prop := match t with [] => True | c :: _ => digit c = None end.

Lemma take_sign_text s t : (match t with [] => True | c :: _ => (c =? "-")%char = false /\ (c =? "+")%char = false end) ->
  take_sign (sign_text s ++ t) = (match s with Some true => true | _ => false end, t).
Proof.
  intro H. destruct s as [[|]|]; [reflexivity|reflexivity|].
  destruct t as [|c t]; [reflexivity|]. destruct H as [H1 H2]. cbn [sign_text app take_sign]. rewrite H1, H2. reflexivity.
Qed.
Lemma take_sign_inv t b r : take_sign t = (b, r) -> exists s, t = sign_text s ++ r /\ b = (match s with Some true => true | _ => false end).
Proof.
  unfold take_sign. destruct t as [|c t].
  - intro H. injection H as <- <-. exists None. split; reflexivity.
  - destruct (Ascii.eqb_spec c "-") as [->|_].
    + intro H. injection H as <- <-. exists (Some true). split; reflexivity.
    + destruct (Ascii.eqb_spec c "+") as [->|_].
      * intro H. injection H as <- <-. exists (Some false). split; reflexivity.
      * intro H. injection H as <- <-. exists None. split; reflexivity.
Qed.
Lemma digits_head ds t : Forall is_digit ds -> ds <> [] ->
  match map digit_char ds ++ t with [] => True | c :: _ => (c =? "-")%char = false /\ (c =? "+")%char = false end.
Proof.
  intros H Hn. destruct ds as [|d ds]; [congruence|]. inversion H as [|? ? Hd _]; subst.
  cbn [map app]. destruct (digit_not_sign _ _ (digit_digit_char d Hd)) as [_ [H1 [H2 _]]]. split; assumption.
Qed.

Lemma scan_literal l r : literal_ok l -> ends l r -> exists d, scan_number (literal_text l ++ r) = (Some d, r) /\ decimal_value d = literal_value l.
Proof.
  intros [Hi [Hf [He [Hn Hen]]]] Hend.
  exists (with_sign (l_sign l) (positional (l_int l ++ fraction l)), exponent l - Z.of_nat (length (fraction l))).
  split; [|apply scan_value].
  unfold literal_text, scan_number. rewrite <- !app_assoc.
  set (T3 := match l_exp l with
             | Some (big, s, ds) => (if big then "E"%char else "e"%char) :: sign_text s ++ map digit_char ds
             | None => [] end ++ r).
  set (T2 := match l_frac l with Some f => "."%char :: map digit_char f | None => [] end ++ T3).
  assert (N3 : no_digit T3).
  { unfold T3, no_digit. destruct (l_exp l) as [[[[|] s] ds]|] eqn:Ee; [reflexivity|reflexivity|].
    cbn [app]. destruct r as [|c r]; [exact I|]. apply digit_None. destruct Hend as [H _]. exact H. }
  assert (N2 : no_digit T2).
  { unfold T2. destruct (l_frac l); [reflexivity|exact N3]. }
  assert (S1 : take_sign (sign_text (l_sign l) ++ map digit_char (l_int l) ++ T2)
               = (match l_sign l with Some true => true | _ => false end, map digit_char (l_int l) ++ T2)).
  { apply take_sign_text. destruct (l_int l) as [|d ds] eqn:El.
    - cbn [map app]. unfold T2. unfold fraction in Hn. destruct (l_frac l) as [f|]; [|destruct Hn; reflexivity].
      cbn [app]. split; reflexivity.
    - apply digits_head; [exact Hi|discriminate]. }
  rewrite S1, (take_digits_map _ _ Hi N2). cbv beta iota.
  assert (P2 : take_fraction T2 = (fraction l, T3)).
  { unfold take_fraction, T2, fraction in *. destruct (l_frac l) as [f|] eqn:Ef.
    - cbn [app]. change (("." =? ".")%char) with true. cbv iota. apply take_digits_map; [exact Hf|exact N3].
    - cbn [app]. destruct T3 as [|c T3'] eqn:E3; [reflexivity|].
      assert (Hc : (c =? ".")%char = false).
      { apply Ascii.eqb_neq. unfold T3 in E3. destruct (l_exp l) as [[[[|] s] ds]|] eqn:Ee.
        - cbn [app] in E3. injection E3 as <- _. discriminate.
        - cbn [app] in E3. injection E3 as <- _. discriminate.
        - cbn [app] in E3. rewrite E3 in Hend. destruct Hend as [_ [H _]]. apply H; [exact Ef|exact Ee]. }
      rewrite Hc. reflexivity. }
  rewrite P2. cbv beta iota.
  destruct (l_int l ++ fraction l) as [|d0 ds0] eqn:Eall; [destruct Hn; reflexivity|]. rewrite <- Eall.
  rewrite digits_value_positional, signed_with_sign.
  unfold T3, exponent, exponent_digits in *. destruct (l_exp l) as [[[big s] ds]|] eqn:Ee.
  - cbn [app]. replace (is_e (if big then "E"%char else "e"%char)) with true by (destruct big; reflexivity).
    rewrite <- app_assoc, take_sign_text by (apply digits_head; assumption).
    rewrite take_digits_map; [|exact He|].
    2:{ destruct r as [|c r]; [exact I|]. apply digit_None. destruct Hend as [H _]. exact H. }
    destruct ds as [|d1 ds1] eqn:Ed; [destruct Hen; reflexivity|]. rewrite <- Ed.
    rewrite digits_value_positional, signed_with_sign. reflexivity.
  - cbn [app]. destruct r as [|c r]; [reflexivity|].
    assert (Hc : is_e c = false).
    { destruct Hend as [_ [_ H]]. destruct (H Ee) as [H1 H2]. unfold is_e.
      apply Ascii.eqb_neq in H1. apply Ascii.eqb_neq in H2. rewrite H1, H2. reflexivity. }
    rewrite Hc. reflexivity.
Qed.

Lemma no_digit_ends t : no_digit t -> match t with [] => True | c :: _ => forall d, is_digit d -> c <> digit_char d end.
Proof.
  destruct t as [|c t]; intro H; [exact I|]. cbn in H. intros d Hd ->. rewrite (digit_digit_char d Hd) in H. discriminate H.
Qed.

Lemma scan_inv t d r : scan_number t = (Some d, r) ->
  exists l, literal_ok l /\ ends l r /\ t = literal_text l ++ r /\ decimal_value d = literal_value l.
Proof.
  unfold scan_number. destruct (take_sign t) as [neg t1] eqn:E1.
  destruct (take_sign_inv _ _ _ E1) as [s [Et ->]].
  destruct (take_digits t1) as [ip t2] eqn:E2. destruct (take_digits_inv _ _ _ E2) as [Hi [Et1 N2]].
  set (P := take_fraction t2).
  assert (HP : exists fo t3, P = (match fo with Some f => f | None => [] end, t3)
     /\ Forall is_digit (match fo with Some f => f | None => [] end)
     /\ t2 = (match fo with Some f => "."%char :: map digit_char f | None => [] end) ++ t3 /\ no_digit t3
     /\ (fo = None -> match t3 with [] => True | c :: _ => c <> "."%char end)).
  { unfold P, take_fraction. destruct t2 as [|c t2'].
    - exists None, []. repeat split; constructor.
    - destruct (Ascii.eqb_spec c ".") as [->|Hc].
      + destruct (take_digits t2') as [fp t3] eqn:E3. destruct (take_digits_inv _ _ _ E3) as [Hf [Ef N3]].
        exists (Some fp), t3. repeat split; [exact Hf | cbn [app]; rewrite Ef; reflexivity | exact N3 | discriminate].
      + exists None, (c :: t2'). repeat split; [constructor | exact N2 | intros _; exact Hc]. }
  destruct HP as [fo [t3 [EP [Hf [Et2 [N3 Hdot]]]]]]. rewrite EP. clear EP P.
  set (fp := match fo with Some f => f | None => [] end) in *.
  destruct (ip ++ fp) as [|a0 all0] eqn:Eall; [discriminate|].
  assert (Hne : ip ++ fp <> []) by (rewrite Eall; discriminate). rewrite <- Eall. clear Eall a0 all0.
  rewrite digits_value_positional, signed_with_sign.
  assert (Base : forall eo : option (bool * option bool * list Z), t3 = (match eo with Some (big, s', ds) => (if big then "E"%char else "e"%char) :: sign_text s' ++ map digit_char ds | None => [] end) ++ r ->
     t = literal_text (mkLiteral s ip fo eo) ++ r).
  { intros eo E. unfold literal_text. cbn [l_sign l_int l_frac l_exp]. rewrite Et, Et1, Et2, E, <- !app_assoc. reflexivity. }
  assert (Val : forall eo, d = (with_sign s (positional (ip ++ fp)), exponent (mkLiteral s ip fo eo) - Z.of_nat (length fp)) ->
     decimal_value d = literal_value (mkLiteral s ip fo eo)).
  { intros eo ->. exact (scan_value (mkLiteral s ip fo eo)). }
  assert (Plain : forall t', t3 = t' -> (match t' with [] => True | c :: _ => is_e c = false end) ->
     (Some (with_sign s (positional (ip ++ fp)), - Z.of_nat (length fp)), t') = (Some d, r) ->
     exists l, literal_ok l /\ ends l r /\ t = literal_text l ++ r /\ decimal_value d = literal_value l).
  { intros t' Et3 He H. injection H as Hd Hr. subst t'. exists (mkLiteral s ip fo None). split; [|split; [|split]].
    - repeat split; try assumption; [constructor; [unfold is_digit; lia|constructor] | discriminate].
    - unfold ends. cbn [l_frac l_exp]. rewrite <- Hr. destruct t3 as [|c t4]; [exact I|].
      split; [apply (no_digit_ends (c :: t4) N3)|]. split; [intros H _; apply Hdot; exact H|].
      intros _. cbv iota in He. unfold is_e in He. apply orb_false_iff in He. destruct He as [H1 H2].
      split; [apply Ascii.eqb_neq, H1|apply Ascii.eqb_neq, H2].
    - apply (Base None). rewrite Hr. reflexivity.
    - apply (Val None). rewrite <- Hd. reflexivity. }
  destruct t3 as [|c t4] eqn:E3; [apply (Plain []); [reflexivity|exact I]|].
  destruct (is_e c) eqn:Ec; [|apply (Plain (c :: t4)); [reflexivity|exact Ec]].
  destruct (take_sign t4) as [eneg r1] eqn:E4. destruct (take_sign_inv _ _ _ E4) as [s' [Et4 ->]].
  destruct (take_digits r1) as [ed r2] eqn:E5. destruct (take_digits_inv _ _ _ E5) as [Hed [Er1 N5]].
  destruct ed as [|e0 ed0] eqn:Eed; [discriminate|]. rewrite <- Eed in *.
  intro H. injection H as Hd Hr. subst r2. rewrite digits_value_positional, signed_with_sign in Hd.
  assert (Hc : exists big : bool, c = if big then "E"%char else "e"%char).
  { unfold is_e in Ec. apply orb_true_iff in Ec. destruct Ec as [Ec|Ec]; apply Ascii.eqb_eq in Ec;
      [exists false|exists true]; exact Ec. }
  destruct Hc as [big Hc]. exists (mkLiteral s ip fo (Some (big, s', ed))). split; [|split; [|split]].
  - repeat split; try assumption. rewrite Eed. discriminate.
  - unfold ends. cbn [l_frac l_exp]. destruct r as [|c' r]; [exact I|].
    split; [apply (no_digit_ends (c' :: r) N5)|]. split; [intros _ H; discriminate H|intro H; discriminate H].
  - apply (Base (Some (big, s', ed))). rewrite Hc, Et4, Er1, <- app_comm_cons, <- app_assoc. reflexivity.
  - apply (Val (Some (big, s', ed))). rewrite <- Hd. reflexivity.
Qed.

Lemma literal_head l : literal_ok l -> exists c t, literal_text l = c :: t /\ is_space c = false.
Proof.
  intros [Hi [_ [_ [Hn _]]]]. unfold literal_text. destruct (l_sign l) as [[|]|].
  - cbn [sign_text app]. eexists _, _. split; [reflexivity|reflexivity].
  - cbn [sign_text app]. eexists _, _. split; [reflexivity|reflexivity].
  - cbn [sign_text app]. destruct (l_int l) as [|d ds].
    + unfold fraction in Hn. destruct (l_frac l) as [f|]; [|destruct Hn; reflexivity].
      cbn [map app]. eexists _, _. split; reflexivity.
    + inversion Hi as [|? ? Hd _]; subst. cbn [map app]. eexists _, _. split; [reflexivity|].
      exact (digit_not_space _ _ (digit_digit_char d Hd)).
Qed.
Lemma skip_white w t : Forall white w -> skip_space (w ++ t) = skip_space t.
Proof.
  induction 1 as [|c w Hc H IH]; [reflexivity|]. cbn [app skip_space]. rewrite (proj2 (is_space_white c) Hc). exact IH.
Qed.
Lemma skip_inv t : exists w, Forall white w /\ t = w ++ skip_space t /\ (match skip_space t with [] => True | c :: _ => is_space c = false end).
Proof.
  induction t as [|c t [w [H1 [H2 H3]]]]; [exists []; repeat split; constructor|].
  cbn [skip_space]. destruct (is_space c) eqn:E.
  - exists (c :: w). split; [constructor; [apply is_space_white, E|exact H1]|]. split; [cbn [app]; rewrite <- H2; reflexivity|exact H3].
  - exists []. repeat split; [constructor|exact E].
Qed.

(** ** Streams *)
Section Rounding.
Variable rnd : Q -> Q.

Lemma extract_literal old w l r b : Forall white w -> literal_ok l -> ends l r -> b = false ->
  extract_double rnd old (mkStream (w ++ literal_text l ++ r) b false) = (Some (rnd (literal_value l)), mkStream r (empty r) false).
Proof.
  intros Hw Hl He ->. unfold extract_double. cbn [good eofbit failbit negb andb rest].
  rewrite skip_white by exact Hw. destruct (literal_head l Hl) as [c [t [Hc Hs]]].
  destruct (scan_literal l r Hl He) as [d [Hd Hv]]. rewrite Hc in *. cbn [app skip_space] in *. rewrite Hs, Hd, Hv. reflexivity.
Qed.

Lemma take_until_label n g t : ~ In "="%char g -> (length g <= n)%nat -> take_until n "=" (g ++ "="%char :: t) = (g, "="%char :: t).
Proof.
  revert n. induction g as [|c g IH]; intros n Hg Hn.
  - destruct n; reflexivity.
  - destruct n as [|n]; [cbn in Hn; lia|]. cbn [app take_until].
    assert (Hc : (c =? "=")%char = false) by (apply Ascii.eqb_neq; intro H; apply Hg; left; exact H).
    rewrite Hc, IH; [reflexivity | intro H; apply Hg; right; exact H | cbn in Hn; lia].
Qed.
Lemma skip_label g t : label g -> skip_to_next_data (open_stream (g ++ "="%char :: t)) = open_stream t.
Proof.
  intros [H1 [H2 H3]]. unfold skip_to_next_data, get_buffer, open_stream. cbn [good eofbit failbit negb andb rest].
  rewrite take_until_label by (try exact H2; lia). destruct g as [|c g]; [congruence|]. reflexivity.
Qed.

(** what is left in the stream after a number: at its end eofbit is set *)
Definition after (r : text) : istream := mkStream r (empty r) false.
Lemma after_open g t : label g -> after (g ++ t) = open_stream (g ++ t).
Proof. intros [H _]. destruct g; [congruence|reflexivity]. Qed.
Lemma says_label_number x t r : says_number x t r -> after t = open_stream t.
Proof. intros (g & w & l & -> & H & _). apply after_open, H. Qed.
Lemma says_label_vector x t r : says_vector x t r -> after t = open_stream t.
Proof. intros (g & t' & -> & H & _). apply after_open, H. Qed.
Lemma says_label_bool x t r : says_bool x t r -> after t = open_stream t.
Proof. intros (g & w & c & -> & H & _). apply after_open, H. Qed.

Lemma number_says x t r : says_number x t r -> read_number rnd (open_stream t) = Ret (rnd x, after r).
Proof.
  intros (g & w & l & -> & Hg & Hw & Hl & He & ->). unfold read_number. rewrite skip_label by exact Hg.
  unfold open_stream. rewrite extract_literal by (try assumption; reflexivity). reflexivity.
Qed.
Lemma bool_says b t r : says_bool b t r -> read_bool (open_stream t) = Ret (b, open_stream r).
Proof.
  intros (g & w & c & -> & Hg & Hw & Hc & Hb). unfold read_bool. rewrite skip_label by exact Hg.
  unfold extract_char, open_stream. cbn [good eofbit failbit negb andb rest].
  rewrite skip_white by exact Hw. cbn [skip_space]. rewrite (proj2 (is_space_false c) Hc).
  f_equal. f_equal. apply eq_true_iff_eq. rewrite Hb, existsb_exists. split.
  - intros [y [H1 H2]]. apply Ascii.eqb_eq in H2. subst y. exact H1.
  - intro H. exists c. split; [exact H|apply Ascii.eqb_refl].
Qed.

Lemma vector_text_loop x t r : vector_text x t r -> forall fuel number acc, (length x <= fuel)%nat ->
  vector_loop rnd fuel number acc (open_stream t) = Ret (acc ++ map (fun q => Some (rnd q)) x, open_stream r).
Proof.
  induction 1 as [w l c r Hw Hl He Hc|w l x t r Hw Hl He H IH]; intros fuel number acc Hf.
  - destruct fuel as [|fuel]; [cbn in Hf; lia|]. cbn [vector_loop]. unfold open_stream at 1.
    rewrite extract_literal by (try assumption; reflexivity).
    unfold get_char, after. cbn [good eofbit failbit negb andb rest empty].
    apply Ascii.eqb_neq in Hc. rewrite Hc. reflexivity.
  - destruct fuel as [|fuel]; [cbn in Hf; lia|]. cbn [vector_loop]. unfold open_stream at 1.
    rewrite extract_literal by (try assumption; reflexivity).
    unfold get_char, after. cbn [good eofbit failbit negb andb rest empty].
    change (("," =? ",")%char) with true. cbv iota. change (mkStream t false false) with (open_stream t).
    rewrite IH by (cbn in Hf; lia). rewrite <- app_assoc. reflexivity.
Qed.
Lemma all_written_map l : all_written (map (fun q => Some (rnd q)) l) = Some (map rnd l).
Proof. induction l as [|x l IH]; [reflexivity|]. cbn [map all_written]. rewrite IH. reflexivity. Qed.
Lemma vector_text_length x t r : vector_text x t r -> (length x + length r <= length t)%nat.
Proof.
  induction 1 as [w l c r Hw Hl He Hc|w l x t r Hw Hl He H IH]; cbn [length]; rewrite !app_length; cbn [length]; lia.
Qed.
Lemma vector_says x t r fuel : says_vector x t r -> (length t <= fuel)%nat ->
  read_vector rnd fuel (open_stream t) = Ret (map rnd x, open_stream r).
Proof.
  intros (g & t' & -> & Hg & Hv) Hf. unfold read_vector. rewrite skip_label by exact Hg.
  pose proof (vector_text_length _ _ _ Hv) as Hl. rewrite app_length in Hf. cbn [length] in Hf.
  rewrite (vector_text_loop _ _ _ Hv) by lia. cbn [ibind app]. rewrite all_written_map. reflexivity.
Qed.

(** ReadVector ends exactly on a vector *)
Lemma loop_failed fuel number acc s : failbit s = true -> vector_loop rnd fuel number acc s = Loop.
Proof.
  revert number acc s. induction fuel as [|fuel IH]; intros number acc s Hs; [reflexivity|]. cbn [vector_loop].
  unfold extract_double. assert (G : good s = false) by (unfold good; rewrite Hs; apply andb_false_r). rewrite G.
  unfold get_char. cbn [good eofbit failbit negb]. unfold good. cbn [eofbit failbit negb]. rewrite andb_false_r.
  change (("," =? ",")%char) with true. cbv iota. apply IH. reflexivity.
Qed.
Lemma loop_inv fuel number acc t v s : vector_loop rnd fuel number acc (open_stream t) = Ret (v, s) ->
  exists x r, vector_text x t r /\ s = open_stream r /\ v = acc ++ map (fun q => Some (rnd q)) x.
Proof.
  revert number acc t. induction fuel as [|fuel IH]; intros number acc t; [discriminate|]. cbn [vector_loop].
  unfold extract_double, open_stream at 1 2 3. cbn [good eofbit failbit negb andb rest].
  destruct (skip_inv t) as [w [Hw [Ht Hs]]]. destruct (skip_space t) as [|c0 t0] eqn:Es.
  - unfold get_char, good. cbn [eofbit failbit negb andb]. change (("," =? ",")%char) with true. cbv iota.
    rewrite loop_failed by reflexivity. discriminate.
  - destruct (scan_number (c0 :: t0)) as [[d|] r] eqn:En.
    + destruct (scan_inv _ _ _ En) as [l [Hl [He [Hlt Hv]]]]. rewrite Hlt in Ht.
      unfold get_char, good. cbn [eofbit failbit negb andb rest]. destruct r as [|c r].
      * cbn [empty negb andb]. change (("," =? ",")%char) with true. cbv iota. rewrite loop_failed by reflexivity. discriminate.
      * cbn [empty negb andb]. destruct (Ascii.eqb_spec c ",") as [->|Hc].
        -- intro H. change (mkStream r false false) with (open_stream r) in H.
           destruct (IH _ _ _ H) as [x [r' [H1 [H2 H3]]]].
           exists (literal_value l :: x), r'. split; [|split].
           ++ rewrite Ht. constructor; assumption.
           ++ exact H2.
           ++ rewrite H3, <- app_assoc, Hv. reflexivity.
        -- intro H. injection H as <- <-. exists [literal_value l], r. split; [|split].
           ++ rewrite Ht. constructor; assumption.
           ++ reflexivity.
           ++ rewrite Hv. reflexivity.
    + unfold get_char, good. cbn [eofbit failbit negb]. rewrite andb_false_r.
      change (("," =? ",")%char) with true. cbv iota. rewrite loop_failed by reflexivity. discriminate.
Qed.
Lemma loop_values fuel number acc s : (exists x, vector_loop rnd fuel number acc s = Ret x) \/ vector_loop rnd fuel number acc s = Loop.
Proof.
  revert number acc s. induction fuel as [|fuel IH]; intros number acc s; [right; reflexivity|]. cbn [vector_loop].
  destruct (extract_double rnd number s) as [n' s1]. destruct (get_char "," s1) as [c s2].
  destruct (c =? ",")%char; [apply IH|left; eexists; reflexivity].
Qed.

(** ** The directory *)
Lemma c_string_id t : (forall c, In c t -> nat_of_ascii c <> 0%nat) -> c_string t = t.
Proof.
  induction t as [|c t IH]; intro H; [reflexivity|]. cbn [c_string].
  assert (E : (nat_of_ascii c =? 0)%nat = false) by (apply Nat.eqb_neq, H; left; reflexivity).
  rewrite E, IH; [reflexivity|]. intros c' Hc. apply H. right. exact Hc.
Qed.
Lemma take_until_all n d g t : ~ In d g -> (length g <= n)%nat -> take_until n d (g ++ d :: t) = (g, d :: t).
Proof.
  revert n. induction g as [|c g IH]; intros n Hg Hn.
  - destruct n; [reflexivity|]. cbn [app take_until]. rewrite Ascii.eqb_refl. reflexivity.
  - destruct n as [|n]; [cbn in Hn; lia|]. cbn [app take_until].
    assert (Hc : (c =? d)%char = false) by (apply Ascii.eqb_neq; intro H; apply Hg; left; exact H).
    rewrite Hc, IH; [reflexivity | intro H; apply Hg; right; exact H | cbn in Hn; lia].
Qed.
Lemma take_until_cut n d g t : ~ In d g -> (n <= length g)%nat -> take_until n d (g ++ t) = (firstn n g, skipn n g ++ t).
Proof.
  revert n. induction g as [|c g IH]; intros n Hg Hn.
  - destruct n; [|cbn in Hn; lia]. destruct t; reflexivity.
  - destruct n as [|n]; [reflexivity|]. cbn [app take_until firstn skipn].
    assert (Hc : (c =? d)%char = false) by (apply Ascii.eqb_neq; intro H; apply Hg; left; exact H).
    rewrite Hc, IH; [reflexivity | intro H; apply Hg; right; exact H | cbn in Hn; lia].
Qed.
Lemma filter_keep (keep : ascii -> bool) l : (forall c, keep c = true <-> ~ white c) -> filter keep l = filter (fun c => negb (is_space c)) l.
Proof.
  intro H. apply filter_ext. intro c. apply eq_true_iff_eq. rewrite H, negb_true_iff. symmetry. apply is_space_false.
Qed.
Lemma removelast_snoc {A} (l : list A) x : removelast (l ++ [x]) = l.
Proof. rewrite removelast_app by discriminate. cbn [removelast]. apply app_nil_r. Qed.

Lemma string_says d t r : says_string d t r -> read_string (open_stream t) = Ret (d, open_stream r).
Proof.
  intros (g & body & r' & -> & Hg & -> & Hlen & Hb & _ & keep & Hk & ->). unfold read_string. rewrite skip_label by exact Hg.
  unfold get_buffer, open_stream. cbn [good eofbit failbit negb andb rest].
  change (body ++ ";"%char :: ascii_of_nat 10 :: r') with (body ++ [";"%char] ++ newline :: r').
  rewrite app_assoc. rewrite take_until_all.
  - cbn [empty]. rewrite c_string_id.
    + destruct (body ++ [";"%char]) as [|c0 b0] eqn:E; [destruct body; discriminate|]. rewrite <- E.
      rewrite removelast_snoc, <- (filter_keep keep) by exact Hk.
      destruct (body ++ [";"%char]) as [|c1 b1] eqn:E1; [destruct body; discriminate|]. reflexivity.
    + intros c Hc. apply in_app_iff in Hc. destruct Hc as [Hc|[<-|[]]]; [apply Hb, Hc|discriminate].
  - intro Hc. apply in_app_iff in Hc. destruct Hc as [Hc|[Hc|[]]]; [|discriminate Hc].
    destruct (Hb _ Hc) as [H _]. apply H. reflexivity.
  - rewrite app_length. cbn [length]. change (nat_of_ascii ";" - 1)%nat with 58%nat. lia.
Qed.

(** ** Conversions *)
Lemma to_integer_int bits x z : (x == inject_Z z)%Q -> - 2 ^ bits <= z < 2 ^ bits -> to_integer bits x = Ret z.
Proof.
  intros Hx Hz. unfold to_integer. assert (E : Z.quot (Qnum x) (Zpos (Qden x)) = z).
  { unfold Qeq in Hx. cbn [inject_Z Qnum Qden] in Hx. rewrite Z.mul_1_r in Hx. rewrite Hx. apply Z.quot_mul. discriminate. }
  rewrite E. destruct (Z.leb_spec (- 2 ^ bits) z); [|lia]. destruct (Z.ltb_spec z (2 ^ bits)); [reflexivity|lia].
Qed.
Lemma int_says x z t r : says_number x t r -> (rnd x == inject_Z z)%Q -> - 2 ^ 31 <= z < 2 ^ 31 -> read_int rnd (open_stream t) = Ret (z, after r).
Proof. intros H Hx Hz. unfold read_int. rewrite (number_says _ _ _ H). cbn [ibind]. rewrite (to_integer_int _ _ _ Hx Hz). reflexivity. Qed.
Lemma long_says x z t r : says_number x t r -> (rnd x == inject_Z z)%Q -> - 2 ^ 63 <= z < 2 ^ 63 -> read_long rnd (open_stream t) = Ret (z, after r).
Proof. intros H Hx Hz. unfold read_long. rewrite (number_says _ _ _ H). cbn [ibind]. rewrite (to_integer_int _ _ _ Hx Hz). reflexivity. Qed.

Lemma says_number_length x t r : says_number x t r -> (length r <= length t)%nat.
Proof. intros (g & w & l & -> & _). rewrite app_length. cbn [length]. rewrite !app_length. lia. Qed.
Lemma says_vector_length x t r : says_vector x t r -> (length r <= length t)%nat.
Proof. intros (g & t' & -> & _ & H). pose proof (vector_text_length _ _ _ H). rewrite app_length. cbn [length]. lia. Qed.
Lemma says_bool_length x t r : says_bool x t r -> (length r <= length t)%nat.
Proof. intros (g & w & c & -> & _). rewrite app_length. cbn [length]. rewrite !app_length. cbn [length]. lia. Qed.
Lemma says_string_length x t r : says_string x t r -> (length r <= length t)%nat.
Proof. intros (g & b & r' & -> & _). rewrite app_length. cbn [length]. rewrite !app_length. cbn [length]. lia. Qed.
Lemma says_vectors_length x t r : says_vectors x t r -> (length r <= length t)%nat.
Proof. induction 1 as [|x l t t1 r H1 H2 IH]; [lia|]. pose proof (says_vector_length _ _ _ H1). lia. Qed.

Lemma sieves_say x t r fuel : says_vectors x t r -> (length t <= fuel)%nat -> Forall (fun v => length v = 3%nat) x ->
  read_sieves rnd fuel (length x) (open_stream t) = Ret (map (map rnd) x, open_stream r).
Proof.
  intros H Hf. induction H as [|x l t t1 r H1 H2 IH]; intro H3; [reflexivity|]. inversion H3 as [|? ? H4 H5]; subst.
  cbn [length read_sieves]. rewrite (vector_says _ _ _ _ H1 Hf). cbn [ibind]. rewrite map_length, H4. cbn [Nat.eqb].
  pose proof (says_vector_length _ _ _ H1). rewrite IH by (try assumption; lia). reflexivity.
Qed.
Lemma sieves_bad x t r fuel : says_vectors x t r -> (length t <= fuel)%nat -> ~ Forall (fun v => length v = 3%nat) x ->
  read_sieves rnd fuel (length x) (open_stream t) = Exc.
Proof.
  intros H Hf. induction H as [|x l t t1 r H1 H2 IH]; intro H3; [destruct H3; constructor|].
  cbn [length read_sieves]. rewrite (vector_says _ _ _ _ H1 Hf). cbn [ibind]. rewrite map_length.
  destruct (Nat.eqb_spec (length x) 3) as [E|E]; [|reflexivity].
  pose proof (says_vector_length _ _ _ H1). rewrite IH; [reflexivity|lia|]. intro H4. apply H3. constructor; assumption.
Qed.
End Rounding.

(** ** From computed splits to the specification, used to show that concrete files are of the documented form *)
Lemma take_until_inv n t g c r : take_until n "=" t = (g, c :: r) -> ("=" =? c)%char = true ->
  t = g ++ "="%char :: r /\ ~ In "="%char g /\ (length g <= n)%nat.
Proof.
  revert t g. induction n as [|n IH]; intros t g; cbn [take_until].
  - destruct t as [|c0 t0]; [discriminate|]. intro H. injection H as <- <- <-. intro Hc. apply Ascii.eqb_eq in Hc. subst c0.
    split; [reflexivity|]. split; [intros []|cbn; lia].
  - destruct t as [|c0 t]; [discriminate|]. destruct (Ascii.eqb_spec c0 "=") as [->|H0].
    + intro H. injection H as <- <- <-. intros _. split; [reflexivity|]. split; [intros []|cbn; lia].
    + destruct (take_until n "=" t) as [a r'] eqn:E. intro H. injection H as <- ->. intro Hc.
      destruct (IH _ _ E Hc) as [H1 [H2 H3]]. rewrite H1. split; [reflexivity|]. split; [|cbn; lia].
      intros [H|H]; [apply H0; exact H|apply H2, H].
Qed.
Definition entry (t : text) : option text :=
  match take_until 999 "=" t with (_ :: _, c :: r) => if ("=" =? c)%char then Some r else None | _ => None end.
Lemma entry_inv t r : entry t = Some r -> exists g, label g /\ t = g ++ "="%char :: r.
Proof.
  unfold entry. destruct (take_until 999 "=" t) as [[|c0 g] [|c r']] eqn:E; try discriminate.
  destruct ("=" =? c)%char eqn:Ec; [|discriminate]. intro H. injection H as ->.
  destruct (take_until_inv _ _ _ _ _ E Ec) as [H1 [H2 H3]]. exists (c0 :: g). split; [|exact H1].
  split; [discriminate|]. split; assumption.
Qed.
Definition number_at (t : text) : option (Q * text) :=
  match scan_number (skip_space t) with (Some d, r) => Some (decimal_value d, r) | _ => None end.
Lemma number_at_inv t x r : number_at t = Some (x, r) ->
  exists w l, t = w ++ literal_text l ++ r /\ Forall white w /\ literal_ok l /\ ends l r /\ x = literal_value l.
Proof.
  unfold number_at. destruct (scan_number (skip_space t)) as [[d|] r'] eqn:E; [|discriminate]. intro H. injection H as <- ->.
  destruct (scan_inv _ _ _ E) as [l [H1 [H2 [H3 H4]]]]. destruct (skip_inv t) as [w [W1 [W2 _]]].
  exists w, l. rewrite <- H3. repeat split; try assumption; apply H1.
Qed.
Lemma number_complete x t t' r : entry t = Some t' -> number_at t' = Some (x, r) -> says_number x t r.
Proof.
  intros H1 H2. destruct (entry_inv _ _ H1) as [g [G1 G2]]. destruct (number_at_inv _ _ _ H2) as [w [l [L1 [L2 [L3 [L4 L5]]]]]].
  exists g, w, l. rewrite <- L1. exact (conj G2 (conj G1 (conj L2 (conj L3 (conj L4 L5))))).
Qed.
Fixpoint vector_at (n : nat) (t : text) : option (list Q * text) :=
  match n with
  | O => None
  | S k => match number_at t with
           | Some (x, c :: r) => if (c =? ",")%char then match vector_at k r with Some (v, r') => Some (x :: v, r') | None => None end
                                 else Some ([x], r)
           | _ => None
           end
  end.
Lemma vector_at_inv n t x r : vector_at n t = Some (x, r) -> vector_text x t r.
Proof.
  revert t x. induction n as [|n IH]; intros t x; [discriminate|]. cbn [vector_at].
  destruct (number_at t) as [[y [|c r']]|] eqn:E; try discriminate.
  destruct (number_at_inv _ _ _ E) as [w [l [L1 [L2 [L3 [L4 L5]]]]]]. destruct (Ascii.eqb_spec c ",") as [->|Hc].
  - destruct (vector_at n r') as [[v r'']|] eqn:Ev; [|discriminate]. intro H. injection H as <- ->.
    rewrite L1, L5. constructor; try assumption. apply IH, Ev.
  - intro H. injection H as <- ->. rewrite L1, L5. constructor; assumption.
Qed.
Lemma vector_complete n x t t' r : entry t = Some t' -> vector_at n t' = Some (x, r) -> says_vector x t r.
Proof.
  intros H1 H2. destruct (entry_inv _ _ H1) as [g [G1 G2]]. exists g, t'. split; [exact G2|]. split; [exact G1|].
  exact (vector_at_inv _ _ _ _ H2).
Qed.
Lemma bool_complete b t t' c r : entry t = Some t' -> skip_space t' = c :: r -> existsb (Ascii.eqb c) (txt "TtYy1") = b -> says_bool b t r.
Proof.
  intros H1 H2 <-. destruct (entry_inv _ _ H1) as [g [G1 G2]]. destruct (skip_inv t') as [w [W1 [W2 W3]]]. rewrite H2 in W2, W3.
  exists g, w, c. rewrite <- W2. split; [exact G2|]. split; [exact G1|]. split; [exact W1|]. split; [apply is_space_false, W3|].
  rewrite existsb_exists. split.
  - intros [y [Y1 Y2]]. apply Ascii.eqb_eq in Y2. subst y. exact Y1.
  - intro H. exists c. split; [exact H|apply Ascii.eqb_refl].
Qed.
Lemma string_complete t t' body r : entry t = Some t' -> t' = body ++ ";"%char :: newline :: r -> (length body <= 57)%nat ->
  forallb (fun c => negb (nat_of_ascii c =? 10)%nat && negb (nat_of_ascii c =? 0)%nat) body = true ->
  says_string (filter (fun c => negb (is_space c)) body) t (newline :: r).
Proof.
  intros H1 H2 H3 H4. destruct (entry_inv _ _ H1) as [g [G1 G2]]. exists g, body, r. rewrite <- H2.
  split; [exact G2|]. split; [exact G1|]. split; [reflexivity|]. split; [exact H3|]. split; [|split].
  - intros c Hc. rewrite forallb_forall in H4. specialize (H4 c Hc). apply andb_true_iff in H4. rewrite !negb_true_iff, !Nat.eqb_neq in H4. exact H4.
  - intros c Hc. apply filter_In in Hc. destruct Hc as [_ Hc]. apply negb_true_iff in Hc. apply is_space_false, Hc.
  - exists (fun c => negb (is_space c)). split; [|reflexivity]. intro c. rewrite negb_true_iff. apply is_space_false.
Qed.
