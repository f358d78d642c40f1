(** * Proofs about EigenIOModel.v *)
From Coq Require Import String Ascii List ZArith QArith Qreals Reals Bool Lia Lra.
From Flocq Require Import Core.
From Verif Require Import Outcome TextModel InputSpec InputProofs EigenIOModel.
From Verif Require SerializeModel.
Import ListNotations.
Local Open Scope Z_scope.
Notation radix10 := SerializeModel.radix10.

(** ** Digits *)
Lemma digits_of_length n z : length (digits_of n z) = n.
Proof. revert z. induction n as [|n IH]; intro z; [reflexivity|]. cbn [digits_of]. rewrite app_length, IH. cbn [length]. lia. Qed.
Lemma digits_of_ok n z : Forall is_digit (digits_of n z).
Proof.
  revert z. induction n as [|n IH]; intro z; [constructor|]. cbn [digits_of]. apply Forall_app. split; [apply IH|].
  constructor; [|constructor]. unfold is_digit. apply Z.mod_pos_bound. lia.
Qed.
Lemma digits_of_value n z : 0 <= z < 10 ^ Z.of_nat n -> positional (digits_of n z) = z.
Proof.
  revert z. induction n as [|n IH]; intros z Hz.
  - cbn [digits_of positional]. change (10 ^ Z.of_nat 0) with 1 in Hz. lia.
  - cbn [digits_of]. rewrite Nat2Z.inj_succ, Z.pow_succ_r in Hz by lia. rewrite positional_app, IH.
    + cbn [length positional]. change (10 ^ Z.of_nat 1) with 10. change (10 ^ Z.of_nat 0) with 1.
      pose proof (Z.div_mod z 10). lia.
    + split; [apply Z.div_pos; lia|apply Z.div_lt_upper_bound; lia].
Qed.

(** ** The decimal *)
Lemma Q2R_decimal m e : Q2R (decimal_value (m, e)) = (IZR m * bpow radix10 e)%R.
Proof.
  unfold decimal_value. rewrite (Qeq_eqR _ _ (Qred_correct _)). destruct (Z.leb_spec 0 e) as [He|He].
  - unfold Q2R, inject_Z. cbn [Qnum Qden]. rewrite mult_IZR. rewrite <- (IZR_Zpower radix10) by exact He.
    change (radix_val radix10) with 10. field.
  - unfold Q2R. cbn [Qnum Qden]. rewrite Z2Pos.id by (apply Z.pow_pos_nonneg; lia).
    rewrite <- (Z.opp_involutive e) at 2. rewrite bpow_opp, <- (IZR_Zpower radix10) by lia. reflexivity.
Qed.

Definition printed (x : R) : R := round radix10 (FLX_exp 13) ZnearestE x.
(** all doubles except zero are in this range *)
Definition in_range (x : R) : Prop := x = 0%R \/ (bpow radix10 (-900) <= Rabs x < bpow radix10 900)%R.

Lemma nearest_bound (s : R) (b : Z) : (Rabs s <= IZR b)%R -> Z.abs (ZnearestE s) <= b.
Proof.
  intro H. apply Rabs_le_inv in H. destruct H as [H1 H2].
  assert (A1 : ZnearestE (IZR (- b)) <= ZnearestE s) by (apply Zrnd_le; [apply valid_rnd_N|rewrite opp_IZR; exact H1]).
  assert (A2 : ZnearestE s <= ZnearestE (IZR b)) by (apply Zrnd_le; [apply valid_rnd_N|exact H2]).
  rewrite Zrnd_IZR in A1 by apply valid_rnd_N. rewrite Zrnd_IZR in A2 by apply valid_rnd_N. lia.
Qed.

Lemma scientific_spec x m e : in_range x -> scientific 13 x = (m, e) ->
  (IZR m * bpow radix10 e)%R = printed x /\ Z.abs m < 10 ^ 13 /\ -1000 < e + 12 < 1000.
Proof.
  intros Hx. unfold scientific. destruct (Req_EM_T x 0) as [->|H0].
  { intro H. injection H as <- <-. unfold printed. rewrite round_0 by apply valid_rnd_N.
    split; [apply Rmult_0_l|]. split; [lia|lia]. }
  destruct Hx as [Hx|[Hx1 Hx2]]; [contradiction|].
  set (s := scaled_mantissa radix10 (FLX_exp 13) x). set (c := cexp radix10 (FLX_exp 13) x).
  assert (Hs : (Rabs s <= IZR (10 ^ 13))%R).
  { left. unfold s. eapply Rlt_le_trans; [apply scaled_mantissa_lt_bpow|].
    unfold cexp, FLX_exp. replace (mag radix10 x - (mag radix10 x - 13)) with 13 by lia.
    change (10 ^ 13) with (Zpower (radix_val radix10) 13). rewrite IZR_Zpower by lia. apply Rle_refl. }
  pose proof (nearest_bound _ _ Hs) as Hm.
  assert (Hc : -899 - 13 <= c <= 900 - 13).
  { unfold c, cexp, FLX_exp. assert (M1 : -900 < mag radix10 x) by (apply mag_gt_bpow; exact Hx1).
    assert (M2 : mag radix10 x <= 900) by (apply mag_le_bpow; [exact H0|exact Hx2]). lia. }
  assert (V : (IZR (ZnearestE s) * bpow radix10 c)%R = printed x) by reflexivity.
  destruct (Z.eqb_spec (Z.abs (ZnearestE s)) (10 ^ 13)) as [E|E]; intro H; injection H as <- <-.
  - split; [|split; [|lia]].
    + rewrite <- V, mult_IZR, bpow_plus. change (bpow radix10 1) with 10%R. change (13 - 1) with 12.
      assert (S : IZR (ZnearestE s) = (IZR (Z.sgn (ZnearestE s)) * IZR (10 ^ 13))%R).
      { rewrite <- mult_IZR, <- E. f_equal. rewrite Z.mul_comm. symmetry. apply Z.abs_sgn. }
      rewrite S. replace (IZR (10 ^ 13)) with (IZR (10 ^ 12) * 10)%R by (rewrite <- mult_IZR; reflexivity). change (Z.pow_pos 10 12) with (10 ^ 12)%Z. ring.
    + rewrite Z.abs_mul. change (Z.abs (10 ^ (13 - 1))) with (10 ^ 12).
      assert (Z.abs (Z.sgn (ZnearestE s)) <= 1) by (destruct (ZnearestE s); cbn; lia). 
      assert (Z.abs (Z.sgn (ZnearestE s)) * 10 ^ 12 <= 1 * 10 ^ 12) by (apply Z.mul_le_mono_nonneg_r; lia). lia.
  - split; [exact V|]. split; [lia|lia].
Qed.

(** the literal that is printed *)
Definition sci_literal (m e : Z) : literal :=
  mkLiteral (if m <? 0 then Some true else None) (firstn 1 (digits_of 13 (Z.abs m))) (Some (skipn 1 (digits_of 13 (Z.abs m))))
            (Some (false, Some (e + 12 <? 0), digits_of (if Z.abs (e + 12) <? 100 then 2 else 3) (Z.abs (e + 12)))).

Lemma print_literal x m e : scientific 13 x = (m, e) -> print_finite x = literal_text (sci_literal m e).
Proof.
  intro H. unfold print_finite. rewrite H. unfold literal_text, sci_literal. cbn [l_sign l_int l_frac l_exp].
  rewrite <- firstn_map, <- skipn_map. change digit_text with digit_char.
  destruct (m <? 0); cbn [sign_text app].
  - f_equal. f_equal. f_equal. f_equal. f_equal. destruct (e + 12 <? 0); reflexivity.
  - f_equal. f_equal. f_equal. f_equal. destruct (e + 12 <? 0); reflexivity.
Qed.
Lemma sci_literal_ok m e : literal_ok (sci_literal m e).
Proof.
  unfold literal_ok, sci_literal, fraction, exponent_digits. cbn [l_int l_frac l_exp].
  assert (D := digits_of_ok 13 (Z.abs m)). rewrite <- (firstn_skipn 1) in D. apply Forall_app in D. destruct D as [D1 D2].
  repeat split; try assumption; [apply digits_of_ok| |].
  - rewrite firstn_skipn. intro H. apply (f_equal (@length _)) in H. rewrite digits_of_length in H. discriminate H.
  - intro H. apply (f_equal (@length _)) in H. rewrite digits_of_length in H. destruct (Z.abs (e + 12) <? 100); discriminate H.
Qed.
Lemma sci_literal_value m e : Z.abs m < 10 ^ 13 -> -1000 < e + 12 < 1000 -> literal_value (sci_literal m e) = decimal_value (m, e).
Proof.
  intros Hm He. rewrite <- scan_value. unfold sci_literal, fraction, exponent. cbn [l_sign l_int l_frac l_exp].
  rewrite firstn_skipn, skipn_length, digits_of_length, digits_of_value by (change (10 ^ Z.of_nat 13) with (10 ^ 13); lia).
  change (Z.of_nat (13 - 1)) with 12.
  assert (A : with_sign (if m <? 0 then Some true else None) (Z.abs m) = m).
  { destruct (Z.ltb_spec m 0); cbn [with_sign]; lia. }
  rewrite A.
  assert (B : positional (digits_of (if Z.abs (e + 12) <? 100 then 2 else 3) (Z.abs (e + 12))) = Z.abs (e + 12)).
  { destruct (Z.ltb_spec (Z.abs (e + 12)) 100); apply digits_of_value.
    - change (10 ^ Z.of_nat 2) with 100. lia.
    - change (10 ^ Z.of_nat 3) with 1000. lia. }
  rewrite B. f_equal. f_equal. destruct (Z.ltb_spec (e + 12) 0); cbn [with_sign]; lia.
Qed.

(** ** A word *)
Definition read_back (x : R) : R := SerializeModel.parse_double (printed x).
Lemma word_value_print x r : in_range x -> (match r with [] => True | c :: _ => digit c = None end) ->
  word_value (print_finite x ++ r) = read_back x.
Proof.
  intros Hx Hr. destruct (scientific 13 x) as [m e] eqn:E. destruct (scientific_spec x m e Hx E) as [V [Hm He]].
  rewrite (print_literal _ _ _ E). unfold word_value.
  destruct (scan_literal (sci_literal m e) r (sci_literal_ok m e)) as [d [Hd Hv]].
  { unfold ends. destruct r as [|c r]; [exact I|]. split; [|split; [discriminate|discriminate]].
    intros k Hk ->. rewrite (digit_digit_char k Hk) in Hr. discriminate Hr. }
  rewrite Hd. cbn [fst]. rewrite Hv, sci_literal_value by assumption. rewrite Q2R_decimal, V. reflexivity.
Qed.

Definition plain (t : text) : Prop := t <> [] /\ forall c, In c t -> is_space c = false.
Lemma literal_plain l : literal_ok l -> plain (literal_text l).
Proof.
  intros H. pose proof H as [Hi [Hf [He _]]]. split.
  - destruct (literal_head l H) as [c [t [E _]]]. rewrite E. discriminate.
  - assert (D : forall ds c, Forall is_digit ds -> In c (map digit_char ds) -> is_space c = false).
    { intros ds c Hd Hc. apply in_map_iff in Hc. destruct Hc as [k [<- Hk]]. rewrite Forall_forall in Hd.
      exact (digit_not_space _ _ (digit_digit_char k (Hd k Hk))). }
    assert (S : forall s c, In c (sign_text s) -> is_space c = false).
    { intros [[|]|] c Hc; cbn in Hc; [destruct Hc as [<-|[]]; reflexivity | destruct Hc as [<-|[]]; reflexivity | destruct Hc]. }
    intros c Hc. unfold literal_text in Hc. apply in_app_iff in Hc. destruct Hc as [Hc|Hc]; [apply (S _ _ Hc)|].
    apply in_app_iff in Hc. destruct Hc as [Hc|Hc]; [apply (D _ _ Hi Hc)|].
    apply in_app_iff in Hc. destruct Hc as [Hc|Hc].
    + unfold fraction in Hf. destruct (l_frac l) as [f|]; [|destruct Hc]. destruct Hc as [<-|Hc]; [reflexivity|apply (D _ _ Hf Hc)].
    + unfold exponent_digits in He. destruct (l_exp l) as [[[b s] ds]|]; [|destruct Hc].
      destruct Hc as [<-|Hc]; [destruct b; reflexivity|]. apply in_app_iff in Hc. destruct Hc as [Hc|Hc]; [apply (S _ _ Hc)|apply (D _ _ He Hc)].
Qed.
Lemma print_plain x : plain (print_finite x).
Proof.
  destruct (scientific 13 x) as [m e] eqn:E. rewrite (print_literal _ _ _ E). apply literal_plain, sci_literal_ok.
Qed.
Lemma print_length x : (15 <= length (print_finite x))%nat.
Proof.
  unfold print_finite. destruct (scientific 13 x) as [m e]. cbv zeta. rewrite !app_length, firstn_length, map_length, digits_of_length. cbn [length].
  rewrite app_length, skipn_length, map_length, digits_of_length. cbn [length]. lia.
Qed.
Lemma padded_print x : padded 15 (print_finite x) = print_finite x.
Proof. unfold padded. pose proof (print_length x). replace (15 - length (print_finite x))%nat with 0%nat by lia. reflexivity. Qed.

(** ** Words and lines *)
Lemma words_from_plain t cur r : (forall c, In c t -> is_space c = false) -> words_from cur (t ++ r) = words_from (cur ++ t) r.
Proof.
  revert cur. induction t as [|c t IH]; intros cur H; [rewrite app_nil_r; reflexivity|]. cbn [app words_from].
  rewrite (H c) by (left; reflexivity). rewrite IH by (intros c' Hc; apply H; right; exact Hc). rewrite <- app_assoc. reflexivity.
Qed.
Lemma words_from_space d cur r : Forall white d -> d <> [] -> cur <> [] -> words_from cur (d ++ r) = cur :: words_from [] r.
Proof.
  intros Hd Hn Hc. destruct d as [|c d]; [congruence|]. inversion Hd as [|? ? H1 H2]; subst. cbn [app words_from].
  rewrite (proj2 (is_space_white c) H1). destruct cur as [|c0 cur]; [congruence|]. f_equal.
  clear Hn Hd H1. induction H2 as [|c' d Hc' H2 IH]; [reflexivity|]. cbn [app words_from]. rewrite (proj2 (is_space_white c') Hc'). exact IH.
Qed.
Lemma words_join d l : Forall white d -> d <> [] -> Forall plain l -> words (join d l) = l.
Proof.
  intros Hd Hn Hl. unfold words. induction Hl as [|t l [Ht1 Ht2] Hl IH]; [reflexivity|]. destruct l as [|t2 l].
  - cbn [join]. rewrite <- (app_nil_r t), words_from_plain by exact Ht2. cbn [app words_from]. rewrite app_nil_r. destruct t; [congruence|reflexivity].
  - change (join d (t :: t2 :: l)) with (t ++ d ++ join d (t2 :: l)). rewrite words_from_plain by exact Ht2. cbn [app].
    rewrite words_from_space by assumption. rewrite IH. reflexivity.
Qed.
Lemma lines_from_plain t cur r : ~ In newline t -> lines_from cur (t ++ r) = lines_from (cur ++ t) r.
Proof.
  revert cur. induction t as [|c t IH]; intros cur H; [rewrite app_nil_r; reflexivity|]. cbn [app lines_from].
  assert (E : (c =? newline)%char = false) by (apply Ascii.eqb_neq; intro Hc; apply H; left; exact Hc).
  rewrite E, IH by (intro Hc; apply H; right; exact Hc). rewrite <- app_assoc. reflexivity.
Qed.
Lemma lines_join l : Forall (fun t => t <> [] /\ ~ In newline t) l -> lines (join [newline] l) = l.
Proof.
  intro Hl. unfold lines. induction Hl as [|t l [Ht1 Ht2] Hl IH]; [reflexivity|]. destruct l as [|t2 l].
  - cbn [join]. rewrite <- (app_nil_r t), lines_from_plain by exact Ht2. cbn [app lines_from]. rewrite app_nil_r. destruct t; [congruence|reflexivity].
  - change (join [newline] (t :: t2 :: l)) with (t ++ newline :: join [newline] (t2 :: l)). rewrite lines_from_plain by exact Ht2.
    cbn [app lines_from]. rewrite Ascii.eqb_refl, IH. reflexivity.
Qed.

(** ** Matrices *)
Definition blank (d : text) : Prop := d <> [] /\ Forall white d /\ ~ In newline d.
Lemma space_not_newline c : is_space c = false -> c <> newline.
Proof. intros H ->. discriminate H. Qed.
Lemma join_no_newline d l : ~ In newline d -> Forall plain l -> ~ In newline (join d l).
Proof.
  intros Hd Hl. induction Hl as [|t l [_ Ht] Hl IH]; [intros []|]. destruct l as [|t2 l].
  - cbn [join]. intro H. destruct (space_not_newline _ (Ht _ H) eq_refl).
  - change (join d (t :: t2 :: l)) with (t ++ d ++ join d (t2 :: l)). intro H. apply in_app_iff in H. destruct H as [H|H].
    + destruct (space_not_newline _ (Ht _ H) eq_refl).
    + apply in_app_iff in H. destruct H as [H|H]; [apply Hd, H|apply IH, H].
Qed.
Lemma join_nonempty d l : l <> [] -> Forall plain l -> join d l <> [].
Proof.
  intros Hn Hl. destruct l as [|t l]; [congruence|]. inversion Hl as [|? ? [Ht _] _]; subst. destruct l as [|t2 l]; cbn [join]; [exact Ht|].
  destruct t; [congruence|discriminate].
Qed.
Definition row_text (row : list R) : list text := map print_finite row.
Lemma row_plain row : Forall plain (row_text row).
Proof. unfold row_text. apply Forall_forall. intros t Ht. apply in_map_iff in Ht. destruct Ht as [x [<- _]]. apply print_plain. Qed.
Lemma write_row_finite d row : write_row d (map Finite row) = join d (row_text row).
Proof.
  unfold write_row, row_text. f_equal. rewrite map_map. apply map_ext. intro x. cbn [print_number]. apply padded_print.
Qed.
Lemma row_values d row : blank d -> Forall in_range row -> string_to_doubles (join d (row_text row)) = map read_back row.
Proof.
  intros [D1 [D2 D3]] Hr. unfold string_to_doubles. rewrite words_join by (try assumption; apply row_plain).
  unfold row_text. rewrite map_map. apply map_ext_in. intros x Hx. rewrite Forall_forall in Hr.
  rewrite <- (app_nil_r (print_finite x)). apply word_value_print; [apply Hr, Hx|exact I].
Qed.
Lemma rows_values d cols m : blank d -> Forall (fun row => length row = cols /\ Forall in_range row) m ->
  read_rows cols (map (fun row => join d (row_text row)) m) = Ok (map (fun row => map (fun x => Some (read_back x)) row) m).
Proof.
  intros Hd Hm. induction Hm as [|row m [H1 H2] Hm IH]; [reflexivity|]. cbn [map read_rows]. unfold read_row.
  rewrite row_values by assumption. rewrite map_length, H1, Nat.leb_refl, Nat.sub_diag. cbn [repeat obind]. rewrite app_nil_r, map_map.
  rewrite IH. reflexivity.
Qed.
Lemma read_write d cols m : blank d -> (0 < cols)%nat -> m <> [] -> Forall (fun row => length row = cols /\ Forall in_range row) m ->
  read_from_file (write_to_file d (map (map Finite) m)) = Ok (length m, cols, map (fun row => map (fun x => Some (read_back x)) row) m).
Proof.
  intros Hd Hc Hn Hm. unfold read_from_file, write_to_file. rewrite map_map.
  rewrite (map_ext _ (fun row => join d (row_text row)) (write_row_finite d)).
  rewrite lines_join.
  - destruct m as [|row m]; [congruence|]. inversion Hm as [|? ? [H1 H2] _]; subst.
    change (hd [] (map (fun row0 => join d (row_text row0)) (row :: m))) with (join d (row_text row)).
    rewrite row_values by assumption. rewrite !map_length, (rows_values d (length row)) by assumption.
    cbn [omap obind]. reflexivity.
  - apply Forall_forall. intros t Ht. apply in_map_iff in Ht. destruct Ht as [row [<- Hrow]]. rewrite Forall_forall in Hm.
    destruct (Hm _ Hrow) as [H1 _]. split; [apply join_nonempty; [|apply row_plain]|apply join_no_newline; [apply Hd|apply row_plain]].
    intro H. apply (f_equal (@length _)) in H. unfold row_text in H. rewrite map_length in H. cbn in H. lia.
Qed.
