From Coq Require Import List ZArith Reals Lia Lra Psatz.
From Flocq Require Import Core.
From Verif Require Import SerializeModel.
Import ListNotations.
Local Open Scope R_scope.

(** ** 17 decimal digits determine a 53 bit number *)

Local Instance prec53 : Prec_gt_0 53. Proof. reflexivity. Qed.
Local Instance prec17 : Prec_gt_0 17. Proof. reflexivity. Qed.

Lemma print_error x : Rabs (print_double x - x) <= / 2 * (Rabs x * / 10 ^ 16).
Proof.
  unfold print_double.
  eapply Rle_trans; [apply error_le_half_ulp; apply FLX_exp_valid; reflexivity|].
  apply Rmult_le_compat_l; [lra|].
  eapply Rle_trans; [apply ulp_FLX_le; reflexivity|].
  right. f_equal. change (1 - 17)%Z with (Z.opp 16). rewrite bpow_opp. f_equal.
  rewrite bpow_powerRZ. simpl. lra.
Qed.

Lemma bpow53 : bpow radix2 (-(53)) = / 9007199254740992.
Proof. reflexivity. Qed.

Lemma gap_pos x z : is_double x -> is_double z -> 0 < x -> x < z -> x + x * / 9007199254740992 <= z.
Proof.
  intros Hx Hz H0 Hlt.
  pose proof (FLX_exp_valid 53 : Valid_exp (FLX_exp 53)).
  assert (Hs : succ radix2 (FLX_exp 53) x <= z) by (apply succ_le_lt; auto).
  rewrite succ_eq_pos in Hs by lra.
  pose proof (ulp_FLX_ge radix2 53 x) as Hu.
  rewrite (Rabs_pos_eq x) in Hu by lra. rewrite bpow53 in Hu. lra.
Qed.

Lemma parse_print_pos x : is_double x -> 0 < x -> parse_double (print_double x) = x.
Proof.
  intros Hx H0. pose proof (print_error x) as He. rewrite (Rabs_pos_eq x) in He by lra.
  set (y := print_double x) in *.
  assert (Hz : is_double (parse_double y))
    by (apply generic_format_round; [apply FLX_exp_valid; reflexivity | apply valid_rnd_N]).
  pose proof (round_N_pt radix2 (FLX_exp 53) (fun x => negb (Z.even x)) y) as (_ & Hn).
  specialize (Hn x Hx). change (Rabs (parse_double y - y) <= Rabs (x - y)) in Hn.
  rewrite (Rabs_minus_sym x y) in Hn.
  set (z := parse_double y) in *.
  assert (Hzx : Rabs (z - x) <= x * / 10 ^ 16).
  { replace (z - x) with ((z - y) + (y - x)) by ring.
    eapply Rle_trans; [apply Rabs_triang|]. lra. }
  assert (H16 : / 10 ^ 16 = 1 / 10000000000000000) by (simpl; lra). rewrite H16 in Hzx.
  apply Rabs_le_inv in Hzx.
  destruct (Rtotal_order z x) as [Hlt|[He2|Hgt]]; auto; exfalso.
  - assert (0 < z) by lra. pose proof (gap_pos z x Hz Hx H Hlt). lra.
  - pose proof (gap_pos x z Hx Hz H0 Hgt). lra.
Qed.

Lemma parse_print x : is_double x -> parse_double (print_double x) = x.
Proof.
  intros Hx. destruct (Rtotal_order x 0) as [Hn|[->|Hp]].
  - assert (H : parse_double (print_double (- x)) = - x).
    { apply parse_print_pos; [apply generic_format_opp; auto | lra]. }
    unfold print_double, parse_double in *. rewrite !round_NE_opp in H. lra.
  - unfold print_double, parse_double. rewrite !round_0; auto with typeclass_instances.
  - apply parse_print_pos; auto.
Qed.

Lemma is_double_int n : (Z.abs n <= 2 ^ 53)%Z -> is_double (IZR n).
Proof.
  intros H. destruct (Z.eq_dec (Z.abs n) (2 ^ 53)) as [He|Hne].
  - replace (IZR n) with (F2R (Float radix2 (Z.sgn n) 53)).
    + apply generic_format_FLX. exists (Float radix2 (Z.sgn n) 53); auto. simpl.
      destruct n; simpl in *; lia.
    + unfold F2R. simpl Fnum; simpl Fexp. replace (bpow radix2 53) with (IZR (2 ^ 53)) by reflexivity.
      rewrite <- mult_IZR, <- He. f_equal. rewrite Z.mul_comm. apply Z.abs_sgn.
  - apply generic_format_FLX. exists (Float radix2 n 0).
    + unfold F2R; simpl; ring.
    + simpl. change (Z.pow_pos 2 53) with (2 ^ 53)%Z. lia.
Qed.

Lemma parse_int n : (Z.abs n <= 2 ^ 53)%Z -> parse_double (IZR n) = IZR n.
Proof. intros H. apply round_generic; auto with typeclass_instances. apply is_double_int; auto. Qed.

(** ** text round trip *)

Definition int_ok (n : Z) : Prop := (- 2147483648 <= n <= 2147483647)%Z.

Definition item_ok (i : item) : Prop :=
  match i with
  | IDouble x => is_double x
  | IInt n => int_ok n
  | IBool _ => True
  | IMatrix r c d => length d = (r * c)%nat /\ Forall is_double d
  | IMatrixInt r c d => length d = (r * c)%nat /\ Forall int_ok d
  | ISeparator => True
  end.

Lemma int_ok_abs n : int_ok n -> (Z.abs n <= 2 ^ 53)%Z.
Proof. unfold int_ok. intros. change (2 ^ 53)%Z with 9007199254740992%Z. lia. Qed.

Lemma read_values_print d s : Forall is_double d ->
  read_values (length d) (map (fun x => LNum (print_double x)) d ++ s) = Done (d, s).
Proof.
  induction 1 as [|x d Hx Hd IH]; simpl; auto. rewrite parse_print by auto. rewrite IH. reflexivity.
Qed.

Lemma read_values_int d s : Forall int_ok d ->
  read_values (length d) (map (fun n => LNum (IZR n)) d ++ s) = Done (map IZR d, s).
Proof.
  induction 1 as [|x d Hx Hd IH]; simpl; auto. rewrite parse_int by (apply int_ok_abs; auto).
  rewrite IH. reflexivity.
Qed.

Lemma read_write_text i s : item_ok i -> read_text (shape_of i) (write_text i ++ s) = Done (i, s).
Proof.
  destruct i as [x|n|b|r c d|r c d|]; simpl; intros H; auto.
  - rewrite parse_print; auto.
  - rewrite parse_print by (apply is_double_int, int_ok_abs; auto). simpl.
    unfold to_int. rewrite Ztrunc_IZR. auto.
  - rewrite parse_print by (destruct b; [apply (is_double_int 1)|apply (is_double_int 0)]; simpl; lia).
    simpl. unfold to_bool. destruct b; destruct (Req_EM_T _ _); auto; lra.
  - destruct H as (Hl & Hd). rewrite <- Hl. rewrite read_values_print by auto. simpl. auto.
  - destruct H as (Hl & Hd). rewrite <- Hl. rewrite read_values_int by auto. simpl.
    do 2 f_equal. f_equal. rewrite map_map. rewrite <- (map_id d) at 2. apply map_ext.
    intros n. unfold to_int. apply Ztrunc_IZR.
Qed.

Lemma read_write_all l : forall s, Forall item_ok l ->
  read_all (map shape_of l) (write_all l ++ s) = Done (l, s).
Proof.
  induction l as [|i l IH]; intros s H; simpl; auto. inversion H; subst.
  change (write_all (i :: l)) with (write_text i ++ write_all l).
  rewrite <- app_assoc. rewrite read_write_text by auto. simpl.
  rewrite (IH s) by auto. reflexivity.
Qed.

(** ** binary round trip *)

Definition is_data (i : bitem) : Prop := match i with BData _ => True | _ => False end.

Definition same_size (a b : bitem) : Prop :=
  match a, b with BData x, BData y => length x = length y | _, _ => False end.

Lemma write_binary_all_data l : Forall is_data l -> forall file,
  write_binary_all file l = Done (file ++ concat (map (fun i => match i with BData o => o | _ => [] end) l)).
Proof.
  induction 1 as [|i l Hi Hl IH]; intros file; simpl.
  - rewrite app_nil_r; auto.
  - destruct i as [o|]; [|contradiction]. simpl. unfold os_write. rewrite Nat.leb_refl. simpl.
    rewrite IH, firstn_all, app_assoc. auto.
Qed.

Lemma read_binary_all_data l targets : Forall2 same_size l targets -> forall tail,
  read_binary_all (mkIs (concat (map (fun i => match i with BData o => o | _ => [] end) l) ++ tail) false) targets
  = Done (l, mkIs tail false).
Proof.
  induction 1 as [|i t l ts Hit Hl IH]; intros tail; simpl; auto.
  destruct i as [o|], t as [p|]; simpl in Hit; try contradiction.
  cbn [read_binary]. unfold is_read. cbn [bad rest]. rewrite <- app_assoc.
  rewrite app_length. destruct (Nat.leb_spec (length p) (length o + length (concat (map (fun i => match i with BData o => o | _ => [] end) l) ++ tail)));
    [|rewrite <- Hit in *; lia].
  rewrite Nat.leb_refl. cbn [obind].
  rewrite <- Hit, firstn_app, firstn_all, Nat.sub_diag, skipn_app, skipn_all, Nat.sub_diag.
  rewrite Hit, skipn_all. simpl. rewrite !app_nil_r. rewrite IH. reflexivity.
Qed.

Lemma binary_round_trip l targets : Forall2 same_size l targets ->
  exists file, write_binary_all [] l = Done file /\
    read_binary_all (mkIs file false) targets = Done (l, mkIs [] false).
Proof.
  intros H. assert (Hd : Forall is_data l).
  { induction H as [|i t l ts Hit Hl IH]; constructor; auto. destruct i, t; simpl in *; auto. }
  exists (concat (map (fun i => match i with BData o => o | _ => [] end) l)). split.
  - rewrite write_binary_all_data by auto. reflexivity.
  - rewrite <- (app_nil_r (concat _)). apply read_binary_all_data. auto.
Qed.

Lemma binary_separator_ub l1 l2 : Forall is_data l1 ->
  write_binary_all [] (l1 ++ BSeparator :: l2) = UB.
Proof.
  intros H. assert (forall file, write_binary_all file (l1 ++ BSeparator :: l2) = UB) by
   (induction H as [|i l Hi Hl IH]; intros file; simpl; auto;
    destruct i as [o|]; [|contradiction]; simpl; unfold os_write; rewrite Nat.leb_refl; simpl; auto).
  auto.
Qed.

(** also the reader on its own: everything but a stream with exactly one byte left *)
Lemma binary_separator_read_ub s : (bad s = true \/ length (rest s) <> 1%nat) -> read_binary s BSeparator = UB.
Proof.
  intros H. unfold read_binary, is_read, sizeof_pointer. destruct (bad s) eqn:E; [reflexivity|]. cbn [orb].
  destruct H as [H|H]; [discriminate|]. destruct (Nat.eqb_spec (length (rest s)) 0); [reflexivity|].
  destruct (Nat.leb_spec 8 (length (rest s))); [reflexivity|]. cbn [length].
  destruct (Nat.leb_spec (length (rest s)) 1); [lia|]. reflexivity.
Qed.

Lemma binary_separator_one_byte x : read_binary (mkIs [x] false) BSeparator = if Z.eqb x 35 then Done (BSeparator, mkIs [] true) else Throws.
Proof. reflexivity. Qed.

Lemma text_separator_lemma s : read_text SSeparator (LSep :: s) = Done (ISeparator, s) /\
    (forall l s', l <> LSep -> read_text SSeparator (l :: s') = Throws) /\
    read_text SSeparator [] = Throws.
Proof. repeat split; auto. intros [| |] s' H; auto. congruence. Qed.
