(** * C94: writing a matrix to a file and reading it back *)
From Coq Require Import String Ascii List ZArith QArith Reals Bool Lia Lra.
From Flocq Require Import Core Relative.
From Verif Require Import Outcome TextModel InputSpec InputProofs EigenIOModel EigenIOProofs.
From Verif Require SerializeModel.
Import ListNotations.
Local Open Scope R_scope.

Definition is_double := SerializeModel.is_double.
(** a number with at most 13 significant decimal digits *)
Definition short_decimal (x : R) : Prop := exists (m e : Z), x = IZR m * powerRZ 10 e /\ (Z.abs m < 10 ^ 13)%Z.

Lemma powerRZ_bpow e : powerRZ 10 e = bpow radix10 e.
Proof. rewrite bpow_powerRZ. reflexivity. Qed.
Lemma read_back_error x : Rabs (read_back x - x) <= / 10 ^ 12 * Rabs x.
Proof.
  unfold read_back, SerializeModel.parse_double, printed.
  assert (P10 : (0 < 13)%Z) by lia. assert (P2 : (0 < 53)%Z) by lia.
  pose proof (relative_error_N_FLX radix10 13 P10 (fun n => negb (Z.even n)) x) as E1.
  set (p := round radix10 (FLX_exp 13) ZnearestE x) in *.
  pose proof (relative_error_N_FLX radix2 53 P2 (fun n => negb (Z.even n)) p) as E2.
  assert (B10 : bpow radix10 (- (13) + 1) = / 1000000000000) by reflexivity.
  assert (B2 : bpow radix2 (- (53) + 1) = / 4503599627370496) by reflexivity. rewrite B10 in E1. rewrite B2 in E2.
  change (Znearest (fun n => negb (Z.even n))) with ZnearestE in *.
  set (y := round radix2 (FLX_exp 53) ZnearestE p) in *.
  assert (T : Rabs p <= Rabs x + Rabs (p - x)).
  { replace p with (x + (p - x)) at 1 by ring. apply Rabs_triang. }
  assert (T2 : Rabs (y - x) <= Rabs (y - p) + Rabs (p - x)).
  { replace (y - x) with ((y - p) + (p - x)) by ring. apply Rabs_triang. }
  pose proof (Rabs_pos x). replace (10 ^ 12) with 1000000000000 by ring.
  apply Rle_trans with (1 := T2). lra.
Qed.
Lemma read_back_exact x : is_double x -> short_decimal x -> read_back x = x.
Proof.
  intros H2 [m [e [E Hm]]]. unfold read_back, printed. rewrite (round_generic radix10 (FLX_exp 13) ZnearestE x).
  - unfold SerializeModel.parse_double. apply round_generic; [apply valid_rnd_N|exact H2].
  - apply generic_format_FLX. exists (Float radix10 m e).
    + unfold F2R. cbn [Fnum Fexp]. rewrite E, powerRZ_bpow. reflexivity.
    + exact Hm.
Qed.

(** ** With blanks or tabs between the entries, shape and entries come back, the entries to twelve digits *)
Theorem C94_round_trip_partial : forall (delimiter : text) (cols : nat) (m : list (list R)),
  delimiter <> [] -> Forall white delimiter -> ~ In newline delimiter -> (0 < cols)%nat -> m <> [] ->
  Forall (fun row => length row = cols /\ Forall in_range row) m ->
  exists m', read_from_file (write_to_file delimiter (map (map Finite) m)) = Ok (length m, cols, m') /\
    length m' = length m /\
    forall i j x, nth_error m i = Some x -> forall xj, nth_error x j = Some xj ->
      exists row y, nth_error m' i = Some row /\ length row = cols /\ nth_error row j = Some (Some y) /\
        Rabs (y - xj) <= / 10 ^ 12 * Rabs xj /\ (is_double xj -> short_decimal xj -> y = xj).
Proof.
  intros d cols m D1 D2 D3 Hc Hn Hm. eexists. split; [apply read_write; try assumption; split; auto|].
  split; [apply map_length|]. intros i j x Hx xj Hj.
  exists (map (fun x => Some (read_back x)) x), (read_back xj).
  split; [rewrite nth_error_map, Hx; reflexivity|]. split.
  - rewrite map_length. rewrite Forall_forall in Hm. apply (Hm x). apply nth_error_In in Hx. exact Hx.
  - split; [rewrite nth_error_map, Hj; reflexivity|]. split; [apply read_back_error|apply read_back_exact].
Qed.
Print Assumptions C94_round_trip_partial.
Example C94_case : let m := [[0; 1]; [-5 / 2; 3]] in let delimiter := [" "%char] in
  delimiter <> [] /\ Forall white delimiter /\ ~ In newline delimiter /\ (0 < 2)%nat /\ m <> []
  /\ Forall (fun row => length row = 2%nat /\ Forall in_range row) m.
Proof.
  assert (B1 : bpow radix10 (-900) <= 1).
  { change 1 with (bpow radix10 0). apply bpow_le. lia. }
  assert (B2 : 10 <= bpow radix10 900).
  { change 10 with (bpow radix10 1). apply bpow_le. lia. }
  repeat split; try discriminate.
  - repeat constructor; cbn; tauto.
  - intros [H|[]]; discriminate H.
  - lia.
  - assert (P : forall x, 1 <= x < 10 -> in_range x) by (intros x H; right; rewrite Rabs_pos_eq by lra; lra).
    assert (N : in_range (-5 / 2)) by (right; replace (-5 / 2) with (- (5 / 2)) by lra; rewrite Rabs_Ropp, Rabs_pos_eq by lra; lra).
    apply Forall_cons; [split; [reflexivity|]|apply Forall_cons; [split; [reflexivity|]|apply Forall_nil]].
    + apply Forall_cons; [left; reflexivity|apply Forall_cons; [apply P; lra|apply Forall_nil]].
    + apply Forall_cons; [exact N|apply Forall_cons; [apply P; lra|apply Forall_nil]].
Qed.

(** ** It is not the matrix that was written: twelve digits behind the point do not determine a double *)
Theorem C94_precision_refuted : exists x, is_double x /\ in_range x /\
  read_from_file (write_to_file [" "%char] [[Finite x]]) = Ok (1%nat, 1%nat, [[Some 1]]) /\ x <> 1.
Proof.
  set (x := 1 + / 4503599627370496). exists x.
  assert (B1 : bpow radix10 (-900) <= 1).
  { change 1 with (bpow radix10 0). apply bpow_le. lia. }
  assert (B2 : 10 <= bpow radix10 900).
  { change 10 with (bpow radix10 1). apply bpow_le. lia. }
  assert (Hx : 1 < x < 2) by (unfold x; lra).
  assert (R : in_range x) by (right; rewrite Rabs_pos_eq by lra; lra).
  split; [|split; [exact R|split]].
  - apply generic_format_FLX. exists (Float radix2 4503599627370497 (-52)); [|reflexivity].
    unfold F2R. cbn [Fnum Fexp]. change (bpow radix2 (-52)) with (/ IZR (Z.pow_pos 2 52)). change (IZR (Z.pow_pos 2 52)) with 4503599627370496.
    unfold x. lra.
  - assert (RB : read_back x = 1).
    { unfold read_back. assert (P : printed x = 1).
      { unfold printed, round. assert (M : mag radix10 x = 1%Z :> Z).
        { apply mag_unique. rewrite Rabs_pos_eq by lra. change (bpow radix10 (1 - 1)) with 1. change (bpow radix10 1) with 10. lra. }
        unfold scaled_mantissa, cexp, FLX_exp. rewrite M. change (- (1 - 13))%Z with 12%Z. change (1 - 13)%Z with (-12)%Z.
        change (bpow radix10 12) with (IZR (Z.pow_pos 10 12)). change (bpow radix10 (-12)) with (/ IZR (Z.pow_pos 10 12)).
        change (IZR (Z.pow_pos 10 12)) with 1000000000000.
        rewrite (Znearest_imp _ _ 1000000000000).
        - unfold F2R. cbn [Fnum Fexp]. change (bpow radix10 (-12)) with (/ 1000000000000). lra.
        - unfold x. unfold Rabs. match goal with |- context [Rcase_abs ?a] => destruct (Rcase_abs a) end; lra. }
      rewrite P. unfold SerializeModel.parse_double. apply round_generic; [apply valid_rnd_N|].
      change 1 with (bpow radix2 0). apply generic_format_bpow. unfold FLX_exp. lia. }
    change [[Finite x]] with (map (map Finite) [[x]]). rewrite (read_write _ 1).
    + cbn [map length]. rewrite RB. reflexivity.
    + split; [discriminate|]. split; [repeat constructor; cbn; tauto|intros [H|[]]; discriminate H].
    + lia.
    + discriminate.
    + apply Forall_cons; [split; [reflexivity|]|apply Forall_nil]. apply Forall_cons; [exact R|apply Forall_nil].
  - lra.
Qed.
Print Assumptions C94_precision_refuted.

(** ** A delimiter that is not a blank, such as the comma of a csv file: the second column is lost *)
Theorem C94_delimiter_refuted : forall x y, in_range x -> in_range y ->
  read_from_file (write_to_file (txt ",") [[Finite x; Finite y]]) = Ok (1%nat, 1%nat, [[Some (read_back x)]]).
Proof.
  intros x y Hx Hy. unfold write_to_file, write_row. cbn [map join print_number]. rewrite !padded_print.
  set (t := print_finite x ++ txt "," ++ print_finite y).
  assert (P : plain t).
  { destruct (print_plain x) as [A1 A2]. destruct (print_plain y) as [B1 B2]. split.
    - unfold t. destruct (print_finite x); [congruence|discriminate].
    - intros c Hc. unfold t in Hc. apply in_app_iff in Hc. destruct Hc as [Hc|Hc]; [apply A2, Hc|].
      destruct Hc as [<-|Hc]; [reflexivity|apply B2, Hc]. }
  assert (L : lines t = [t]).
  { change t with (join [newline] [t]) at 1. apply lines_join. constructor; [|constructor]. destruct P as [P1 P2].
    split; [exact P1|]. intro H. destruct (space_not_newline _ (P2 _ H) eq_refl). }
  assert (W : words t = [t]).
  { change t with (join [" "%char] [t]) at 1. apply words_join; [repeat constructor; cbn; tauto|discriminate|constructor; [exact P|constructor]]. }
  unfold read_from_file. rewrite L. cbn [hd length read_rows]. unfold read_row, string_to_doubles. rewrite W.
  cbn [map length Nat.leb Nat.sub repeat app obind omap].
  assert (V : word_value t = read_back x) by (apply word_value_print; [exact Hx|reflexivity]).
  rewrite V. reflexivity.
Qed.
Print Assumptions C94_delimiter_refuted.

(** ** Entries that are not finite come back as zero *)
Theorem C94_nonfinite_refuted : forall x, In x [NaN; Infinity false; Infinity true] ->
  read_from_file (write_to_file [" "%char] [[x]]) = Ok (1%nat, 1%nat, [[Some 0]]).
Proof. intros x [<-|[<-|[<-|[]]]]; reflexivity. Qed.
Print Assumptions C94_nonfinite_refuted.
(** what is written for them, right aligned in 15 columns *)
Theorem C94_nonfinite_text : forall delimiter, write_to_file delimiter [[NaN]] = repeat " "%char 12 ++ ["n"; "a"; "n"]%char /\
  write_to_file delimiter [[Infinity false]] = repeat " "%char 12 ++ ["i"; "n"; "f"]%char /\
  write_to_file delimiter [[Infinity true]] = repeat " "%char 11 ++ ["-"; "i"; "n"; "f"]%char.
Proof. intros delimiter. repeat split. Qed.
Print Assumptions C94_nonfinite_text.

(** ** The shape of a matrix without entries is lost *)
Theorem C94_shape_refuted : forall delimiter (rows : nat),
  read_from_file (write_to_file delimiter []) = Ok (0%nat, 0%nat, []) /\
  read_from_file (write_to_file delimiter (repeat [] (S rows))) = Ok (rows, 0%nat, repeat [] rows).
Proof.
  intros delimiter rows. split; [reflexivity|]. unfold write_to_file.
  assert (M : map (write_row delimiter) (repeat [] (S rows)) = repeat [] (S rows)).
  { generalize (S rows) as n. induction n as [|n IH]; [reflexivity|]. cbn [repeat map]. rewrite IH. reflexivity. }
  rewrite M. assert (J : join [newline] (repeat [] (S rows)) = repeat newline rows).
  { clear M. induction rows as [|n IH]; [reflexivity|]. change (repeat (@nil ascii) (S (S n))) with (@nil ascii :: @nil ascii :: repeat [] n).
    change (join [newline] ([] :: [] :: repeat [] n)) with (newline :: join [newline] (repeat [] (S n))). rewrite IH. reflexivity. }
  rewrite J. assert (L : lines (repeat newline rows) = repeat [] rows).
  { clear. unfold lines. induction rows as [|n IH]; [reflexivity|]. cbn [repeat lines_from]. rewrite Ascii.eqb_refl, IH. reflexivity. }
  unfold read_from_file. rewrite L. rewrite repeat_length.
  assert (C : length (string_to_doubles (hd [] (repeat (@nil ascii) rows))) = 0%nat) by (destruct rows; reflexivity). rewrite C.
  assert (R : read_rows 0 (repeat [] rows) = Ok (repeat [] rows)).
  { clear. induction rows as [|n IH]; [reflexivity|]. cbn [repeat read_rows]. rewrite IH. reflexivity. }
  rewrite R. reflexivity.
Qed.
Print Assumptions C94_shape_refuted.

(** ** A line with more entries than the first line is written behind the end of the matrix *)
Theorem C94_ragged_refuted : forall t line, In line (lines t) ->
  (length (words (hd [] (lines t))) < length (words line))%nat -> read_from_file t = UB.
Proof.
  intros t line Hin Hlt. unfold read_from_file. cbv zeta.
  assert (EC : length (string_to_doubles (hd [] (lines t))) = length (words (hd [] (lines t)))) by apply map_length. rewrite EC.
  set (cols := length (words (hd [] (lines t)))) in *.
  assert (A : forall ls, In line ls -> read_rows cols ls = UB).
  { induction ls as [|l ls IH]; [intros []|]. intros [->|H]; cbn [read_rows].
    - unfold read_row, string_to_doubles. rewrite map_length. destruct (Nat.leb_spec (length (words line)) cols); [lia|reflexivity].
    - rewrite (IH H). unfold read_row. destruct (length (string_to_doubles l) <=? cols)%nat; reflexivity. }
  rewrite A by exact Hin. reflexivity.
Qed.
Print Assumptions C94_ragged_refuted.
Example C94_ragged_case : let t := txt "1" ++ newline :: txt "1 2" in In (txt "1 2") (lines t) /\
  (length (words (hd [] (lines t))) < length (words (txt "1 2")))%nat.
Proof. split; [right; left; reflexivity|vm_compute; lia]. Qed.
