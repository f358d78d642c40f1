(** * C107: the computed zeros of the Legendre polynomials and of their derivatives *)
From Coq Require Import List Arith Bool Reals Lra Lia ZArith.
From Coquelicot Require Import Coquelicot.
From Verif Require Import RSum Outcome LegendreModel LegendreSpec LegendreProofs PolyProofs QuadratureProofs PropLegendre.
From Verif Require Import LegendreZeroProofs LegendreDerivZeroProofs LegendreRootsModel LegendreRootsSpec LegendreRootsProofs LegendreRootsProofs2 LegendreRootsProofs3.
Import ListNotations.
Local Open Scope R_scope.

(** C107: for every degree n each Newton loop of LegendreRoots(n) returns after at most 27 passes; the result is the
    ascending list of all n zeros of the Legendre polynomial, each with an error of at most 4e-16 *)
Theorem C107_roots : forall (n fuel : nat), (27 <= fuel)%nat -> exists computed zeros,
  legendre_roots fuel n = Ok (Some computed) /\ zeros_of (P n) zeros /\ length zeros = n /\ length computed = n /\ ascending computed /\
  forall i, (i < n)%nat -> -1 < nth i zeros 0 < 1 /\ -1 < nth i computed 0 < 1 /\ Rabs (nth i computed 0 - nth i zeros 0) <= 4 / 10 ^ 16.
Proof.
  intros n fuel Hf. destruct (roots_lemma n) as (computed & zeros & A & B & C & E & F & G). exists computed, zeros.
  split; [apply A; exact Hf|]. split; [exact E|]. split; [exact C|]. split; [exact B|]. split; [exact F|].
  intros i Hi. destruct (G i Hi) as (G1 & G2 & _ & G4). split; [exact G1|]. split; [exact G2|]. apply Rle_trans with (1 := G4). simpl. lra.
Qed.
Print Assumptions C107_roots.

Lemma zeros_of_ext f g l : (forall x, f x = g x) -> zeros_of f l -> zeros_of g l.
Proof. intros E (A & B). split; [exact A|]. intros x. rewrite <- E. apply B. Qed.
Lemma D_Derive n x : D n x = Derive (P n) x.
Proof. symmetry. apply is_derive_unique. apply D_derive. Qed.

(** LegendreDerivRoots(n) for n >= 1: at most 43 passes per zero; the ascending list of all n - 1 zeros of the derivative,
    each with an error of at most 1e-15 *)
Theorem C107_derivative_roots : forall (n fuel : nat), (1 <= n)%nat -> (43 <= fuel)%nat -> exists computed zeros,
  legendre_deriv_roots fuel n = Ok (Some computed) /\ zeros_of (Derive (P n)) zeros /\ length zeros = (n - 1)%nat /\ length computed = (n - 1)%nat /\ ascending computed /\
  forall i, (i < n - 1)%nat -> -1 < nth i zeros 0 < 1 /\ -1 < nth i computed 0 < 1 /\ Rabs (nth i computed 0 - nth i zeros 0) <= 1 / 10 ^ 15.
Proof.
  intros n fuel Hn Hf. destruct (deriv_roots_lemma n Hn) as (computed & zeros & A & B & C & E & F & G). exists computed, zeros.
  split; [apply A; exact Hf|]. split; [exact (zeros_of_ext _ _ _ (D_Derive n) E)|]. split; [exact C|]. split; [exact B|]. split; [exact F|].
  intros i Hi. destruct (G i Hi) as (G1 & G2 & _ & G4). split; [exact G1|]. split; [exact G2|exact G4].
Qed.
Print Assumptions C107_derivative_roots.

(** LegendreDerivRoots(0) throws *)
Theorem C107_no_polynomial : forall fuel, legendre_deriv_roots fuel 0 = Throw.
Proof. reflexivity. Qed.
Print Assumptions C107_no_polynomial.

(** the returned numbers do not depend on how long one is prepared to wait *)
Theorem C107_stable : forall (n k fuel fuel' : nat) (x r : R), (fuel <= fuel')%nat ->
  find_root fuel n k x = Ok (Some r) -> find_root fuel' n k x = Ok (Some r).
Proof. intros n k fuel fuel' x r. apply find_root_fuel. Qed.
Print Assumptions C107_stable.

(** ** the quadrature rules *)
Lemma ascending_NoDup l : ascending l -> NoDup l.
Proof.
  intros H. apply (NoDup_nth l 0). intros i j Hi Hj E. destruct (Nat.lt_trichotomy i j) as [L|[L|L]]; [|exact L|].
  - pose proof (H i j ltac:(lia)). lra.
  - pose proof (H j i ltac:(lia)). lra.
Qed.
Lemma gauss_weight_positive roots n w p : (1 <= n)%nat -> gauss_rule roots n = Ok (w, p) ->
  (forall i, (i < n)%nat -> -1 < nth i (roots n) 0 < 1 /\ D n (nth i (roots n) 0) <> 0) -> p = roots n /\ length w = n /\ forall i, (i < n)%nat -> 0 < nth i w 0.
Proof.
  intros Hn E H. destruct n as [|m]; [lia|]. unfold gauss_rule in E. set (n := S m) in *.
  destruct (osequence (map (fun i => obind (legendre n (nth i (roots n) 0) 1) (fun dl => Ok (2 / (1 - nth i (roots n) 0 * nth i (roots n) 0) / (dl * dl)))) (seq 0 n))) as [ws| |] eqn:Ew; try discriminate E.
  cbn [obind] in E. assert (E1 : w = ws /\ p = roots n) by (injection E as <- <-; auto). destruct E1 as (-> & ->). split; [reflexivity|].
  pose proof (osequence_length _ _ Ew) as HL. rewrite map_length, seq_length in HL. split; [exact HL|].
  intros i Hi. pose proof (osequence_nth _ _ i 0 Ew) as En. rewrite map_length, seq_length, nth_map_seq in En by auto. specialize (En Hi). cbn [Nat.add] in En.
  rewrite legendre_1 in En. cbn [obind] in En. apply (f_equal (fun o => match o with Ok a => a | _ => 0 end)) in En. cbv beta iota in En. rewrite <- En.
  destruct (H i Hi) as (Hb & Hd). set (x := nth i (roots n) 0) in *. assert (0 < 1 - x * x) by nra. assert (0 < D n x * D n x) by nra.
  apply Rdiv_lt_0_compat; [apply Rdiv_lt_0_compat; lra|exact H1].
Qed.

(** for every n >= 1 the n-point Gauss rule built on the exact zeros exists, has positive weights and is exact up to degree
    2 n - 1; the rule built on the computed zeros has positive weights and its points are within 4e-16 of the exact ones *)
Theorem C107_gauss_rule : forall n fuel, (1 <= n)%nat -> (27 <= fuel)%nat -> exists computed zeros weights exact_weights,
  legendre_roots fuel n = Ok (Some computed) /\ gauss_rule (fun _ => computed) n = Ok (weights, computed) /\ gauss_rule (fun _ => zeros) n = Ok (exact_weights, zeros) /\
  length weights = n /\ length exact_weights = n /\ length computed = n /\ length zeros = n /\
  (forall i, (i < n)%nat -> 0 < nth i weights 0 /\ 0 < nth i exact_weights 0 /\ Rabs (nth i computed 0 - nth i zeros 0) <= 4 / 10 ^ 16) /\
  (forall f, polynomial (2 * n - 1) f -> is_RInt f (-1) 1 (rsum n (fun i => nth i exact_weights 0 * f (nth i zeros 0)))).
Proof.
  intros n fuel Hn Hf. destruct (roots_lemma n) as (computed & zeros & A & B & C & (E1 & E2) & F & G). destruct n as [|m]; [lia|]. set (n := S m) in *.
  assert (Hz : forall x, In x zeros -> P n x = 0) by (intros x; apply E2).
  destruct (C73_gauss_exact (fun _ => zeros) n Hn C (ascending_NoDup _ E1) Hz) as (ew & ep & Ee & Lew & Lep & Hex).
  assert (Hd : exists w p, gauss_rule (fun _ => computed) n = Ok (w, p)).
  { unfold n at 1. unfold gauss_rule. fold n. match goal with |- context [osequence ?l] => destruct (osequence_ok l) as (ws & Ew) end.
    - intros o Ho. apply in_map_iff in Ho. destruct Ho as (i & <- & _). rewrite legendre_1. cbn [obind]. eauto.
    - rewrite Ew. cbn [obind]. eauto. }
  destruct Hd as (w & p & Ec).
  destruct (gauss_weight_positive (fun _ => computed) n w p Hn Ec) as (-> & Lw & Pw); [intros i Hi; destruct (G i Hi) as (_ & G2 & G3 & _); auto|].
  destruct (gauss_weight_positive (fun _ => zeros) n ew ep Hn Ee) as (-> & _ & Pe).
  { intros i Hi. destruct (G i Hi) as (G1 & _). split; [exact G1|]. apply (simple m). apply Hz. apply nth_In. lia. }
  exists computed, zeros, w, ew. split; [apply A; exact Hf|]. split; [exact Ec|]. split; [exact Ee|]. split; [exact Lw|]. split; [exact Lew|]. split; [exact B|]. split; [exact C|].
  split; [|exact Hex]. intros i Hi. split; [apply Pw; exact Hi|]. split; [apply Pe; exact Hi|]. destruct (G i Hi) as (_ & _ & _ & G4). apply Rle_trans with (1 := G4). simpl. lra.
Qed.
Print Assumptions C107_gauss_rule.

(** the exact Lobatto rule exists for every n >= 2; LegendreDerivRoots(n - 1) returns its interior points up to 1e-15 *)
Theorem C107_lobatto_rule : forall n fuel, (2 <= n)%nat -> (43 <= fuel)%nat -> exists computed zeros exact_weights points,
  legendre_deriv_roots fuel (n - 1) = Ok (Some computed) /\ lobatto_rule (fun _ => zeros) n = Ok (exact_weights, points) /\
  points = [-1] ++ zeros ++ [1] /\ length computed = (n - 2)%nat /\ length zeros = (n - 2)%nat /\ ascending points /\
  (forall i, (i < n - 2)%nat -> Rabs (nth i computed 0 - nth i zeros 0) <= 1 / 10 ^ 15) /\
  (forall f, polynomial (2 * n - 3) f -> is_RInt f (-1) 1 (rsum n (fun i => nth i exact_weights 0 * f (nth i points 0)))).
Proof.
  intros n fuel Hn Hf. destruct (deriv_roots_lemma (n - 1)) as (computed & zeros & A & B & C & (E1 & E2) & F & G); [lia|].
  replace (n - 1 - 1)%nat with (n - 2)%nat in * by lia.
  destruct (C74_lobatto_exact (fun _ => zeros) n Hn C (ascending_NoDup _ E1)) as (w & p & Ee & Lw & Lp & P1 & P2 & Hex).
  { intros x Hx. rewrite <- D_Derive. apply E2. exact Hx. }
  assert (Ep : p = [-1] ++ zeros ++ [1]).
  { unfold lobatto_rule in Ee. destruct (Nat.leb n 1); [discriminate Ee|]. match type of Ee with context [osequence ?l] => destruct (osequence l) as [ws| |] end; try discriminate Ee.
    cbn [obind] in Ee. assert (Q : Some p = Some ([-1] ++ zeros ++ [1])); [|congruence]. change (Some p) with (match Ok (w, p) with Ok q => Some (snd q) | _ => None end). rewrite <- Ee. reflexivity. }
  exists computed, zeros, w, p. split; [apply A; exact Hf|]. split; [exact Ee|]. split; [exact Ep|]. split; [exact B|]. split; [exact C|]. split; [|split; [|exact Hex]].
  - rewrite Ep. intros i j Hij. rewrite !app_length in Hij. simpl in Hij.
    assert (N : forall k, (k < length zeros)%nat -> nth (S k) ([-1] ++ zeros ++ [1]) 0 = nth k zeros 0) by (intros k Hk; cbn [app nth]; rewrite app_nth1 by exact Hk; reflexivity).
    assert (NL : nth (S (length zeros)) ([-1] ++ zeros ++ [1]) 0 = 1) by (cbn [app nth]; rewrite app_nth2, Nat.sub_diag by lia; reflexivity).
    destruct j as [|j]; [lia|]. destruct (Nat.eq_dec j (length zeros)) as [->|Hj].
    + rewrite NL. destruct i as [|i]; [cbn [app nth]; lra|]. rewrite N by lia. destruct (G i ltac:(lia)) as (G1 & _). lra.
    + rewrite (N j) by lia. destruct i as [|i]; [cbn [app nth]; destruct (G j ltac:(lia)) as (G1 & _); lra|]. rewrite N by lia. apply E1. lia.
  - intros i Hi. apply G. exact Hi.
Qed.
Print Assumptions C107_lobatto_rule.

(** the exact Lobatto rule has positive weights, for every n >= 2 *)
Theorem C107_lobatto_weights : forall n zeros, (2 <= n)%nat -> length zeros = (n - 2)%nat -> zeros_of (Derive (P (n - 1))) zeros ->
  exists weights, lobatto_rule (fun _ => zeros) n = Ok (weights, [-1] ++ zeros ++ [1]) /\ length weights = n /\ forall i, (i < n)%nat -> 0 < nth i weights 0.
Proof.
  intros n zeros Hn Hl (_ & Hz). unfold lobatto_rule. destruct (Nat.leb_spec n 1) as [X|_]; [lia|]. cbv zeta.
  set (pts := [-1] ++ zeros ++ [1]). set (w := 2 / (INR n * (INR n - 1))).
  assert (Hw : 0 < w). { assert (2 <= INR n) by (change 2 with (INR 2); apply le_INR; lia). apply Rdiv_lt_0_compat; [lra|apply Rmult_lt_0_compat; lra]. }
  match goal with |- context [osequence ?l] => destruct (osequence_ok l) as (ws & Ew) end.
  { intros o Ho. apply in_map_iff in Ho. destruct Ho as (i & <- & _). rewrite legendre_0. cbn [obind]. eauto. }
  rewrite Ew. cbn [obind]. exists ([w] ++ ws ++ [w]). split; [reflexivity|].
  pose proof (osequence_length _ _ Ew) as HL. rewrite map_length, seq_length in HL.
  split; [rewrite !app_length; cbn [length]; lia|].
  intros i Hi. destruct i as [|i]; [exact Hw|]. change (0 < nth i (ws ++ [w]) 0). destruct (Nat.lt_ge_cases i (n - 2)) as [Li|Li].
  - rewrite app_nth1 by lia. pose proof (osequence_nth _ _ i 0 Ew) as En. rewrite map_length, seq_length in En. specialize (En Li).
    rewrite nth_map_seq in En by exact Li. rewrite legendre_0 in En. cbn [obind] in En.
    apply (f_equal (fun o => match o with Ok a => a | _ => 0 end)) in En. cbv beta iota in En. rewrite <- En.
    assert (Ex : nth (1 + i) pts 0 = nth i zeros 0) by (change (nth i (zeros ++ [1]) 0 = nth i zeros 0); apply app_nth1; lia). rewrite Ex.
    assert (HD : D (n - 1) (nth i zeros 0) = 0) by (rewrite D_Derive; apply Hz; apply nth_In; lia).
    assert (HP : P (n - 1) (nth i zeros 0) <> 0).
    { destruct (n - 1)%nat as [|k] eqn:Ek; [lia|]. intros E. exact (simple k _ E HD). }
    apply Rdiv_lt_0_compat; [exact Hw|]. destruct (Rdichotomy _ _ HP); nra.
  - rewrite app_nth2 by lia. replace (i - length ws)%nat with 0%nat by lia. exact Hw.
Qed.
Print Assumptions C107_lobatto_weights.

(** ** a concrete case: the two zeros of the second polynomial *)
Example C107_example : exists computed, legendre_roots 27 2 = Ok (Some computed) /\
  Rabs (nth 0 computed 0 + / sqrt 3) <= 4 / 10 ^ 16 /\ Rabs (nth 1 computed 0 - / sqrt 3) <= 4 / 10 ^ 16.
Proof.
  destruct (C107_roots 2 27 (le_n _)) as (computed & zeros & A & (E1 & E2) & L & Lc & F & G). exists computed. split; [exact A|].
  assert (HS : 0 < sqrt 3) by (apply sqrt_lt_R0; lra). assert (HQ : sqrt 3 * sqrt 3 = 3) by (apply sqrt_sqrt; lra).
  assert (P2 : forall x, P 2 x = (3 * (x * x) - 1) / 2) by (intros x; rewrite P_rec, P1, P0; simpl; field).
  assert (Hi : / sqrt 3 * / sqrt 3 = / 3) by (rewrite <- HQ at 3; field; lra). assert (Hip : 0 < / sqrt 3) by (apply Rinv_0_lt_compat; exact HS).
  destruct zeros as [|a [|b [|c zs]]]; simpl in L; try lia.
  assert (Hab : a < b) by (apply (E1 0%nat 1%nat); simpl; lia).
  assert (Ha : P 2 a = 0) by (apply E2; simpl; auto). assert (Hb : P 2 b = 0) by (apply E2; simpl; auto). rewrite P2 in Ha, Hb.
  assert (Sa : a = / sqrt 3 \/ a = - / sqrt 3).
  { assert (K : (a - / sqrt 3) * (a + / sqrt 3) = 0) by (replace ((a - / sqrt 3) * (a + / sqrt 3)) with (a * a - / sqrt 3 * / sqrt 3) by ring; lra).
    apply Rmult_integral in K. destruct K; [left|right]; lra. }
  assert (Sb : b = / sqrt 3 \/ b = - / sqrt 3).
  { assert (K : (b - / sqrt 3) * (b + / sqrt 3) = 0) by (replace ((b - / sqrt 3) * (b + / sqrt 3)) with (b * b - / sqrt 3 * / sqrt 3) by ring; lra).
    apply Rmult_integral in K. destruct K; [left|right]; lra. }
  assert (a = - / sqrt 3) by (destruct Sa, Sb; lra). assert (b = / sqrt 3) by (destruct Sa, Sb; lra). subst a b.
  destruct (G 0%nat) as (_ & _ & G0); [lia|]. destruct (G 1%nat) as (_ & _ & G1); [lia|]. cbn [nth] in G0, G1. cbn [nth]. split; [|exact G1].
  replace (nth 0 computed 0 + / sqrt 3) with (nth 0 computed 0 - - / sqrt 3) by ring. exact G0.
Qed.

(** the middle zero is found exactly *)
Example C107_example_middle : legendre_roots 1 1 = Ok (Some [0]).
Proof.
  unfold legendre_roots, find_roots, first_guess. cbn [seq map find_each]. rewrite guess_angle.
  assert (E : gangle 1 1 = PI / 2) by (unfold gangle, half; simpl; field). rewrite E, cos_PI2.
  cbn [find_root]. rewrite legendre_0. cbn [obind]. change (0 + 1)%nat with 1%nat. rewrite legendre_1. cbn [obind].
  assert (D1 : D 1 0 = 1) by (unfold D; simpl; lra). rewrite D1, P1. destruct (Req_EM_T 1 0) as [C|_]; [lra|].
  replace (0 - 0 / 1) with 0 by field. rewrite Rminus_0_r, Rabs_R0. destruct (Rlt_dec 0 (1 / 10 ^ 15)) as [_|C]; [reflexivity|]. exfalso. apply C. simpl. lra.
Qed.
