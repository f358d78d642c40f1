(** * C33, C73, C74: Legendre polynomials, Gauss and Gauss-Lobatto rules *)
From Coq Require Import List Arith Bool Reals Lra Lia ZArith.
From Coquelicot Require Import Coquelicot.
From Verif Require Import RSum Outcome LegendreModel LegendreSpec LegendreProofs PolyProofs QuadratureProofs.
Import ListNotations.
Local Open Scope R_scope.

(** C33: for every degree n and every point x, every derivative up to order 6 is computed without overflow and
    is the k-th derivative of the Legendre polynomial *)
Theorem C33_legendre_partial : forall (n k : nat) (x : R), (k <= 6)%nat ->
  exists v, legendre n x k = Ok v /\ is_derive_n (P n) k x v.
Proof.
  intros n k x Hk. destruct (legendre_defined n x k Hk) as (v & E). exists v. split; auto. apply legendre_lemma. exact E.
Qed.
Print Assumptions C33_legendre_partial.

(** whatever is returned is right, for every k *)
Theorem C33_returned_values : forall (n k : nat) (x v : R), legendre n x k = Ok v -> is_derive_n (P n) k x v.
Proof. exact (fun n k x v => legendre_lemma n x k v). Qed.
Print Assumptions C33_returned_values.

(** from the seventh derivative on the factorial does not fit into int *)
Theorem C33_overflow_refuted : forall (n k : nat) (x : R), (7 <= k)%nat -> (k <= n)%nat -> legendre n x k = UB.
Proof. exact (fun n k x => legendre_overflow n x k). Qed.
Print Assumptions C33_overflow_refuted.

Example C33_example : legendre 2 3 1 = Ok 9.
Proof. unfold legendre. simpl. f_equal. field. Qed.

(** ** the rules *)
Lemma osequence_ok {A} (l : list (outcome A)) : (forall o, In o l -> exists a, o = Ok a) -> exists r, osequence l = Ok r.
Proof.
  induction l as [|o l IH]; intros H; [exists []; reflexivity|]. destruct (H o (or_introl eq_refl)) as (a & ->).
  destruct IH as (r & E); [intros; apply H; right; auto|]. exists (a :: r). simpl. rewrite E. reflexivity.
Qed.
Lemma osequence_length {A} (l : list (outcome A)) : forall r, osequence l = Ok r -> length r = length l.
Proof.
  induction l as [|o l IH]; simpl; intros r E; [injection E as <-; reflexivity|]. destruct o as [a| |]; try discriminate. simpl in E.
  destruct (osequence l) as [r'| |]; try discriminate. simpl in E. injection E as <-. simpl. rewrite (IH r' eq_refl). reflexivity.
Qed.
Lemma osequence_nth {A} (l : list (outcome A)) : forall r i d, osequence l = Ok r -> (i < length l)%nat -> nth i l (Ok d) = Ok (nth i r d).
Proof.
  induction l as [|o l IH]; simpl; intros r i d E Hi; [lia|]. destruct o as [a| |]; try discriminate. simpl in E.
  destruct (osequence l) as [r'| |] eqn:El; try discriminate. simpl in E. injection E as <-. destruct i as [|i]; [reflexivity|]. simpl. apply IH; [reflexivity|lia].
Qed.
Lemma nth_map_seq (F : nat -> outcome R) s n i : (i < n)%nat -> nth i (map F (seq s n)) (Ok 0) = F (s + i)%nat.
Proof. intros Hi. rewrite nth_indep with (d' := F 0%nat) by (rewrite map_length, seq_length; auto). rewrite map_nth, seq_nth by auto. reflexivity. Qed.

Lemma polynomial_polylt d f : polynomial d f <-> polylt (S d) f. Proof. reflexivity. Qed.

Lemma is_derive_D n x v : is_derive_n (P n) 1 x v -> v = D n x.
Proof. intros H. apply is_derive_n_unique in H. rewrite <- H. simpl. apply is_derive_unique. apply D_derive. Qed.

(** C73: for exact, distinct zeros of the Legendre polynomial the n-point rule is defined and integrates every
    polynomial of degree at most 2 n - 1 over [-1, 1] *)
Theorem C73_gauss_exact : forall (roots : nat -> list R) (n : nat),
  (1 <= n)%nat -> length (roots n) = n -> NoDup (roots n) -> (forall x, In x (roots n) -> P n x = 0) ->
  exists weights points, gauss_rule roots n = Ok (weights, points) /\ length weights = n /\ length points = n /\
    forall f, polynomial (2 * n - 1) f ->
      is_RInt f (-1) 1 (rsum n (fun i => nth i weights 0 * f (nth i points 0))).
Proof.
  intros roots n Hn HL HN HZ. destruct n as [|n]; [lia|]. unfold gauss_rule. set (points := roots (S n)) in *.
  match goal with |- context [osequence ?l] => destruct (osequence_ok l) as (ws & Ew) end.
  { intros o Ho. apply in_map_iff in Ho. destruct Ho as (i & <- & _). destruct (legendre_defined (S n) (nth i points 0) 1) as (v & ->); [lia|]. simpl. eauto. }
  rewrite Ew. exists ws, points. split; [reflexivity|].
  pose proof (osequence_length _ _ Ew) as HLw. rewrite map_length, seq_length in HLw. split; [exact HLw|]. split; [exact HL|].
  intros f Hf. apply polynomial_polylt in Hf.
  rewrite (rsum_ext (S n) _ (fun i => 2 / (1 - nth i points 0 * nth i points 0) / (D (S n) (nth i points 0) * D (S n) (nth i points 0)) * f (nth i points 0))).
  - apply (gauss_weights n (fun i => nth i points 0)).
    + intros i j Hi Hj E. apply (proj1 (NoDup_nth points 0) HN i j); auto; lia.
    + intros i Hi. apply HZ. apply nth_In. lia.
    + revert Hf. apply polylt_mono. lia.
  - intros i Hi. f_equal. pose proof (osequence_nth _ _ i 0 Ew) as E. rewrite map_length, seq_length, nth_map_seq in E by auto. specialize (E Hi). cbn [Nat.add] in E.
    destruct (legendre (S n) (nth i points 0) 1) as [dl| |] eqn:El; try discriminate. cbn [obind] in E.
    apply (f_equal (fun o => match o with Ok a => a | _ => 0 end)) in E. cbv beta iota in E. rewrite <- E.
    apply legendre_lemma in El. apply is_derive_D in El. rewrite El. reflexivity.
Qed.
Print Assumptions C73_gauss_exact.

(** C74: with exact interior points the Lobatto rule contains both end points and integrates every polynomial of
    degree at most 2 n - 3 *)
Theorem C74_lobatto_exact : forall (roots : nat -> list R) (n : nat),
  (2 <= n)%nat -> length (roots (n - 1)%nat) = (n - 2)%nat -> NoDup (roots (n - 1)%nat) ->
  (forall x, In x (roots (n - 1)%nat) -> Derive (P (n - 1)) x = 0) ->
  exists weights points, lobatto_rule roots n = Ok (weights, points) /\ length weights = n /\ length points = n /\
    nth 0 points 0 = -1 /\ nth (n - 1) points 0 = 1 /\
    forall f, polynomial (2 * n - 3) f ->
      is_RInt f (-1) 1 (rsum n (fun i => nth i weights 0 * f (nth i points 0))).
Proof.
  intros roots n Hn HL HN HZ. destruct n as [|[|n]]; try lia. replace (S (S n) - 1)%nat with (S n) in * by lia. replace (S (S n) - 2)%nat with n in HL by lia.
  assert (HZ' : forall x, In x (roots (S n)) -> D (S n) x = 0) by (intros x Hx; rewrite <- (HZ x Hx); symmetry; apply is_derive_unique; apply D_derive).
  unfold lobatto_rule. cbn [Nat.leb]. replace (S (S n) - 1)%nat with (S n) by lia. replace (S (S n) - 2)%nat with n by lia.
  set (points := [-1] ++ roots (S n) ++ [1]). set (w := 2 / (INR (S (S n)) * (INR (S (S n)) - 1))).
  match goal with |- context [osequence ?l] => destruct (osequence_ok l) as (ws & Ew) end.
  { intros o Ho. apply in_map_iff in Ho. destruct Ho as (i & <- & _). destruct (legendre_defined (S n) (nth i points 0) 0) as (v & ->); [lia|]. simpl. eauto. }
  rewrite Ew. exists ([w] ++ ws ++ [w]), points. split; [reflexivity|].
  pose proof (osequence_length _ _ Ew) as HLw. rewrite map_length, seq_length in HLw.
  assert (HLp : length points = S (S n)) by (unfold points; simpl; rewrite app_length, HL; simpl; lia).
  assert (HLws : length ([w] ++ ws ++ [w]) = S (S n)) by (simpl; rewrite app_length, HLw; simpl; lia).
  assert (Hp1 : nth (S n) points 0 = 1) by (unfold points; simpl; rewrite app_nth2, HL, Nat.sub_diag by lia; reflexivity).
  assert (Hpi : forall i, (0 < i < S n)%nat -> In (nth i points 0) (roots (S n))).
  { intros i Hi. destruct i as [|i]; [lia|]. unfold points. simpl. rewrite app_nth1 by lia. apply nth_In. lia. }
  split; [exact HLws|]. split; [exact HLp|]. split; [reflexivity|]. split; [exact Hp1|].
  assert (Hpm : D (S n) (-1) <> 0).
  { rewrite D_at_m1. assert (H := pow_nonzero (-1) (S n) ltac:(lra)). pose proof (pos_INR n). rewrite S_INR.
    apply Rmult_integral_contrapositive_currified; [apply Ropp_neq_0_compat; exact H|]. unfold Rdiv. repeat apply Rmult_integral_contrapositive_currified; lra. }
  assert (Hpp : D (S n) 1 <> 0).
  { rewrite D_at_1. pose proof (pos_INR n). rewrite S_INR. unfold Rdiv. repeat apply Rmult_integral_contrapositive_currified; lra. }
  assert (HND : NoDup points).
  { unfold points. simpl. constructor.
    - intros Hin. apply in_app_or in Hin. destruct Hin as [Hin|[Hin|[]]]; [apply Hpm; auto|lra].
    - apply NoDup_rev in HN. rewrite <- (rev_involutive (roots (S n) ++ [1])). apply NoDup_rev. rewrite rev_app_distr. simpl.
      constructor; auto. intros Hin. apply in_rev in Hin. apply Hpp. auto. }
  intros f Hf. apply polynomial_polylt in Hf.
  rewrite (rsum_ext (S (S n)) _ (fun i => 2 / ((INR n + 2) * (INR n + 1)) / (P (S n) (nth i points 0) * P (S n) (nth i points 0)) * f (nth i points 0))).
  - apply (lobatto_weights n (fun i => nth i points 0)).
    + reflexivity.
    + exact Hp1.
    + intros i j Hi Hj E. apply (proj1 (NoDup_nth points 0) HND i j); auto; lia.
    + intros i Hi. apply HZ'. apply Hpi. exact Hi.
    + revert Hf. apply polylt_mono. lia.
  - assert (Ew0 : w = 2 / ((INR n + 2) * (INR n + 1))) by (unfold w; rewrite !S_INR; pose proof (pos_INR n); field; lra).
    assert (Hs : (-1) ^ S n * (-1) ^ S n = 1) by (rewrite <- Rpow_mult_distr; replace (-1 * -1) with 1 by ring; apply pow1).
    intros i Hi. f_equal. destruct (Nat.eq_dec i 0) as [->|H0].
    { change (w = 2 / ((INR n + 2) * (INR n + 1)) / (P (S n) (-1) * P (S n) (-1))). rewrite P_at_m1, Hs, <- Ew0. field. }
    destruct (Nat.eq_dec i (S n)) as [->|H1].
    { rewrite Hp1, P_at_1, <- Ew0. simpl. rewrite app_nth2, HLw, Nat.sub_diag by lia. simpl. field. }
    destruct i as [|i]; [lia|]. assert (Hin : (i < n)%nat) by lia.
    pose proof (osequence_nth _ _ i 0 Ew) as E. rewrite map_length, seq_length, nth_map_seq in E by auto. specialize (E Hin).
    change (1 + i)%nat with (S i) in E. change (nth (S i) ([w] ++ ws ++ [w]) 0) with (nth i (ws ++ [w]) 0). rewrite app_nth1 by lia.
    destruct (legendre (S n) (nth (S i) points 0) 0) as [lp| |] eqn:El; try discriminate. cbn [obind] in E.
    apply (f_equal (fun o => match o with Ok a => a | _ => 0 end)) in E. cbv beta iota in E. rewrite <- E.
    apply legendre_lemma in El. simpl in El. rewrite <- El, <- Ew0. reflexivity.
Qed.
Print Assumptions C74_lobatto_exact.

(** the rules reject too few points *)
Theorem C73_C74_rejected : forall roots, gauss_rule roots 0 = Throw /\ lobatto_rule roots 0 = Throw /\ lobatto_rule roots 1 = Throw.
Proof. intros roots. repeat split. Qed.
Print Assumptions C73_C74_rejected.

(** two Gauss points at -+ sqrt(1/3), three Lobatto points *)
Definition roots2 (n : nat) : list R := match n with 2%nat => [- sqrt (1 / 3); sqrt (1 / 3)] | _ => [] end.
Example C73_hypotheses : length (roots2 2) = 2%nat /\ NoDup (roots2 2) /\ forall x, In x (roots2 2) -> P 2 x = 0.
Proof.
  assert (Hs : sqrt (1 / 3) * sqrt (1 / 3) = 1 / 3) by (apply sqrt_def; lra). assert (Hp : 0 < sqrt (1 / 3)) by (apply sqrt_lt_R0; lra).
  split; [reflexivity|]. split.
  - constructor; [intros [H|[]]; lra|]. constructor; [intros []|constructor].
  - intros x [<-|[<-|[]]]; unfold P; simpl; lra.
Qed.
Example C74_hypotheses : length [0] = 1%nat /\ NoDup [0] /\ forall x, In x [0] -> Derive (P 2) x = 0.
Proof.
  split; [reflexivity|]. split; [constructor; [intros []|constructor]|]. intros x [<-|[]].
  rewrite (is_derive_unique _ _ _ (D_derive 2 0)). unfold D. simpl. rewrite P1. field.
Qed.
