(** * Proofs for C33 *)
From Coq Require Import List Arith Bool Reals Lra Lia ZArith.
From Coquelicot Require Import Coquelicot.
From Verif Require Import Outcome RSum LegendreModel LegendreSpec.
Import ListNotations.
Local Open Scope R_scope.

Lemma P0 x : P 0 x = 1. Proof. reflexivity. Qed.
Lemma P1 x : P 1 x = x. Proof. reflexivity. Qed.
Lemma pair_snd n x : snd (legendre_pair n x) = P (S n) x.
Proof. unfold P. simpl. destruct (legendre_pair n x). reflexivity. Qed.
Lemma bonnet n x : (INR n + 2) * P (S (S n)) x = (2 * INR n + 3) * x * P (S n) x - (INR n + 1) * P n x.
Proof.
  rewrite <- !pair_snd. simpl. unfold P. destruct (legendre_pair n x) as (a, b). simpl. field. pose proof (pos_INR n). lra.
Qed.
Lemma P_rec n x : P (S (S n)) x = ((2 * INR n + 3) * x * P (S n) x - (INR n + 1) * P n x) / (INR n + 2).
Proof. pose proof (pos_INR n). rewrite <- bonnet. field. lra. Qed.

(** strong induction with two predecessors *)
Lemma two_ind (Q : nat -> Prop) : Q 0%nat -> Q 1%nat -> (forall n, Q n -> Q (S n) -> Q (S (S n))) -> forall n, Q n.
Proof. intros H0 H1 HS. assert (H : forall n, Q n /\ Q (S n)); [|intros n; apply H]. induction n as [|n (A & B)]; auto. Qed.

(** derivative by the differentiated recursion *)
Fixpoint D_pair (n : nat) (x : R) : R * R :=
  match n with
  | O => (0, 1)
  | S m => let (a, b) := D_pair m x in (b, ((2 * INR m + 3) * (P (S m) x + x * b) - (INR m + 1) * a) / (INR m + 2))
  end.
Definition D (n : nat) (x : R) : R := fst (D_pair n x).
Lemma D_pair_snd n x : snd (D_pair n x) = D (S n) x.
Proof. unfold D. simpl. destruct (D_pair n x). reflexivity. Qed.
Lemma D_rec n x : D (S (S n)) x = ((2 * INR n + 3) * (P (S n) x + x * D (S n) x) - (INR n + 1) * D n x) / (INR n + 2).
Proof. rewrite <- !D_pair_snd. simpl. unfold D. destruct (D_pair n x) as (a, b). reflexivity. Qed.

Lemma D_derive n : forall x, is_derive (P n) x (D n x).
Proof.
  induction n as [| |n IH0 IH1] using two_ind; intros x.
  - apply (is_derive_const (K := R_AbsRing) (V := R_NormedModule) 1 x).
  - apply (is_derive_id (K := R_AbsRing) x).
  - apply (is_derive_ext (fun x => ((2 * INR n + 3) * x * P (S n) x - (INR n + 1) * P n x) / (INR n + 2))); [intros t; symmetry; apply P_rec|].
    rewrite D_rec. specialize (IH0 x). specialize (IH1 x).
    auto_derive; [split; [exists (D (S n) x); auto|split; [exists (D n x); auto|auto]]|].
    replace (Derive (fun x0 => P (S n) x0) x) with (D (S n) x) by (symmetry; apply is_derive_unique; auto).
    replace (Derive (fun x0 => P n x0) x) with (D n x) by (symmetry; apply is_derive_unique; auto).
    field. pose proof (pos_INR n). lra.
Qed.

(** D (n+1) = x D n + (n+1) P n   and   x D (n+1) - D n = (n+1) P (n+1) *)
Lemma D_identities n x : D (S n) x = x * D n x + (INR n + 1) * P n x /\ x * D (S n) x - D n x = (INR n + 1) * P (S n) x.
Proof.
  induction n as [|n (I & II)].
  - unfold D. simpl. rewrite P0, P1. split; ring.
  - pose proof (pos_INR n) as Hn.
    assert (I' : D (S (S n)) x = x * D (S n) x + (INR (S n) + 1) * P (S n) x).
    { rewrite D_rec, S_INR. apply (Rmult_eq_reg_r (INR n + 2)); [|lra]. unfold Rdiv. rewrite Rmult_assoc, Rinv_l by lra.
      assert (Dn : D n x = x * D (S n) x - (INR n + 1) * P (S n) x) by lra. rewrite Dn. ring. }
    split; [exact I'|]. rewrite I'. rewrite S_INR.
    assert (E : x * x * D (S n) x - D (S n) x = (INR n + 1) * (x * P (S n) x - P n x)).
    { assert (A : x * x * D (S n) x = x * (D n x + (INR n + 1) * P (S n) x)) by (rewrite <- II; ring). rewrite A.
      rewrite I at 1. ring. }
    transitivity ((x * x * D (S n) x - D (S n) x) + (INR n + 2) * x * P (S n) x); [ring|].
    rewrite E, P_rec. field. lra.
Qed.

Lemma D_difference n x : D (S (S n)) x - D n x = (2 * INR n + 3) * P (S n) x.
Proof.
  destruct (D_identities (S n) x) as (I & _). destruct (D_identities n x) as (_ & II). rewrite S_INR in I. rewrite I.
  replace (D n x) with (x * D (S n) x - (INR n + 1) * P (S n) x) by lra. ring.
Qed.

(** (1 - x^2) P' n = n (P (n-1) - x P n) *)
Lemma D_closed n x : (1 - x * x) * D (S n) x = (INR n + 1) * (P n x - x * P (S n) x).
Proof.
  destruct (D_identities n x) as (I & II).
  assert (A : x * x * D (S n) x = x * (D n x + (INR n + 1) * P (S n) x)) by (rewrite <- II; ring).
  replace ((1 - x * x) * D (S n) x) with (D (S n) x - x * x * D (S n) x) by ring. rewrite A, I at 1. ring.
Qed.

(** ** all derivatives *)
(** column k+1 from column k: (Q n, Q (n+1)) *)
Fixpoint next_pair (q : nat -> R) (n : nat) : R * R :=
  match n with
  | O => (0, q 0%nat)
  | S m => let (a, b) := next_pair q m in (b, a + (2 * INR m + 3) * q (S m))
  end.
Fixpoint Q (k : nat) (x : R) : nat -> R := match k with O => fun n => P n x | S k' => fun n => fst (next_pair (Q k' x) n) end.
Lemma next_pair_snd q n : snd (next_pair q n) = fst (next_pair q (S n)).
Proof. simpl. destruct (next_pair q n). reflexivity. Qed.
Lemma Q_rec k x n : Q (S k) x (S (S n)) = Q (S k) x n + (2 * INR n + 3) * Q k x (S n).
Proof.
  change (Q (S k) x (S (S n))) with (fst (next_pair (Q k x) (S (S n)))). change (Q (S k) x n) with (fst (next_pair (Q k x) n)).
  rewrite <- next_pair_snd. cbn [next_pair]. destruct (next_pair (Q k x) n) as (a, b). reflexivity. Qed.
Lemma Q_0 k x : Q (S k) x 0 = 0. Proof. reflexivity. Qed.
Lemma Q_1 k x : Q (S k) x 1 = Q k x 0. Proof. reflexivity. Qed.

Lemma Q1_D n x : Q 1 x n = D n x.
Proof.
  induction n as [| |n IH0 IH1] using two_ind; [reflexivity|reflexivity|]. rewrite Q_rec, IH0.
  pose proof (D_difference n x). change (Q 0 x (S n)) with (P (S n) x). lra.
Qed.

Lemma Q_derive k : forall n x, is_derive (fun x => Q k x n) x (Q (S k) x n).
Proof.
  induction k as [|k IHk]; intros n x.
  - rewrite Q1_D. apply D_derive.
  - induction n as [| |n IH0 IH1] using two_ind.
    + apply (is_derive_ext (fun _ => 0)); [reflexivity|]. apply (is_derive_const (K := R_AbsRing) (V := R_NormedModule) 0 x).
    + apply IHk.
    + apply (is_derive_ext (fun x => Q (S k) x n + (2 * INR n + 3) * Q k x (S n))); [intros t; symmetry; apply Q_rec|].
      rewrite (Q_rec (S k)). apply (is_derive_plus (fun x => Q (S k) x n) (fun x => (2 * INR n + 3) * Q k x (S n))); [exact IH0|].
      apply (is_derive_scal (fun x => Q k x (S n)) x (2 * INR n + 3)). apply IHk.
Qed.

Lemma Q_bonnet k : forall n x, (INR n + 2) * Q k x (S (S n)) =
  (2 * INR n + 3) * (x * Q k x (S n) + INR k * match k with O => 0 | S k' => Q k' x (S n) end) - (INR n + 1) * Q k x n.
Proof.
  induction k as [|k IH]; intros n x.
  - simpl. rewrite bonnet. ring.
  - set (f := fun x => (INR n + 2) * Q k x (S (S n))).
    set (g := fun x => (2 * INR n + 3) * (x * Q k x (S n) + INR k * match k with O => 0 | S k' => Q k' x (S n) end) - (INR n + 1) * Q k x n).
    assert (Df : is_derive f x ((INR n + 2) * Q (S k) x (S (S n)))) by (apply (is_derive_scal (fun x => Q k x (S (S n)))); apply Q_derive).
    assert (Dk : is_derive (fun x => INR k * match k with O => 0 | S k' => Q k' x (S n) end) x (INR k * Q k x (S n))).
    { destruct k as [|k'].
      - simpl INR. apply (is_derive_ext (fun _ => 0)); [intros t; symmetry; apply Rmult_0_l|]. rewrite Rmult_0_l. apply (is_derive_const (K := R_AbsRing) (V := R_NormedModule) 0 x).
      - apply (is_derive_scal (fun x => Q k' x (S n))). apply Q_derive. }
    assert (Dg : is_derive g x ((2 * INR n + 3) * ((1 * Q k x (S n) + x * Q (S k) x (S n)) + INR k * Q k x (S n)) - (INR n + 1) * Q (S k) x n)).
    { unfold g. apply (is_derive_minus (fun x => (2 * INR n + 3) * (x * Q k x (S n) + INR k * match k with O => 0 | S k' => Q k' x (S n) end)) (fun x => (INR n + 1) * Q k x n)).
      - apply (is_derive_scal (fun x => x * Q k x (S n) + INR k * match k with O => 0 | S k' => Q k' x (S n) end)).
        apply (is_derive_plus (fun x => x * Q k x (S n))); [|exact Dk].
        apply (is_derive_mult (fun x => x) (fun x => Q k x (S n)) x 1 (Q (S k) x (S n))); [apply (is_derive_id (K := R_AbsRing))|apply Q_derive|intros; apply Rmult_comm].
      - apply (is_derive_scal (fun x => Q k x n)). apply Q_derive. }
    assert (E : forall t, f t = g t) by (intros t; apply IH).
    pose proof (is_derive_unique _ _ _ Df) as U1. pose proof (is_derive_unique _ _ _ Dg) as U2.
    rewrite (Derive_ext f g x E), U2 in U1. rewrite <- U1, S_INR. ring.
Qed.

Lemma Q_low k : forall n x, (n < k)%nat -> Q k x n = 0.
Proof.
  induction k as [|k IH]; intros n x Hn; [lia|]. revert Hn. induction n as [| |n IH0 IH1] using two_ind; intros Hn.
  - reflexivity.
  - rewrite Q_1. apply IH. lia.
  - rewrite Q_rec, IH0, IH by lia. ring.
Qed.

Lemma Q_diag k x : Q k x k = INR (fact (2 * k)) / (2 ^ k * INR (fact k)).
Proof.
  induction k as [|k IH]; [change (Q 0 x 0) with 1; simpl; field|].
  assert (E : Q (S k) x (S k) = (2 * INR k + 1) * Q k x k).
  { destruct k as [|k]; [rewrite Q_1; simpl; ring|]. rewrite Q_rec, (Q_low (S (S k))) by lia. rewrite !S_INR. ring. }
  assert (F : INR (fact (2 * S k)) = (2 * INR k + 2) * ((2 * INR k + 1) * INR (fact (2 * k)))).
  { replace (2 * S k)%nat with (S (S (2 * k))) by lia.
    replace (fact (S (S (2 * k)))) with (S (S (2 * k)) * (S (2 * k) * fact (2 * k)))%nat by reflexivity.
    rewrite !mult_INR, !S_INR, !mult_INR. simpl (INR 2). simpl (INR 0). ring. }
  rewrite E, IH, F. replace (fact (S k)) with (S k * fact k)%nat by reflexivity. rewrite mult_INR, S_INR.
  pose proof (pos_INR k). pose proof (INR_fact_neq_0 k). assert (2 ^ k <> 0) by (apply pow_nonzero; lra).
  replace (2 ^ S k) with (2 * 2 ^ k) by reflexivity. field. repeat split; auto; lra.
Qed.

Lemma Q_code k n x : (k <= n)%nat -> INR (S (S n) - k) * Q k x (S (S n)) = (2 * INR (S (S n)) - 1) * x * Q k x (S n) - (INR (S (S n)) - 1 + INR k) * Q k x n.
Proof.
  intros Hk. rewrite minus_INR by lia. rewrite !S_INR. pose proof (Q_bonnet k n x) as B. destruct k as [|k].
  - simpl INR in *. simpl in B. simpl. lra.
  - pose proof (Q_rec k x n) as Rr. rewrite S_INR in *.
    assert (E : (2 * INR n + 3) * Q k x (S n) = Q (S k) x (S (S n)) - Q (S k) x n) by lra.
    assert (E2 : (2 * INR n + 3) * (x * Q (S k) x (S n) + (INR k + 1) * Q k x (S n)) = (2 * INR n + 3) * x * Q (S k) x (S n) + (INR k + 1) * (Q (S k) x (S (S n)) - Q (S k) x n)) by (rewrite <- E; ring).
    rewrite E2 in B. lra.
Qed.

Lemma Q_code1 k x : Q k x (S k) = (2 * INR (S k) - 1) * x * Q k x k.
Proof.
  destruct k as [|k]; [simpl; rewrite P1, P0; ring|].
  pose proof (Q_bonnet (S k) k x) as B. pose proof (Q_rec k x k) as Rr. rewrite (Q_low (S k) k) in B, Rr by lia.
  rewrite !S_INR in *. pose proof (pos_INR k).
  assert (E : (2 * INR k + 3) * (x * Q (S k) x (S k) + (INR k + 1) * Q k x (S k)) = (2 * INR k + 3) * x * Q (S k) x (S k) + (INR k + 1) * ((2 * INR k + 3) * Q k x (S k))) by ring.
  rewrite E in B. replace ((2 * INR k + 3) * Q k x (S k)) with (Q (S k) x (S (S k))) in B by lra. lra.
Qed.

Lemma vals_spec k x : forall j, legendre_vals (Q k x k) k x j = (Q k x (k + j), match j with O => 0 | S j' => Q k x (k + j') end).
Proof.
  induction j as [|j IH]; [simpl; rewrite Nat.add_0_r; reflexivity|]. cbn [legendre_vals]. rewrite IH. f_equal.
  replace (k + S j - k)%nat with (S j) by lia. pose proof (pos_INR j). apply (Rmult_eq_reg_r (INR (S j))); [|rewrite S_INR; lra].
  unfold Rdiv. rewrite Rmult_assoc, Rinv_l, Rmult_1_r by (rewrite S_INR; lra).
  destruct j as [|j].
  - rewrite Nat.add_0_r, Nat.add_1_r, Q_code1. simpl. ring.
  - pose proof (Q_code k (k + j) x ltac:(lia)) as E. replace (S (S (k + j)) - k)%nat with (S (S j)) in E by lia.
    replace (k + S (S j))%nat with (S (S (k + j))) by lia. replace (k + S j)%nat with (S (k + j)) by lia.
    rewrite (Rmult_comm _ (INR (S (S j)))), E. reflexivity.
Qed.

Lemma Q_derive_n k : forall n x, is_derive_n (P n) k x (Q k x n).
Proof.
  induction k as [|k IH]; intros n x; [reflexivity|]. simpl is_derive_n.
  apply (is_derive_ext (fun x => Q k x n)); [|apply Q_derive]. intros t. symmetry. apply is_derive_n_unique. apply IH.
Qed.

Lemma legendre_lemma n x k v : legendre n x k = Ok v -> is_derive_n (P n) k x v.
Proof.
  unfold legendre. destruct (Nat.leb_spec k n) as [Hk|Hk].
  - unfold int_factorial. destruct (Z.leb _ _); [|discriminate]. cbn [obind]. destruct (Z.leb _ _); [|discriminate]. cbn [obind]. intros E. apply (f_equal (fun o => match o with Ok a => a | _ => 0 end)) in E. cbv beta iota in E. subst v.
    rewrite <- (Q_diag k x), vals_spec. cbn [fst]. replace (k + (n - k))%nat with n by lia. apply Q_derive_n.
  - intros [= <-]. rewrite <- (Q_low k n x Hk). apply Q_derive_n.
Qed.

Lemma legendre_defined n x k : (k <= 6)%nat -> exists v, legendre n x k = Ok v.
Proof.
  intros Hk. unfold legendre. destruct (Nat.leb k n); [|eauto]. unfold int_factorial.
  assert (F : forall i, (i <= 12)%nat -> Z.leb (Z.of_nat (fact i)) (2 ^ 31 - 1) = true).
  { intros i Hi. apply Z.leb_le. transitivity 479001600%Z; [|change (2 ^ 31 - 1)%Z with 2147483647%Z; lia].
    assert (E : forall i, Z.of_nat (fact i) = (fix f n := match n with O => 1 | S m => Z.of_nat (S m) * f m end)%Z i).
    { induction i0 as [|m IHm]; [reflexivity|]. change (fact (S m)) with (S m * fact m)%nat. rewrite Nat2Z.inj_mul, IHm. reflexivity. }
    rewrite E. do 13 (destruct i as [|i]; [vm_compute; discriminate|]). lia. }
  rewrite !F by lia. cbn [obind]. eauto.
Qed.

Lemma legendre_overflow n x k : (7 <= k)%nat -> (k <= n)%nat -> legendre n x k = UB.
Proof.
  intros Hk Hn. unfold legendre. destruct (Nat.leb_spec k n); [|lia]. unfold int_factorial at 1.
  assert (F : forall i, (14 <= i)%nat -> (2 ^ 31 <= Z.of_nat (fact i))%Z).
  { intros i Hi. induction Hi as [|i Hi IH].
    - assert (E : forall i, Z.of_nat (fact i) = (fix f n := match n with O => 1 | S m => Z.of_nat (S m) * f m end)%Z i).
      { induction i as [|m IHm]; [reflexivity|]. change (fact (S m)) with (S m * fact m)%nat. rewrite Nat2Z.inj_mul, IHm. reflexivity. }
      rewrite E. vm_compute. discriminate.
    - change (fact (S i)) with (S i * fact i)%nat. rewrite Nat2Z.inj_mul. change (2 ^ 31)%Z with 2147483648%Z in *. nia. }
  destruct (Z.leb_spec (Z.of_nat (fact (2 * k))) (2 ^ 31 - 1)) as [H1|H1]; [|reflexivity].
  specialize (F (2 * k)%nat ltac:(lia)). change (2 ^ 31 - 1)%Z with 2147483647%Z in *. change (2 ^ 31)%Z with 2147483648%Z in *. lia.
Qed.
