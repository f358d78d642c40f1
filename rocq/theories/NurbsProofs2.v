(** * The triangular table and the derivative table compute the B-spline pieces and their derivatives *)
From Coq Require Import List Arith Bool Reals Lra Lia Psatz.
From Coquelicot Require Import Coquelicot.
From Verif Require Import RSum Outcome AdaptiveModel AdaptiveProofs NurbsModel NurbsSpec NurbsProofs.
Import ListNotations.
Local Open Scope R_scope.

Lemma mset_same m i j x : mset m i j x i j = x.
Proof. unfold mset. rewrite !Nat.eqb_refl. reflexivity. Qed.
Lemma mset_other m i j x a b : (a <> i \/ b <> j)%nat -> mset m i j x a b = m a b.
Proof. intros H. unfold mset. destruct (Nat.eqb_spec a i), (Nat.eqb_spec b j); simpl; try reflexivity. lia. Qed.
Lemma vset_same v i x : vset v i x i = x.
Proof. unfold vset. rewrite Nat.eqb_refl. reflexivity. Qed.
Lemma vset_other v i x k : (k <> i)%nat -> vset v i x k = v k.
Proof. intros H. unfold vset. destruct (Nat.eqb_spec k i); [lia|reflexivity]. Qed.

Section Table.
Variables (knots : list R) (i : nat) (t : R) (degree : nat).
Hypothesis Hm : nondecreasing knots.
Hypothesis Hspan : knot knots i < knot knots (i + 1).
Hypothesis Hdi : (degree <= i)%nat.
Hypothesis Hdl : (i + degree < length knots)%nat.
Notation u := (knot knots).
Notation P := (piece knots i).

(** ndu(r, q), r <= q: values of degree q;  ndu(q, r), r < q: knot differences *)
Definition ndu_good (j : nat) (ndu : nat -> nat -> R) : Prop :=
  (forall q r, (q <= j)%nat -> (r <= q)%nat -> ndu r q = P q (i - q + r)%nat t) /\
  (forall q r, (q <= j)%nat -> (r < q)%nat -> ndu q r = u (i + r + 1)%nat - u (i + 1 - q + r)%nat).

Lemma ndu_inner_spec j left right : (1 <= j <= degree)%nat ->
  (forall q, (1 <= q <= j)%nat -> left q = t - u (i + 1 - q)%nat) ->
  (forall q, (1 <= q <= j)%nat -> right q = u (i + q)%nat - t) ->
  forall cnt r saved ndu,
  (r + cnt = j)%nat ->
  ndu_good (j - 1) ndu ->
  (forall q, (q < r)%nat -> ndu q j = P j (i - j + q)%nat t) ->
  (forall q, (q < r)%nat -> ndu j q = u (i + q + 1)%nat - u (i + 1 - j + q)%nat) ->
  saved = cdiv (t - u (i - j + r)%nat) (u (i - j + r + j)%nat - u (i - j + r)%nat) * P (j - 1) (i - j + r)%nat t ->
  let '(s, ndu') := ndu_inner cnt left right j r saved ndu in
  ndu_good (j - 1) ndu' /\
  (forall q, (q < j)%nat -> ndu' q j = P j (i - j + q)%nat t) /\
  (forall q, (q < j)%nat -> ndu' j q = u (i + q + 1)%nat - u (i + 1 - j + q)%nat) /\
  s = P j i t.
Proof.
  intros Hj HL HR. induction cnt as [|cnt IH]; intros r saved ndu Hr Hg H1 H2 Hs.
  - simpl. assert (r = j) by lia. subst r. split; [exact Hg|]. split; [exact H1|]. split; [exact H2|].
    rewrite Hs. destruct j as [|j]; [lia|]. rewrite P_S. replace (S j - 1)%nat with j by lia.
    replace (i - S j + S j)%nat with i by lia. rewrite (P_out knots i j (i + 1)) by lia. ring.
  - cbn [ndu_inner]. cbv zeta.
    assert (Hd : right (S r) + left (j - r)%nat = u (i + r + 1)%nat - u (i + 1 - j + r)%nat).
    { rewrite HL, HR by lia. replace (i + S r)%nat with (i + r + 1)%nat by lia.
      replace (i + 1 - (j - r))%nat with (i + 1 - j + r)%nat by lia. ring. }
    assert (Hw : 0 < u (i + r + 1)%nat - u (i + 1 - j + r)%nat).
    { pose proof (width_pos knots i Hm Hspan (i + 1 - j + r) j ltac:(lia) ltac:(lia) ltac:(lia)) as W.
      replace (i + 1 - j + r + j)%nat with (i + r + 1)%nat in W by lia. exact W. }
    rewrite Hd. rewrite mset_same.
    assert (Hv : mset ndu j r (u (i + r + 1)%nat - u (i + 1 - j + r)%nat) r (j - 1)%nat = P (j - 1) (i - j + r + 1)%nat t).
    { rewrite mset_other by lia. rewrite (proj1 Hg (j - 1)%nat r) by lia. f_equal. lia. }
    rewrite Hv.
    specialize (IH (S r) (left (j - r)%nat * (P (j - 1) (i - j + r + 1)%nat t / (u (i + r + 1)%nat - u (i + 1 - j + r)%nat)))
      (mset (mset ndu j r (u (i + r + 1)%nat - u (i + 1 - j + r)%nat)) r j
         (saved + right (S r) * (P (j - 1) (i - j + r + 1)%nat t / (u (i + r + 1)%nat - u (i + 1 - j + r)%nat))))).
    apply IH; clear IH.
    + lia.
    + destruct Hg as (G1 & G2). split; intros q s Hq Hs'; rewrite !mset_other by lia; [apply G1|apply G2]; lia.
    + intros q Hq. destruct (Nat.eq_dec q r) as [->|Hqr].
      * rewrite mset_same. rewrite Hs. destruct j as [|j]; [lia|]. rewrite P_S. replace (S j - 1)%nat with j by lia.
        f_equal. rewrite HR by lia.
        replace (i - S j + r + S j + 1)%nat with (i + r + 1)%nat by lia.
        replace (i + 1 - S j + r)%nat with (i - S j + r + 1)%nat in * by lia.
        replace (i + S r)%nat with (i + r + 1)%nat by lia.
        rewrite cdiv_pos by exact Hw. field. lra.
      * rewrite !mset_other by lia. apply H1. lia.
    + intros q Hq. destruct (Nat.eq_dec q r) as [->|Hqr].
      * rewrite mset_other by lia. apply mset_same.
      * rewrite !mset_other by lia. apply H2. lia.
    + rewrite HL by lia. replace (i + 1 - (j - r))%nat with (i - j + S r)%nat by lia.
      replace (i - j + S r + j)%nat with (i + r + 1)%nat by lia.
      replace (i + 1 - j + r)%nat with (i - j + S r)%nat in * by lia.
      replace (i - j + r + 1)%nat with (i - j + S r)%nat by lia.
      rewrite cdiv_pos by exact Hw. field. lra.
Qed.

Lemma ndu_outer_spec : forall cnt j s, (1 <= j)%nat -> (j + cnt = S degree)%nat ->
  (forall q, (1 <= q < j)%nat -> st_left s q = t - u (i + 1 - q)%nat) ->
  (forall q, (1 <= q < j)%nat -> st_right s q = u (i + q)%nat - t) ->
  ndu_good (j - 1) (st_ndu s) ->
  ndu_good degree (st_ndu (ndu_outer cnt t i u j s)).
Proof.
  induction cnt as [|cnt IH]; intros j s Hj Hc HL HR Hg.
  - simpl. replace degree with (j - 1)%nat by lia. exact Hg.
  - cbn [ndu_outer]. cbv zeta.
    set (left := vset (st_left s) j (t - u (i + 1 - j)%nat)). set (right := vset (st_right s) j (u (i + j)%nat - t)).
    assert (HL' : forall q, (1 <= q <= j)%nat -> left q = t - u (i + 1 - q)%nat).
    { intros q Hq. unfold left. destruct (Nat.eq_dec q j) as [->|]; [apply vset_same|rewrite vset_other by assumption; apply HL; lia]. }
    assert (HR' : forall q, (1 <= q <= j)%nat -> right q = u (i + q)%nat - t).
    { intros q Hq. unfold right. destruct (Nat.eq_dec q j) as [->|]; [apply vset_same|rewrite vset_other by assumption; apply HR; lia]. }
    pose proof (ndu_inner_spec j left right ltac:(lia) HL' HR' j 0 0 (st_ndu s) ltac:(lia) Hg ltac:(lia) ltac:(lia)) as S.
    destruct (ndu_inner j left right j 0 0 (st_ndu s)) as (sv, nd).
    destruct S as (S1 & S2 & S3 & S4).
    { rewrite (P_out knots i (j - 1) (i - j + 0)) by lia. ring. }
    apply IH; simpl; [lia|lia| | |].
    + intros q Hq. apply HL'. lia.
    + intros q Hq. apply HR'. lia.
    + rewrite Nat.sub_0_r. destruct S1 as (G1 & G2). split; intros q r Hq Hr.
      * destruct (Nat.eq_dec q j) as [->|]; [|rewrite mset_other by lia; apply G1; lia].
        destruct (Nat.eq_dec r j) as [->|]; [rewrite mset_same, S4; f_equal; lia|].
        rewrite mset_other by lia. apply S2. lia.
      * rewrite mset_other by lia. destruct (Nat.eq_dec q j) as [->|]; [apply S3; lia|apply G2; lia].
Qed.

Lemma ndu_table_spec junk : ndu_good degree (ndu_table junk t i degree u).
Proof.
  unfold ndu_table. apply ndu_outer_spec; simpl; [lia|lia|lia|lia|].
  split; intros q r Hq Hr; [|lia]. assert (q = 0%nat) by lia. assert (r = 0%nat) by lia. subst. rewrite mset_same, P_0.
  replace (i - 0 + 0)%nat with i by lia. rewrite Nat.eqb_refl. reflexivity.
Qed.

(** ** Derivatives: the coefficients of the k-th derivative *)
Fixpoint alpha (p m k j : nat) : R :=
  match k with
  | O => if Nat.eqb j 0 then 1 else 0
  | S k' => cdiv (alpha p m k' j - match j with O => 0 | S j' => alpha p m k' j' end) (u (m + j + p - k')%nat - u (m + j)%nat)
  end.

Lemma alpha_out p m k : forall j, (k < j)%nat -> alpha p m k j = 0.
Proof.
  induction k as [|k IH]; intros j Hj; simpl.
  - destruct (Nat.eqb_spec j 0); [lia|reflexivity].
  - destruct j as [|j]; [lia|]. rewrite !IH by lia. unfold cdiv. destruct (Req_EM_T _ 0); [reflexivity|]. field. assumption.
Qed.

Fixpoint falling (p k : nat) : R := match k with O => 1 | S k' => falling p k' * (INR p - INR k') end.

Lemma cdiv_minus a b c : cdiv (a - b) c = cdiv a c - cdiv b c.
Proof. unfold cdiv. destruct (Req_EM_T c 0); [ring|]. field. assumption. Qed.
Lemma cdiv_mult a b c : a * cdiv b c = b * cdiv a c.
Proof. unfold cdiv. destruct (Req_EM_T c 0); [ring|]. field. assumption. Qed.

(** D^k P_{m,p} = p!/(p-k)! sum_j alpha_{k,j} P_{m+j,p-k} *)
Lemma P_derive_step p m k x : (k < p)%nat -> (m + p + 1 < length knots)%nat ->
  is_derive (fun y => falling p k * rsum (S k) (fun j => alpha p m k j * P (p - k) (m + j)%nat y)) x
    (falling p (S k) * rsum (S (S k)) (fun j => alpha p m (S k) j * P (p - S k) (m + j)%nat x)).
Proof.
  intros Hk Hl.
  assert (Hsum : forall n, (n <= S k)%nat ->
    is_derive (fun y => rsum n (fun j => alpha p m k j * P (p - k) (m + j)%nat y)) x
      (rsum n (fun j => alpha p m k j * ((INR p - INR k) * (cdiv (P (p - S k) (m + j)%nat x) (u (m + j + p - k)%nat - u (m + j)%nat) -
         cdiv (P (p - S k) (m + S j)%nat x) (u (m + S j + p - k)%nat - u (m + S j)%nat)))))).
  { induction n as [|n IH]; intros Hn; cbn [rsum]; [apply (@is_derive_const R_AbsRing R_NormedModule)|].
    apply (@is_derive_plus R_AbsRing R_NormedModule); [apply IH; lia|].
    apply is_derive_scal.
    pose proof (P_derive knots i Hm (p - S k) (m + n) x ltac:(lia)) as D.
    replace (S (p - S k)) with (p - k)%nat in D by lia.
    replace (INR p - INR k) with (INR (p - k)) by (apply minus_INR; lia).
    replace (m + n + p - k)%nat with (m + n + (p - k))%nat by lia.
    replace (m + S n + p - k)%nat with (m + n + (p - k) + 1)%nat by lia.
    replace (m + S n)%nat with (m + n + 1)%nat by lia. exact D. }
  cbn [falling]. 
  replace (falling p k * (INR p - INR k) * rsum (S (S k)) (fun j => alpha p m (S k) j * P (p - S k) (m + j)%nat x))
    with (falling p k * (rsum (S k) (fun j => alpha p m k j * ((INR p - INR k) * (cdiv (P (p - S k) (m + j)%nat x) (u (m + j + p - k)%nat - u (m + j)%nat) -
         cdiv (P (p - S k) (m + S j)%nat x) (u (m + S j + p - k)%nat - u (m + S j)%nat)))))).
  { apply is_derive_scal. apply Hsum. lia. }
  rewrite Rmult_assoc. f_equal. rewrite <- rsum_scal.
  set (c := INR p - INR k). 
  rewrite (rsum_ext (S k) _ (fun j => c * alpha p m k j * cdiv (P (p - S k) (m + j)%nat x) (u (m + j + p - k)%nat - u (m + j)%nat) -
     c * alpha p m k j * cdiv (P (p - S k) (m + S j)%nat x) (u (m + S j + p - k)%nat - u (m + S j)%nat))) by (intros; ring).
  rewrite rsum_minus.
  rewrite (rsum_ext (S (S k)) _ (fun j => c * alpha p m k j * cdiv (P (p - S k) (m + j)%nat x) (u (m + j + p - k)%nat - u (m + j)%nat) -
     c * match j with O => 0 | S j' => alpha p m k j' end * cdiv (P (p - S k) (m + j)%nat x) (u (m + j + p - k)%nat - u (m + j)%nat))).
  2:{ intros j Hj. cbn [alpha]. generalize (P (p - S k) (m + j)%nat x) (alpha p m k j) (match j with O => 0 | S j' => alpha p m k j' end).
      intros X A B. unfold cdiv. destruct (Req_EM_T _ 0); [ring|field; assumption]. }
  rewrite rsum_minus.
  f_equal.
  - change (rsum (S (S k)) ?f) with (rsum (S k) f + f (S k)). cbv beta. rewrite (alpha_out p m k (S k)) by lia. ring.
  - rewrite (rsum_front (S k)). rewrite Rmult_0_r, Rmult_0_l, Rplus_0_l. reflexivity.
Qed.

(** beyond the degree the pieces' derivatives vanish *)
Lemma falling_out p k : (p < k)%nat -> falling p k = 0.
Proof.
  induction k as [|k IH]; [lia|]. intros H. simpl. destruct (Nat.eq_dec p k) as [->|]; [ring|]. rewrite IH by lia. ring.
Qed.

Lemma P_derive_n p m k x : (m + p + 1 < length knots)%nat ->
  is_derive_n (fun y => P p m y) k x (falling p k * rsum (S k) (fun j => alpha p m k j * P (p - k) (m + j)%nat x)).
Proof.
  intros Hl. revert x.
  assert (H0 : forall y, P p m y = falling p 0 * rsum 1 (fun j => alpha p m 0 j * P (p - 0) (m + j)%nat y)).
  { intros y. simpl rsum. simpl alpha. simpl falling. rewrite Nat.sub_0_r, Nat.add_0_r. ring. }
  induction k as [|k IH]; intros x.
  - simpl is_derive_n. apply H0.
  - change (is_derive (Derive_n (fun y => P p m y) k) x (falling p (S k) * rsum (S (S k)) (fun j => alpha p m (S k) j * P (p - S k) (m + j)%nat x))).
    apply (is_derive_ext (fun y => falling p k * rsum (S k) (fun j => alpha p m k j * P (p - k) (m + j)%nat y))).
    { intros y. specialize (IH y). destruct k as [|k]; [simpl Derive_n; symmetry; apply H0|].
      symmetry. apply (is_derive_unique (Derive_n (fun y => P p m y) k)). exact IH. }
    destruct (lt_dec k p) as [Hk|Hk]; [apply P_derive_step; assumption|].
    rewrite (falling_out p (S k)) by lia. rewrite Rmult_0_l.
    destruct (Nat.eq_dec k p) as [->|Hkp].
    + apply (is_derive_ext (fun _ => falling p p * rsum (S p) (fun j => alpha p m p j * P 0 (m + j)%nat x))).
      { intros y. rewrite Nat.sub_diag. reflexivity. }
      apply (@is_derive_const R_AbsRing R_NormedModule).
    + rewrite (falling_out p k) by lia.
      apply (is_derive_ext (fun _ => 0)); [intros y; cbv beta; rewrite Rmult_0_l; reflexivity|]. apply (@is_derive_const R_AbsRing R_NormedModule).
Qed.

(** ** The derivative table *)
Notation m0 r := (i - degree + r)%nat.

Lemma a_loop_spec ndu s1 s2 k r pk1 : s1 <> s2 -> forall cnt j a d,
  let '(a', d') := a_loop cnt ndu s1 s2 k r pk1 j a d in
  (forall q, (j <= q < j + cnt)%nat -> a' s2 q = (a s1 q - a s1 (q - 1)%nat) / ndu pk1 (r + q - k)%nat) /\
  (forall s q, (s <> s2 \/ q < j \/ j + cnt <= q)%nat -> a' s q = a s q) /\
  d' = d + rsum cnt (fun c => (a s1 (j + c)%nat - a s1 (j + c - 1)%nat) / ndu pk1 (r + (j + c) - k)%nat * ndu (r + (j + c) - k)%nat (pk1 - 1)%nat).
Proof.
  intros Hs. induction cnt as [|cnt IH]; intros j a d.
  - simpl. split; [intros; lia|]. split; [reflexivity|ring].
  - cbn [a_loop]. cbv zeta. set (a1 := mset a s2 j _).
    assert (E1 : forall q, a1 s1 q = a s1 q) by (intros q; unfold a1; apply mset_other; lia).
    specialize (IH (S j) a1 (d + a1 s2 j * ndu (r + j - k)%nat (pk1 - 1)%nat)).
    destruct (a_loop cnt ndu s1 s2 k r pk1 (S j) a1 _) as (a', d'). destruct IH as (I1 & I2 & I3).
    split; [|split].
    + intros q Hq. destruct (Nat.eq_dec q j) as [->|]; [rewrite I2 by lia; unfold a1; apply mset_same|].
      rewrite I1 by lia. rewrite !E1. reflexivity.
    + intros s q Hq. rewrite I2 by lia. unfold a1. apply mset_other. lia.
    + rewrite I3, rsum_front. unfold a1 at 1. rewrite mset_same. rewrite Nat.add_0_r, Rplus_assoc. f_equal. f_equal.
      apply rsum_ext. intros c Hc. rewrite !E1. replace (S j + c)%nat with (j + S c)%nat by lia. reflexivity.
Qed.

Definition row_good (r k : nat) (row : nat -> R) : Prop :=
  forall j, (k - r <= j)%nat -> (j <= k)%nat -> (j <= degree - r)%nat -> row j = alpha degree (m0 r) k j.

Lemma k_loop_spec ndu r : ndu_good degree ndu -> (r <= degree)%nat ->
  forall cnt k s1 s2 a out, (1 <= k)%nat -> s1 <> s2 -> ((k <= degree)%nat -> row_good r (k - 1) (a s1)) ->
  let '(a', out') := k_loop cnt ndu degree r k s1 s2 a out in
  (forall q, (k <= q < k + cnt)%nat -> (q <= degree)%nat ->
     out' q r = rsum (S q) (fun j => alpha degree (m0 r) q j * P (degree - q) (m0 r + j)%nat t)) /\
  (forall q s, (s <> r \/ q < k \/ k + cnt <= q)%nat -> out' q s = out q s).
Proof.
  intros Hg Hr. induction cnt as [|cnt IH]; intros k s1 s2 a out Hk Hs Hrow.
  - simpl. split; [intros; lia|reflexivity].
  - cbn [k_loop]. cbv zeta.
    set (pk1 := (degree + 1 - k)%nat).
    set (st1 := if Nat.leb k r then _ else _).
    set (j1 := if Nat.leb k (r + 1) then 1%nat else (k - r)%nat).
    set (j2 := if Nat.leb (r + k) (degree + 1) then (k - 1)%nat else (degree - r)%nat).
    set (f := fun j => alpha degree (m0 r) k j * P (degree - k) (m0 r + j)%nat t).
    destruct st1 as (a1, d1) eqn:E1.
    pose proof (a_loop_spec ndu s1 s2 k r pk1 Hs (S j2 - j1) j1 a1 d1) as L.
    destruct (a_loop (S j2 - j1) ndu s1 s2 k r pk1 j1 a1 d1) as (a2, d2). destruct L as (L1 & L2 & L3).
    destruct (if Nat.leb (r + k) degree then _ else _) as (a3, d3) eqn:E3.
    assert (Hlow : (k <= degree)%nat -> forall j, (j < k - r)%nat -> f j = 0) by (intros Hkd j Hj; unfold f; rewrite (P_out knots i) by lia; ring).
    assert (Hhigh : (k <= degree)%nat -> forall j, (degree - r < j)%nat -> f j = 0) by (intros Hkd j Hj; unfold f; rewrite (P_out knots i) by lia; ring).
    assert (A1s : forall q, a1 s1 q = a s1 q).
    { intros q. unfold st1 in E1. destruct (Nat.leb k r); inversion E1; [apply mset_other; lia|reflexivity]. }
    assert (A2s : forall q, a2 s1 q = a s1 q) by (intros q; rewrite L2 by lia; apply A1s).
    assert (KEY : (k <= degree)%nat -> row_good r k (a3 s2) /\ d3 = rsum (S k) f).
    { intros Hkd. specialize (Hrow Hkd).
      assert (Hden : forall j, (k - r <= j)%nat -> (j <= degree - r)%nat ->
        ndu pk1 (r + j - k)%nat = u (m0 r + j + degree - (k - 1))%nat - u (m0 r + j)%nat /\
        0 < u (m0 r + j + degree - (k - 1))%nat - u (m0 r + j)%nat).
      { intros j H1 H2. rewrite (proj2 Hg pk1 (r + j - k)%nat) by (unfold pk1; lia).
        replace (i + (r + j - k) + 1)%nat with (m0 r + j + degree - (k - 1))%nat by lia.
        replace (i + 1 - pk1 + (r + j - k))%nat with (m0 r + j)%nat by (unfold pk1; lia). split; [reflexivity|].
        pose proof (width_pos knots i Hm Hspan (m0 r + j) (degree + 1 - k) ltac:(lia) ltac:(lia) ltac:(lia)) as W.
        replace (m0 r + j + (degree + 1 - k))%nat with (m0 r + j + degree - (k - 1))%nat in W by lia. exact W. }
      assert (Hval : forall j, (k - r <= j)%nat -> (j <= degree - r)%nat ->
        ndu (r + j - k)%nat (pk1 - 1)%nat = P (degree - k) (m0 r + j)%nat t).
      { intros j H1 H2. rewrite (proj1 Hg (pk1 - 1)%nat (r + j - k)%nat) by (unfold pk1; lia).
        unfold pk1. f_equal; lia. }
      assert (Halpha : forall j, (k - r <= j)%nat -> (j <= degree - r)%nat ->
        alpha degree (m0 r) k j = (alpha degree (m0 r) (k - 1) j - match j with O => 0 | S j' => alpha degree (m0 r) (k - 1) j' end) / ndu pk1 (r + j - k)%nat).
      { intros j H1 H2. destruct (Hden j H1 H2) as (-> & Hp). destruct k as [|k']; [lia|]. cbn [alpha].
        replace (S k' - 1)%nat with k' in * by lia. apply cdiv_pos. exact Hp. }
      (* the first coefficient *)
      assert (S1 : (k <= r)%nat -> a1 s2 0%nat = alpha degree (m0 r) k 0 /\ d1 = f 0%nat).
      { intros Hkr. unfold st1 in E1. rewrite (proj2 (Nat.leb_le k r) Hkr) in E1. inversion E1.
        rewrite mset_same. rewrite (Hrow 0%nat) by lia.
        assert (Ha : alpha degree (m0 r) (k - 1) 0 / ndu pk1 (r - k)%nat = alpha degree (m0 r) k 0).
        { rewrite (Halpha 0%nat) by lia. rewrite Nat.add_0_r, Rminus_0_r. reflexivity. }
        split; [exact Ha|]. rewrite Ha. unfold f. f_equal. rewrite <- (Hval 0%nat) by lia. f_equal. lia. }
      assert (S1' : (r < k)%nat -> d1 = 0).
      { intros Hkr. unfold st1 in E1. rewrite (proj2 (Nat.leb_gt k r) Hkr) in E1. inversion E1. reflexivity. }
      (* the middle ones *)
      assert (Hj1 : (1 <= j1)%nat /\ (k - r <= j1)%nat) by (unfold j1; destruct (Nat.leb_spec k (r + 1)); lia).
      assert (Hj2 : (j2 <= k - 1)%nat /\ (j2 <= degree - r)%nat /\ (j1 <= S j2)%nat).
      { unfold j1, j2; destruct (Nat.leb_spec k (r + 1)); destruct (Nat.leb_spec (r + k) (degree + 1)); lia. }
      assert (S2 : forall j, (j1 <= j <= j2)%nat -> (a1 s1 j - a1 s1 (j - 1)%nat) / ndu pk1 (r + j - k)%nat = alpha degree (m0 r) k j).
      { intros j Hj. rewrite !A1s. rewrite !Hrow by lia. rewrite Halpha by lia. destruct j as [|j']; [lia|].
        replace (S j' - 1)%nat with j' by lia. reflexivity. }
      assert (S2d : d2 = d1 + rsum (S j2 - j1) (fun c => f (j1 + c)%nat)).
      { rewrite L3. f_equal. apply rsum_ext. intros c Hc. rewrite S2 by lia. unfold f. f_equal. apply Hval; lia. }
      (* the last one *)
      assert (S3 : (r + k <= degree)%nat -> a3 s2 k = alpha degree (m0 r) k k /\ d3 = d2 + f k /\
                    (forall q, q <> k -> a3 s2 q = a2 s2 q)).
      { intros Hrk. rewrite (proj2 (Nat.leb_le (r + k) degree) Hrk) in E3. inversion E3.
        rewrite mset_same, A2s. rewrite Hrow by lia.
        assert (Ha : - alpha degree (m0 r) (k - 1) (k - 1) / ndu pk1 r = alpha degree (m0 r) k k).
        { rewrite (Halpha k) by lia. rewrite (alpha_out degree (m0 r) (k - 1) k) by lia. destruct k as [|k']; [lia|].
          replace (S k' - 1)%nat with k' by lia. replace (r + S k' - S k')%nat with r by lia. unfold Rdiv. ring. }
        split; [exact Ha|]. split.
        - rewrite Ha. f_equal. unfold f. f_equal. rewrite <- (Hval k) by lia. f_equal. lia.
        - intros q Hq. apply mset_other. lia. }
      assert (S3' : (degree < r + k)%nat -> a3 = a2 /\ d3 = d2).
      { intros Hrk. rewrite (proj2 (Nat.leb_gt (r + k) degree) Hrk) in E3. inversion E3. split; reflexivity. }
      split.
      - intros j H1 H2 H3. 
        assert (A3 : j <> k -> a3 s2 j = a2 s2 j).
        { intros Hjk. destruct (le_lt_dec (r + k) degree) as [Hrk|Hrk]; [apply (S3 Hrk); exact Hjk|rewrite (proj1 (S3' Hrk)); reflexivity]. }
        destruct (Nat.eq_dec j k) as [->|Hjk]; [apply S3; lia|]. rewrite A3 by exact Hjk.
        destruct (Nat.eq_dec j 0) as [->|Hj0].
        + rewrite L2 by lia. apply S1. lia.
        + assert (j1 <= j <= j2)%nat.
          { unfold j1, j2; destruct (Nat.leb_spec k (r + 1)); destruct (Nat.leb_spec (r + k) (degree + 1)); lia. }
          rewrite L1 by lia. apply S2. lia.
      - replace (S k) with (j1 + ((S j2 - j1) + (k - j2)))%nat by lia. rewrite rsum_split, rsum_split.
        assert (T1 : rsum j1 f = d1).
        { destruct (le_lt_dec k r) as [Hkr|Hkr].
          - rewrite (proj2 (S1 Hkr)). replace j1 with 1%nat; [simpl; ring|].
            unfold j1. destruct (Nat.leb_spec k (r + 1)); lia.
          - rewrite (S1' Hkr). apply rsum_zero. intros q Hq. apply (Hlow Hkd).
            unfold j1 in Hq. destruct (Nat.leb_spec k (r + 1)); lia. }
        rewrite T1, <- Rplus_assoc, <- S2d.
        destruct (le_lt_dec (r + k) degree) as [Hrk|Hrk].
        + rewrite (proj1 (proj2 (S3 Hrk))). f_equal.
          assert (Ej : j2 = (k - 1)%nat) by (unfold j2; destruct (Nat.leb_spec (r + k) (degree + 1)); lia).
          replace (k - j2)%nat with 1%nat by lia.
          cbn [rsum]. rewrite Rplus_0_l. f_equal. lia.
        + rewrite (proj2 (S3' Hrk)). rewrite rsum_zero; [ring|]. intros q Hq. apply (Hhigh Hkd).
          assert (Ej : j2 = (degree - r)%nat) by (unfold j2; destruct (Nat.leb_spec (r + k) (degree + 1)); lia). lia. }
    specialize (IH (S k) s2 s1 a3 (mset out k r d3) ltac:(lia) (not_eq_sym Hs)).
    destruct (k_loop cnt ndu degree r (S k) s2 s1 a3 (mset out k r d3)) as (a', out').
    destruct IH as (I1 & I2).
    { intros Hkd. replace (S k - 1)%nat with k by lia. apply KEY. lia. }
    split.
    + intros q Hq Hqd. destruct (Nat.eq_dec q k) as [->|]; [|apply I1; lia].
      rewrite I2 by lia. rewrite mset_same. apply KEY. exact Hqd.
    + intros q s Hq. rewrite I2 by lia. apply mset_other. lia.
Qed.

Lemma r_loop_spec ndu order : ndu_good degree ndu ->
  forall cnt r a out, (r + cnt = S degree)%nat ->
  let out' := r_loop cnt ndu degree order r a out in
  (forall q s, (1 <= q <= order)%nat -> (q <= degree)%nat -> (r <= s <= degree)%nat ->
     out' q s = rsum (S q) (fun j => alpha degree (m0 s) q j * P (degree - q) (m0 s + j)%nat t)) /\
  (forall q s, (s < r \/ q < 1 \/ order < q)%nat -> out' q s = out q s).
Proof.
  intros Hg. induction cnt as [|cnt IH]; intros r a out Hc; cbn [r_loop].
  - split; [intros; lia|reflexivity].
  - pose proof (k_loop_spec ndu r Hg ltac:(lia) order 1 0 1 (mset a 0 0 1) out ltac:(lia) ltac:(lia)) as K.
    destruct (k_loop order ndu degree r 1 0 1 (mset a 0 0 1) out) as (a', o'). destruct K as (K1 & K2).
    { intros _ j H1 H2 H3. assert (j = 0%nat) by lia. subst j. rewrite mset_same. reflexivity. }
    destruct (IH (S r) a' o' ltac:(lia)) as (I1 & I2). split.
    + intros q s Hq Hqd Hs. destruct (Nat.eq_dec s r) as [->|]; [|apply I1; lia].
      rewrite I2 by lia. apply K1; lia.
    + intros q s Hq. rewrite I2 by lia. apply K2. lia.
Qed.

Lemma factor_loop_spec : forall cnt k f out, f = falling degree k ->
  let out' := factor_loop cnt degree k f out in
  (forall q j, (k <= q < k + cnt)%nat -> (j <= degree)%nat -> out' q j = out q j * falling degree q) /\
  (forall q j, (q < k \/ k + cnt <= q)%nat -> out' q j = out q j).
Proof.
  induction cnt as [|cnt IH]; intros k f out Hf; cbn [factor_loop].
  - split; [intros; lia|reflexivity].
  - edestruct (IH (S k) (f * (INR degree - INR k))) as (I1 & I2); [rewrite Hf; reflexivity|]. split.
    + intros q j Hq Hj. destruct (Nat.eq_dec q k) as [->|].
      * rewrite I2 by lia. rewrite Nat.eqb_refl, (proj2 (Nat.leb_le j degree) Hj). simpl. rewrite Hf. reflexivity.
      * rewrite I1 by lia. destruct (Nat.eqb_spec q k); [lia|]. reflexivity.
    + intros q j Hq. rewrite I2 by lia. destruct (Nat.eqb_spec q k); [lia|]. reflexivity.
Qed.

(** the whole function *)
Lemma table_value j1 j2 j3 order : exists ders,
  BasisFunctionsAndDerivatives j1 j2 j3 order t i degree knots = Ok ders /\
  (forall r, (r <= degree)%nat -> ders 0%nat r = P degree (m0 r) t) /\
  (forall k r, (k <= order)%nat -> (r <= degree)%nat ->
     ders k r = falling degree k * rsum (S k) (fun j => alpha degree (m0 r) k j * P (degree - k) (m0 r + j)%nat t)).
Proof.
  unfold BasisFunctionsAndDerivatives.
  replace (orb _ _) with true.
  2:{ symmetry. apply orb_true_iff. right. apply andb_true_iff. split; [apply Nat.leb_le; lia|apply Nat.ltb_lt; lia]. }
  eexists. split; [reflexivity|].
  change (fun i0 => nth i0 knots 0) with u.
  pose proof (ndu_table_spec j1) as Hg. set (ndu := ndu_table j1 t i degree u) in *.
  match goal with |- context [r_loop (S degree) ndu degree order 0 j3 ?o] => set (out0 := o) end.
  destruct (r_loop_spec ndu order Hg (S degree) 0 j3 out0 ltac:(lia)) as (R1 & R2).
  set (rl := r_loop (S degree) ndu degree order 0 j3 out0) in *.
  destruct (factor_loop_spec order 1 (INR degree) rl) as (F1 & F2).
  { simpl. ring. }
  assert (V0 : forall r, (r <= degree)%nat -> factor_loop order degree 1 (INR degree) rl 0%nat r = P degree (m0 r) t).
  { intros r Hr. rewrite F2 by lia. rewrite R2 by lia. unfold out0. rewrite (proj2 (Nat.leb_le r degree) Hr). simpl.
    apply (proj1 Hg); lia. }
  split; [exact V0|].
  intros k r Hk Hr. destruct (Nat.eq_dec k 0) as [->|Hk0].
  - rewrite V0 by exact Hr. simpl rsum. simpl alpha. simpl falling. rewrite Nat.sub_0_r, Nat.add_0_r. ring.
  - rewrite F1 by lia. destruct (le_lt_dec k degree) as [Hkd|Hkd].
    + rewrite R1 by lia. ring.
    + rewrite falling_out by lia. ring.
Qed.
End Table.
