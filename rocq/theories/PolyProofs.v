(** * Polynomial functions, integrals over [-1,1] and interpolatory quadrature *)
From Coq Require Import List Arith Bool Reals Lra Lia.
From Coquelicot Require Import Coquelicot.
From Verif Require Import RSum.
Local Open Scope R_scope.

(** degree below n *)
Definition polylt (n : nat) (f : R -> R) : Prop := exists c : nat -> R, forall x, f x = rsum n (fun k => c k * x ^ k).
(** a x^n + lower terms *)
Definition lead (n : nat) (f : R -> R) (a : R) : Prop := exists g, polylt n g /\ forall x, f x = g x + a * x ^ n.

Lemma polylt_ext n f g : (forall x, f x = g x) -> polylt n f -> polylt n g.
Proof. intros H (c & E). exists c. intros x. rewrite <- H. apply E. Qed.
Lemma lead_ext n f g a : (forall x, f x = g x) -> lead n f a -> lead n g a.
Proof. intros H (q & Hq & E). exists q. split; auto. intros x. rewrite <- H. apply E. Qed.
Lemma polylt_0 f : polylt 0 f -> forall x, f x = 0.
Proof. intros (c & E) x. rewrite E. reflexivity. Qed.
Lemma polylt_zero n : polylt n (fun _ => 0).
Proof. exists (fun _ => 0). intros x. symmetry. apply rsum_zero. intros; ring. Qed.
Lemma polylt_plus n f g : polylt n f -> polylt n g -> polylt n (fun x => f x + g x).
Proof.
  intros (c & E) (d & F). exists (fun k => c k + d k). intros x. rewrite E, F, <- rsum_plus. apply rsum_ext. intros; ring.
Qed.
Lemma polylt_scal n f a : polylt n f -> polylt n (fun x => a * f x).
Proof. intros (c & E). exists (fun k => a * c k). intros x. rewrite E, <- rsum_scal. apply rsum_ext. intros; ring. Qed.
Lemma polylt_minus n f g : polylt n f -> polylt n g -> polylt n (fun x => f x - g x).
Proof.
  intros Hf Hg. apply (polylt_ext n (fun x => f x + (-1) * g x)); [intros; ring|]. apply polylt_plus; auto. apply polylt_scal; auto.
Qed.
Lemma polylt_S n f : polylt n f -> polylt (S n) f.
Proof.
  intros (c & E). exists (fun k => if Nat.ltb k n then c k else 0). intros x. cbn [rsum]. rewrite Nat.ltb_irrefl, E.
  rewrite (rsum_ext n (fun k => (if Nat.ltb k n then c k else 0) * x ^ k) (fun k => c k * x ^ k)); [ring|].
  intros k Hk. destruct (Nat.ltb_spec k n); [reflexivity|lia].
Qed.
Lemma polylt_mono n m f : (n <= m)%nat -> polylt n f -> polylt m f.
Proof. intros H. induction H; auto. intros Hf. apply polylt_S. auto. Qed.
Lemma polylt_pow n : polylt (S n) (fun x => x ^ n).
Proof.
  exists (fun k => if Nat.eqb k n then 1 else 0). intros x. cbn [rsum]. rewrite Nat.eqb_refl, rsum_zero; [ring|].
  intros k Hk. destruct (Nat.eqb_spec k n); [lia|ring].
Qed.
Lemma polylt_x n f : polylt n f -> polylt (S n) (fun x => x * f x).
Proof.
  intros (c & E). exists (fun k => match k with O => 0 | S k' => c k' end). intros x. rewrite rsum_front, E, <- rsum_scal.
  rewrite Rmult_0_l, Rplus_0_l. apply rsum_ext. intros k _. simpl. ring.
Qed.
Lemma polylt_shift m n f : polylt n f -> polylt (m + n) (fun x => x ^ m * f x).
Proof.
  intros H. induction m as [|m IH]; simpl.
  - apply (polylt_ext n f); auto. intros; ring.
  - apply (polylt_ext _ (fun x => x * (x ^ m * f x))); [intros; ring|]. apply polylt_x. exact IH.
Qed.
Lemma polylt_sum n m (F : nat -> R -> R) : (forall k, (k < n)%nat -> polylt m (F k)) -> polylt m (fun x => rsum n (fun k => F k x)).
Proof.
  induction n as [|n IH]; intros H; simpl; [apply polylt_zero|]. apply polylt_plus; [apply IH; intros; apply H; lia|apply H; lia].
Qed.
Lemma polylt_mult n m f g : polylt (S n) f -> polylt m g -> polylt (n + m) (fun x => f x * g x).
Proof.
  intros (c & E) Hg. apply (polylt_ext _ (fun x => rsum (S n) (fun k => c k * (x ^ k * g x)))).
  - intros x. rewrite E, <- rsum_scal_r. apply rsum_ext. intros; ring.
  - apply polylt_sum. intros k Hk. apply polylt_scal. apply (polylt_mono (k + m)); [lia|]. apply polylt_shift. exact Hg.
Qed.
Lemma lead_polylt n f a : lead n f a -> polylt (S n) f.
Proof.
  intros (g & Hg & E). apply (polylt_ext _ (fun x => g x + a * x ^ n)); [intros; auto|].
  apply polylt_plus; [apply polylt_S; auto|]. apply polylt_scal. apply polylt_pow.
Qed.
Lemma polylt_lead n f : polylt (S n) f -> exists a, lead n f a.
Proof. intros (c & E). exists (c n), (fun x => rsum n (fun k => c k * x ^ k)). split; [exists c; auto|]. intros x. rewrite E. reflexivity. Qed.
Lemma lead_x n f a : lead n f a -> lead (S n) (fun x => x * f x) a.
Proof. intros (g & Hg & E). exists (fun x => x * g x). split; [apply polylt_x; auto|]. intros x. rewrite E. simpl. ring. Qed.
Lemma lead_plus_low n f g a : lead n f a -> polylt n g -> lead n (fun x => f x + g x) a.
Proof. intros (q & Hq & E) Hg. exists (fun x => q x + g x). split; [apply polylt_plus; auto|]. intros x. rewrite E. ring. Qed.
Lemma lead_scal n f a c : lead n f a -> lead n (fun x => c * f x) (c * a).
Proof. intros (q & Hq & E). exists (fun x => c * q x). split; [apply polylt_scal; auto|]. intros x. rewrite E. ring. Qed.

(** division with remainder *)
Lemma division n g a : lead n g a -> a <> 0 -> forall m f, polylt (m + n) f ->
  exists q r, polylt m q /\ polylt n r /\ forall x, f x = q x * g x + r x.
Proof.
  intros (l & Hl & Eg) Ha. induction m as [|m IH]; intros f Hf.
  - exists (fun _ => 0), f. split; [apply polylt_zero|]. split; [exact Hf|]. intros; ring.
  - simpl in Hf. destruct (polylt_lead _ _ Hf) as (b & h & Hh & Ef).
    destruct (IH (fun x => h x - b / a * (x ^ m * l x))) as (q & r & Hq & Hr & E).
    + apply polylt_minus; auto. apply polylt_scal. apply polylt_shift. exact Hl.
    + exists (fun x => q x + b / a * x ^ m), r. split; [|split; auto].
      * apply polylt_plus; [apply polylt_S; auto|]. apply polylt_scal. apply polylt_pow.
      * intros x. rewrite Ef. specialize (E x). cbv beta in E.
        replace (h x) with (q x * g x + r x + b / a * (x ^ m * l x)) by lra. rewrite pow_add, (Eg x). field. exact Ha.
Qed.

(** f x - f y has the factor x - y *)
Lemma pow_factor y k : exists h, lead k h 1 /\ forall x, x ^ S k - y ^ S k = (x - y) * h x.
Proof.
  induction k as [|k (h & Hh & E)].
  - exists (fun _ => 1). split; [exists (fun _ => 0); split; [apply polylt_zero|intros; simpl; ring]|intros; simpl; ring].
  - exists (fun x => x * h x + y ^ S k). split.
    + apply lead_plus_low; [apply lead_x; auto|]. apply (polylt_mono 1); [lia|]. exists (fun _ => y ^ S k). intros x. simpl. ring.
    + intros x. replace (x ^ S (S k) - y ^ S (S k)) with (x * (x ^ S k - y ^ S k) + y ^ S k * (x - y)) by (simpl; ring). rewrite E. ring.
Qed.
Lemma polylt_factor y n : forall f, polylt n f -> exists q, polylt (n - 1) q /\ forall x, f x - f y = (x - y) * q x.
Proof.
  induction n as [|n IH]; intros f Hf.
  - exists (fun _ => 0). split; [apply polylt_zero|]. intros x. rewrite !(polylt_0 f Hf). ring.
  - destruct (polylt_lead n f Hf) as (a & g & Hg & E). destruct (IH g Hg) as (q & Hq & Eq). destruct n as [|n].
    + exists (fun _ => 0). split; [apply polylt_zero|]. intros x. rewrite !E, !(polylt_0 g Hg). simpl. ring.
    + destruct (pow_factor y n) as (h & Hh & Eh). exists (fun x => q x + a * h x). split.
      * apply polylt_plus; [apply (polylt_mono (S n - 1)); [lia|exact Hq]|]. apply polylt_scal. simpl. apply (lead_polylt _ _ _ Hh).
      * intros x. rewrite !E. replace (g x + a * x ^ S n - (g y + a * y ^ S n)) with ((g x - g y) + a * (x ^ S n - y ^ S n)) by ring. rewrite Eq, Eh. ring.
Qed.
Lemma lead_factor y n f a : lead (S n) f a -> exists q, lead n q a /\ forall x, f x - f y = (x - y) * q x.
Proof.
  intros (g & Hg & E). destruct (polylt_factor y _ g Hg) as (q & Hq & Eq). destruct (pow_factor y n) as (h & Hh & Eh).
  exists (fun x => a * h x + q x). split.
  - apply lead_plus_low; [|apply (polylt_mono (S n - 1)); [lia|exact Hq]].
    apply (lead_scal n h 1 a) in Hh. rewrite Rmult_1_r in Hh. exact Hh.
  - intros x. rewrite !E. replace (g x + a * x ^ S n - (g y + a * y ^ S n)) with ((g x - g y) + a * (x ^ S n - y ^ S n)) by ring. rewrite Eq, Eh. ring.
Qed.

(** a polynomial of degree below n with n distinct zeros vanishes *)
Lemma identity n : forall f (p : nat -> R), polylt n f -> (forall i j, (i < n)%nat -> (j < n)%nat -> p i = p j -> i = j) ->
  (forall i, (i < n)%nat -> f (p i) = 0) -> forall x, f x = 0.
Proof.
  induction n as [|n IH]; intros f p Hf Hp Hz x; [apply polylt_0; auto|].
  destruct (polylt_factor (p n) _ f Hf) as (q & Hq & E). replace (S n - 1)%nat with n in Hq by lia. rewrite (Hz n) in E by lia.
  assert (Hq0 : forall x, q x = 0).
  { apply (IH q p Hq); [intros; apply Hp; auto; lia|]. intros i Hi. specialize (E (p i)). rewrite (Hz i) in E by lia.
    assert (Hne : p i - p n <> 0) by (intros H; assert (i = n) by (apply Hp; [lia|lia|lra]); lia).
    apply (Rmult_eq_reg_l (p i - p n)); [|exact Hne]. lra. }
  specialize (E x). rewrite Hq0 in E. lra.
Qed.

(** ** calculus *)
Lemma polylt_derive n f : polylt n f -> forall x, ex_derive f x.
Proof.
  intros (c & E) x. apply (ex_derive_ext (fun x => rsum n (fun k => c k * x ^ k))); [intros; auto|]. clear E f.
  induction n as [|n IH]; simpl; [apply ex_derive_const|]. apply (ex_derive_plus (fun x => rsum n (fun k => c k * x ^ k))); [exact IH|]. auto_derive. auto.
Qed.
Lemma polylt_continuous n f : polylt n f -> forall x, continuous f x.
Proof. intros H x. apply (ex_derive_continuous (V := R_NormedModule)). apply (polylt_derive n); auto. Qed.

Definition Int (f : R -> R) (v : R) : Prop := is_RInt f (-1) 1 v.
Lemma Int_ext f g v : (forall x, f x = g x) -> Int f v -> Int g v.
Proof. intros H. apply is_RInt_ext. intros; auto. Qed.
Lemma Int_plus f g v w : Int f v -> Int g w -> Int (fun x => f x + g x) (v + w).
Proof. apply (is_RInt_plus f g). Qed.
Lemma Int_scal f v c : Int f v -> Int (fun x => c * f x) (c * v).
Proof. apply (is_RInt_scal f). Qed.
Lemma Int_minus f g v w : Int f v -> Int g w -> Int (fun x => f x - g x) (v - w).
Proof. apply (is_RInt_minus f g). Qed.
Lemma Int_unique f v w : Int f v -> Int f w -> v = w.
Proof. intros H1 H2. rewrite <- (is_RInt_unique _ _ _ _ H1). apply (is_RInt_unique _ _ _ _ H2). Qed.
Lemma Int_sum n F V : (forall k, (k < n)%nat -> Int (F k) (V k)) -> Int (fun x => rsum n (fun k => F k x)) (rsum n V).
Proof.
  induction n as [|n IH]; intros H; simpl.
  - assert (E : scal (1 - -1) 0 = 0 :> R) by (unfold scal; simpl; unfold mult; simpl; ring).
    exact (eq_ind _ (fun v => is_RInt (fun _ : R => 0) (-1) 1 v) (is_RInt_const (-1) 1 0) _ E).
  - apply Int_plus; [apply IH; intros; apply H; lia|apply H; lia].
Qed.
Lemma Int_derive F f : (forall x, is_derive F x (f x)) -> (forall x, continuous f x) -> Int f (F 1 - F (-1)).
Proof. intros H C. apply (is_RInt_derive F f); intros x _; auto. Qed.
Lemma Int_exists f : (forall x, continuous f x) -> exists v, Int f v.
Proof. intros C. destruct (ex_RInt_continuous f (-1) 1) as (v & Hv); [intros x _; apply C|]. exists v. exact Hv. Qed.

Lemma Int_RInt f : (forall x, continuous f x) -> Int f (RInt f (-1) 1).
Proof. intros C. destruct (Int_exists f C) as (v & Hv). unfold Int in Hv. rewrite (is_RInt_unique _ _ _ _ Hv). exact Hv. Qed.

(** ** interpolatory quadrature for the zeros of w *)
Section Interpolatory.
  Variables (n : nat) (w dw : R -> R) (a : R) (p : nat -> R).
  Hypothesis Hw : lead n w a.
  Hypothesis Ha : a <> 0.
  Hypothesis Hdw : forall x, is_derive w x (dw x).
  Hypothesis Hp : forall i j, (i < n)%nat -> (j < n)%nat -> p i = p j -> i = j.
  Hypothesis Hz : forall i, (i < n)%nat -> w (p i) = 0.
  Hypothesis Hn0 : forall i, (i < n)%nat -> dw (p i) <> 0.

  (** w x / (x - y) *)
  Definition quot (y x : R) : R := if Req_EM_T x y then dw y else w x / (x - y).

  Lemma quot_spec i : (i < n)%nat -> lead (n - 1) (quot (p i)) a /\ forall x, w x = (x - p i) * quot (p i) x.
  Proof.
    intros Hi. destruct n as [|m] eqn:En; [lia|]. destruct (lead_factor (p i) m w a Hw) as (q & Hq & E). rewrite (Hz i) in E by lia.
    assert (Eq : forall x, quot (p i) x = q x).
    { intros x. unfold quot. destruct (Req_EM_T x (p i)) as [->|Hne].
      - assert (D1 : is_derive (fun x => (x - p i) * q x) (p i) (dw (p i))) by (apply (is_derive_ext w); [intros t; change (w t = (t - p i) * q t); rewrite <- E; ring|apply Hdw]).
        destruct (polylt_derive _ q (lead_polylt _ _ _ Hq) (p i)) as (dq & Hdq).
        assert (D2 : is_derive (fun x => (x - p i) * q x) (p i) (1 * q (p i) + (p i - p i) * dq)).
        { apply (is_derive_mult (fun x => x - p i) q (p i) 1 dq); [|exact Hdq|intros; apply Rmult_comm]. apply (is_derive_ext (fun x => x + - p i)); [intros; reflexivity|]. auto_derive; [auto|reflexivity]. }
        rewrite <- (is_derive_unique _ _ _ D1), (is_derive_unique _ _ _ D2). ring.
      - specialize (E x). rewrite Rminus_0_r in E. rewrite E. field. intros H. apply Hne. lra. }
    split.
    - replace (S m - 1)%nat with m by lia. apply (lead_ext _ q); auto.
    - intros x. rewrite Eq. specialize (E x). lra.
  Qed.

  Lemma quot_at i j : (i < n)%nat -> (j < n)%nat -> quot (p i) (p j) = if Nat.eqb i j then dw (p i) else 0.
  Proof.
    intros Hi Hj. unfold quot. destruct (Req_EM_T (p j) (p i)) as [E|Hne].
    - apply Hp in E; auto. subst. rewrite Nat.eqb_refl. reflexivity.
    - destruct (Nat.eqb_spec i j) as [->|]; [congruence|]. rewrite (Hz j) by auto. unfold Rdiv. apply Rmult_0_l.
  Qed.

  Lemma quot_polylt i : (i < n)%nat -> polylt n (quot (p i)).
  Proof. intros Hi. destruct (quot_spec i Hi) as (H & _). apply lead_polylt in H. replace (S (n - 1)) with n in H by lia. exact H. Qed.

  Lemma interpolation f : polylt n f -> forall x, f x = rsum n (fun i => f (p i) * (quot (p i) x / dw (p i))).
  Proof.
    intros Hf x. apply Rminus_diag_uniq. revert x.
    apply (identity n (fun x => f x - rsum n (fun i => f (p i) * (quot (p i) x / dw (p i)))) p); auto.
    - apply polylt_minus; auto. apply polylt_sum. intros i Hi.
      apply (polylt_ext _ (fun x => (f (p i) / dw (p i)) * quot (p i) x)); [intros x; unfold Rdiv; ring|]. apply polylt_scal. apply quot_polylt; auto.
    - intros j Hj. rewrite (rsum_single n j); auto.
      + rewrite quot_at, Nat.eqb_refl by auto. field. auto.
      + intros i Hi Hij. rewrite quot_at by auto. destruct (Nat.eqb_spec i j); [congruence|]. unfold Rdiv. ring.
  Qed.

  (** weights *)
  Variable W : nat -> R.
  Hypothesis HW : forall i, (i < n)%nat -> Int (fun x => quot (p i) x / dw (p i)) (W i).

  Lemma exact_low f : polylt n f -> Int f (rsum n (fun i => W i * f (p i))).
  Proof.
    intros Hf. apply (Int_ext (fun x => rsum n (fun i => f (p i) * (quot (p i) x / dw (p i))))); [intros x; symmetry; apply interpolation; auto|].
    apply (Int_sum n (fun i x => f (p i) * (quot (p i) x / dw (p i))) (fun i => W i * f (p i))). intros i Hi.
    rewrite Rmult_comm. apply Int_scal. auto.
  Qed.

  Lemma exact_high m f : (forall q, polylt m q -> Int (fun x => q x * w x) 0) -> polylt (m + n) f -> Int f (rsum n (fun i => W i * f (p i))).
  Proof.
    intros Ho Hf. destruct (division n w a Hw Ha m f Hf) as (q & r & Hq & Hr & E).
    apply (Int_ext (fun x => q x * w x + r x)); [intros; auto|].
    replace (rsum n (fun i => W i * f (p i))) with (0 + rsum n (fun i => W i * r (p i))).
    - apply Int_plus; [apply Ho; auto|apply exact_low; auto].
    - rewrite Rplus_0_l. apply rsum_ext. intros i Hi. rewrite E, (Hz i) by auto. ring.
  Qed.

  (** a test function that vanishes at all points but one determines the weight *)
  Lemma weight_from_test m f i v : (forall q, polylt m q -> Int (fun x => q x * w x) 0) -> polylt (m + n) f -> (i < n)%nat ->
    (forall j, (j < n)%nat -> j <> i -> f (p j) = 0) -> Int f v -> W i * f (p i) = v.
  Proof.
    intros Ho Hf Hi Hzero Hv. rewrite (Int_unique _ _ _ Hv (exact_high m f Ho Hf)). symmetry. apply (rsum_single n i); auto.
    intros j Hj Hne. rewrite Hzero by auto. ring.
  Qed.
End Interpolatory.
