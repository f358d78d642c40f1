(** * The integration rules of Grundmann and Moeller are exact, in every dimension and for every order
    The tables of IntegrationTypeTetrahedron.cpp for the orders 10 - 20 are these rules.  The sums over the points of one refinement are
    coefficients of a product of power series; multiplied by a power of (1 - t) the factors become palindromic polynomials, and the rule
    takes half of the coefficients of their product. *)
From Coq Require Import List Arith Bool Reals ZArith Lra Lia.
From Verif Require Import RSum SimplexSpec SimplexProofs.
Import ListNotations.
Local Open Scope R_scope.

(** ** power series with coefficients at integers *)
Notation ser := (Z -> R) (only parsing).
Definition causal (f : ser) : Prop := forall k, (k < 0)%Z -> f k = 0.
Definition D (f : ser) : ser := fun k => f k - f (k - 1)%Z.
Fixpoint Dn (m : nat) (f : ser) : ser := match m with O => f | S m' => D (Dn m' f) end.
Definition zsm (n : nat) (f : ser) : R := rsum n (fun i => f (Z.of_nat i)).

Lemma D_causal f : causal f -> causal (D f).
Proof. intros H k Hk. unfold D. rewrite !H by lia. ring. Qed.
Lemma Dn_causal m f : causal f -> causal (Dn m f).
Proof. intros H. induction m as [|m IH]; [exact H|apply D_causal; exact IH]. Qed.
Lemma D_ext f g : (forall k, f k = g k) -> forall k, D f k = D g k.
Proof. intros H k. unfold D. rewrite !H. reflexivity. Qed.
Lemma Dn_ext m f g : (forall k, f k = g k) -> forall k, Dn m f k = Dn m g k.
Proof. intros H. induction m as [|m IH]; [exact H|cbn [Dn]; apply D_ext; exact IH]. Qed.
Lemma Dn_plus m n f k : Dn (m + n) f k = Dn m (Dn n f) k.
Proof. revert k. induction m as [|m IH]; intros k; [reflexivity|]. cbn [Nat.add Dn]. apply D_ext. exact IH. Qed.
Lemma zsm_ext n f g : (forall k, (0 <= k < Z.of_nat n)%Z -> f k = g k) -> zsm n f = zsm n g.
Proof. intros H. apply rsum_ext. intros i Hi. apply H. lia. Qed.
Lemma rsum_rev n f : rsum n (fun i => f (n - 1 - i)%nat) = rsum n f.
Proof.
  induction n as [|n IH]; [reflexivity|]. rewrite rsum_front. cbn [rsum].
  replace (S n - 1 - 0)%nat with n by lia. rewrite <- IH. rewrite Rplus_comm. f_equal. apply rsum_ext. intros i Hi. f_equal. lia.
Qed.
Lemma zsm_rev n f : zsm (S n) (fun k => f (Z.of_nat n - k)%Z) = zsm (S n) f.
Proof.
  unfold zsm. rewrite <- (rsum_rev (S n) (fun i => f (Z.of_nat i))). apply rsum_ext. intros i Hi. f_equal. lia.
Qed.
(** a sum may be taken over a longer range if the rest is zero *)
Lemma zsm_longer n m f : (n <= m)%nat -> (forall k, (Z.of_nat n <= k)%Z -> f k = 0) -> zsm m f = zsm n f.
Proof.
  intros Hnm H. replace m with (n + (m - n))%nat by lia. unfold zsm. rewrite rsum_split.
  rewrite (rsum_zero (m - n)) by (intros i Hi; apply H; lia). ring.
Qed.

(** ** products *)
Definition conv (f g : ser) : ser := fun k => if Z.ltb k 0 then 0 else zsm (S (Z.to_nat k)) (fun i => f i * g (k - i)%Z).
Lemma conv_causal f g : causal (conv f g).
Proof. intros k Hk. unfold conv. destruct (Z.ltb_spec k 0); [reflexivity|lia]. Qed.
Lemma conv_range f g : causal g -> forall n k, (k < Z.of_nat n)%Z -> conv f g k = zsm n (fun i => f i * g (k - i)%Z).
Proof.
  intros Hg n k Hk. unfold conv. destruct (Z.ltb_spec k 0) as [L|L].
  - symmetry. apply rsum_zero. intros i Hi. rewrite Hg by lia. ring.
  - symmetry. apply zsm_longer; [lia|]. intros i Hi. rewrite Hg by lia. ring.
Qed.
Lemma conv_comm f g k : conv f g k = conv g f k.
Proof.
  unfold conv. destruct (Z.ltb_spec k 0) as [L|L]; [reflexivity|].
  rewrite <- (zsm_rev (Z.to_nat k) (fun i => g i * f (k - i)%Z)). apply zsm_ext. intros i Hi.
  replace (k - (Z.of_nat (Z.to_nat k) - i))%Z with i by lia. replace (Z.of_nat (Z.to_nat k) - i)%Z with (k - i)%Z by lia. ring.
Qed.
Lemma conv_ext f g f' g' : (forall k, f k = f' k) -> (forall k, g k = g' k) -> forall k, conv f g k = conv f' g' k.
Proof. intros Hf Hg k. unfold conv. destruct (Z.ltb k 0); [reflexivity|]. apply zsm_ext. intros i _. rewrite Hf, Hg. reflexivity. Qed.
Lemma conv_D f g : causal g -> forall k, D (conv f g) k = conv f (D g) k.
Proof.
  intros Hg k. unfold D at 1. set (n := S (Z.to_nat k)).
  rewrite (conv_range f g Hg n k), (conv_range f g Hg n (k - 1)), (conv_range f (D g) (D_causal g Hg) n k) by lia.
  unfold zsm. rewrite <- rsum_minus. apply rsum_ext. intros i _. unfold D. replace (k - 1 - Z.of_nat i)%Z with (k - Z.of_nat i - 1)%Z by lia. ring.
Qed.
Lemma conv_Dn m f g : causal g -> forall k, Dn m (conv f g) k = conv f (Dn m g) k.
Proof.
  intros Hg. induction m as [|m IH]; intros k; [reflexivity|]. cbn [Dn]. rewrite (D_ext _ _ IH). apply conv_D. apply Dn_causal. exact Hg.
Qed.
Lemma conv_Dn2 m n f g : causal f -> causal g -> forall k, Dn (m + n) (conv f g) k = conv (Dn m f) (Dn n g) k.
Proof.
  intros Hf Hg k. rewrite Dn_plus. rewrite (Dn_ext m _ _ (conv_Dn n f g Hg)).
  rewrite (Dn_ext m _ _ (conv_comm f (Dn n g))). rewrite (conv_Dn m _ _ Hf). apply conv_comm.
Qed.

(** ** palindromic polynomials: f (d - k) = f k *)
Definition pal (d : nat) (f : ser) : Prop := causal f /\ forall k, f (Z.of_nat d - k)%Z = f k.
Lemma pal_above d f : pal d f -> forall k, (Z.of_nat d < k)%Z -> f k = 0.
Proof. intros (H & P) k Hk. rewrite <- P. apply H. lia. Qed.
Lemma conv_support d f g : pal d f -> causal g -> forall k, conv f g k = zsm (S d) (fun i => f i * g (k - i)%Z).
Proof.
  intros Hf Hg k. set (n := (S d + S (Z.to_nat k))%nat). rewrite (conv_range f g Hg n k) by lia.
  apply zsm_longer; [lia|]. intros i Hi. rewrite (pal_above d f Hf) by lia. ring.
Qed.
Lemma conv_pal d e f g : pal d f -> pal e g -> pal (d + e) (conv f g).
Proof.
  intros Hf Hg. split; [apply conv_causal|]. intros k. rewrite !(conv_support d f g Hf (proj1 Hg)).
  rewrite <- zsm_rev. apply zsm_ext. intros i Hi. rewrite (proj2 Hf). f_equal. rewrite <- (proj2 Hg). f_equal. lia.
Qed.
Lemma pal_shifted_sum d f n i : pal d f -> (i <= n)%nat -> zsm (S (n + d)) (fun k => f (k - Z.of_nat i)%Z) = zsm (S d) f.
Proof.
  intros Hf Hi. replace (S (n + d)) with (i + (S d + (n - i)))%nat by lia. unfold zsm. rewrite !rsum_split.
  rewrite rsum_zero by (intros j Hj; apply (proj1 Hf); lia).
  rewrite (rsum_zero (n - i)) by (intros j Hj; apply (pal_above d f Hf); lia).
  rewrite Rplus_0_l, Rplus_0_r. apply rsum_ext. intros j Hj. f_equal. lia.
Qed.
Lemma conv_total d e f g : pal d f -> pal e g -> zsm (S (d + e)) (conv f g) = zsm (S d) f * zsm (S e) g.
Proof.
  intros Hf Hg. rewrite (zsm_ext _ _ (fun k => zsm (S d) (fun i => f i * g (k - i)%Z))) by (intros k _; apply (conv_support d f g Hf (proj1 Hg))).
  unfold zsm at 1 2. rewrite rsum_swap.
  rewrite (rsum_ext (S d) _ (fun i => f (Z.of_nat i) * zsm (S e) g)); [rewrite rsum_scal_r; reflexivity|].
  intros i Hi. rewrite rsum_scal. f_equal. apply (pal_shifted_sum e g d i Hg). lia.
Qed.
(** half of the coefficients *)
Lemma pal_half s f : pal (2 * s + 1) f -> 2 * zsm (S s) f = zsm (S (2 * s + 1)) f.
Proof.
  intros Hf. replace (S (2 * s + 1)) with (S s + S s)%nat by lia. unfold zsm at 2. rewrite rsum_split.
  replace (rsum (S s) (fun i => f (Z.of_nat (S s + i)))) with (zsm (S s) f); [unfold zsm; ring|].
  rewrite <- zsm_rev. unfold zsm. apply rsum_ext. intros i Hi. rewrite <- (proj2 Hf). f_equal. lia.
Qed.
(** a series is the sum of its differences *)
Lemma telescope f n : causal f -> f (Z.of_nat n) = zsm (S n) (D f).
Proof.
  intros Hf. induction n as [|n IH].
  - unfold zsm, D. cbn [rsum]. rewrite (Hf (Z.of_nat 0 - 1)%Z) by lia. ring.
  - unfold zsm in *. cbn [rsum] in *. rewrite <- IH. unfold D. replace (Z.of_nat (S n) - 1)%Z with (Z.of_nat n) by lia. ring.
Qed.

(** ** the odd powers and their numerators *)
Definition delta : ser := fun k => if Z.eqb k 0 then 1 else 0.
Definition P (a : nat) : ser := fun k => if Z.ltb k 0 then 0 else (2 * IZR k + 1) ^ a.
Fixpoint B (a : nat) : ser :=
  match a with
  | O => delta
  | S a' => fun k => (2 * IZR k + 1) * B a' k + (2 * (INR a - IZR k) + 1) * B a' (k - 1)%Z
  end.
Lemma P_causal a : causal (P a).
Proof. intros k Hk. unfold P. destruct (Z.ltb_spec k 0); [reflexivity|lia]. Qed.
Lemma delta_pal : pal 0 delta.
Proof.
  split.
  - intros k Hk. unfold delta. destruct (Z.eqb_spec k 0); [lia|reflexivity].
  - intros k. unfold delta. destruct (Z.eqb_spec k 0), (Z.eqb_spec (Z.of_nat 0 - k) 0); try lia; reflexivity.
Qed.
Lemma B_pal a : pal a (B a).
Proof.
  induction a as [|a (IH1 & IH2)]; [exact delta_pal|]. split.
  - intros k Hk. cbn [B]. rewrite !IH1 by lia. ring.
  - intros k. cbn [B]. rewrite <- (IH2 (Z.of_nat (S a) - k)%Z), <- (IH2 (Z.of_nat (S a) - k - 1)%Z).
    replace (Z.of_nat a - (Z.of_nat (S a) - k))%Z with (k - 1)%Z by lia. replace (Z.of_nat a - (Z.of_nat (S a) - k - 1))%Z with k by lia.
    rewrite minus_IZR, <- INR_IZR_INZ. ring.
Qed.
Lemma B_total a : zsm (S a) (B a) = 2 ^ a * INR (fact a).
Proof.
  induction a as [|a IH]; [unfold zsm; cbn; unfold delta; cbn; ring|].
  rewrite fact_S. change (2 ^ S a) with (2 * 2 ^ a). replace (2 * 2 ^ a * ((INR a + 1) * INR (fact a))) with ((2 * INR a + 2) * (2 ^ a * INR (fact a))) by ring.
  rewrite <- IH. clear IH. pose proof (B_pal a) as Hp. cbn [B]. unfold zsm. rewrite rsum_plus.
  assert (E1 : rsum (S (S a)) (fun i => (2 * IZR (Z.of_nat i) + 1) * B a (Z.of_nat i)) = rsum (S a) (fun i => (2 * INR i + 1) * B a (Z.of_nat i))).
  { cbn [rsum]. rewrite (pal_above a (B a) Hp (Z.of_nat (S a))) by lia. rewrite <- !INR_IZR_INZ.
    rewrite (rsum_ext a (fun i => (2 * IZR (Z.of_nat i) + 1) * B a (Z.of_nat i)) (fun i => (2 * INR i + 1) * B a (Z.of_nat i))) by (intros; rewrite <- INR_IZR_INZ; reflexivity).
    ring. }
  assert (E2 : rsum (S (S a)) (fun i => (2 * (INR (S a) - IZR (Z.of_nat i)) + 1) * B a (Z.of_nat i - 1)%Z) = rsum (S a) (fun i => (2 * (INR a - INR i) + 1) * B a (Z.of_nat i))).
  { rewrite rsum_front. rewrite (proj1 Hp (Z.of_nat 0 - 1)%Z) by lia. rewrite Rmult_0_r, Rplus_0_l. apply rsum_ext. intros i Hi.
    rewrite <- INR_IZR_INZ, !S_INR. replace (Z.of_nat (S i) - 1)%Z with (Z.of_nat i) by lia. ring. }
  rewrite E1, E2, <- rsum_plus, <- rsum_scal. apply rsum_ext. intros i _. ring.
Qed.
(** multiplication by 2 k + 1 and differences *)
Definition theta (f : ser) : ser := fun k => (2 * IZR k + 1) * f k.
Lemma Dn_theta m f k : Dn (S m) (theta f) k = (2 * IZR k + 1) * Dn (S m) f k + 2 * INR (S m) * Dn m f (k - 1)%Z.
Proof.
  revert k. induction m as [|m IH]; intros k.
  - cbn [Dn]. unfold D, theta. rewrite minus_IZR. cbn [INR]. ring.
  - change (Dn (S (S m)) (theta f) k) with (Dn (S m) (theta f) k - Dn (S m) (theta f) (k - 1)%Z).
    rewrite !IH. change (Dn (S (S m)) f k) with (Dn (S m) f k - Dn (S m) f (k - 1)%Z).
    rewrite minus_IZR, !S_INR. cbn [Dn]. unfold D. ring.
Qed.
Lemma P_S a k : P (S a) k = theta (P a) k.
Proof. unfold theta, P. destruct (Z.ltb k 0); cbn [pow]; ring. Qed.
Lemma B_eulerian a k : Dn (S a) (P a) k = B a k.
Proof.
  revert k. induction a as [|a IH]; intros k.
  - cbn [Dn B]. unfold D, P, delta. cbn [pow]. destruct (Z.eqb_spec k 0), (Z.ltb_spec k 0), (Z.ltb_spec (k - 1) 0); try lia; ring.
  - rewrite (Dn_ext _ _ _ (P_S a)), Dn_theta.
    change (Dn (S (S a)) (P a) k) with (Dn (S a) (P a) k - Dn (S a) (P a) (k - 1)%Z). rewrite !IH. cbn [B]. rewrite !S_INR. ring.
Qed.

(** ** several variables *)
Definition F (al : list nat) : ser := fold_right (fun a g => conv (P a) g) delta al.
Definition BB (al : list nat) : ser := fold_right (fun a g => conv (B a) g) delta al.
Lemma F_causal al : causal (F al).
Proof. destruct al; [exact (proj1 delta_pal)|apply conv_causal]. Qed.
Lemma BB_pal al : pal (list_sum al) (BB al).
Proof. induction al as [|a al IH]; [exact delta_pal|]. cbn [BB fold_right]. exact (conv_pal a (list_sum al) _ _ (B_pal a) IH). Qed.
Lemma BB_total al : zsm (S (list_sum al)) (BB al) = 2 ^ list_sum al * factp al.
Proof.
  induction al as [|a al IH]; [unfold zsm; cbn; unfold delta; cbn; ring|].
  change (BB (a :: al)) with (conv (B a) (BB al)). change (list_sum (a :: al)) with (a + list_sum al)%nat.
  rewrite (conv_total a (list_sum al) _ _ (B_pal a) (BB_pal al)), B_total, IH, pow_add. cbn [factp fold_right]. fold (factp al). ring.
Qed.
Lemma F_numerator al k : Dn (list_sum al + length al) (F al) k = BB al k.
Proof.
  revert k. induction al as [|a al IH]; intros k; [reflexivity|].
  change (F (a :: al)) with (conv (P a) (F al)). change (BB (a :: al)) with (conv (B a) (BB al)). change (list_sum (a :: al)) with (a + list_sum al)%nat. cbn [length].
  replace (a + list_sum al + S (length al))%nat with (S a + (list_sum al + length al))%nat by lia.
  rewrite (conv_Dn2 _ _ _ _ (P_causal a) (F_causal al)). apply conv_ext; [apply B_eulerian|exact IH].
Qed.
(** half of the numerator *)
Lemma F_half al n s : length al = S n -> list_sum al = (2 * s + 1)%nat -> Dn (list_sum al + n) (F al) (Z.of_nat s) = 4 ^ s * factp al.
Proof.
  intros Hl Hs. rewrite (telescope _ s) by (apply Dn_causal, F_causal).
  rewrite (zsm_ext _ _ (BB al)).
  2:{ intros k _. rewrite <- F_numerator. rewrite Hl. replace (list_sum al + S n)%nat with (S (list_sum al + n)) by lia. reflexivity. }
  pose proof (BB_pal al) as Hp. pose proof (BB_total al) as Ht. rewrite Hs in Hp, Ht. apply pal_half in Hp. rewrite Ht in Hp.
  rewrite pow_add, pow_mult in Hp. replace (2 ^ 2) with 4 in Hp by ring. lra.
Qed.

(** ** binomial coefficients *)
Fixpoint bc (m i : nat) : R :=
  match m, i with
  | _, O => 1
  | O, S _ => 0
  | S m', S i' => bc m' i' + bc m' i
  end.
Lemma bc_above m : forall i, (m < i)%nat -> bc m i = 0.
Proof. induction m as [|m IH]; intros [|i] H; try lia; [reflexivity|]. cbn [bc]. rewrite !IH by lia. ring. Qed.
Lemma bc_fact m : forall i, (i <= m)%nat -> bc m i = INR (fact m) / (INR (fact i) * INR (fact (m - i))).
Proof.
  induction m as [|m IH]; intros i Hi.
  - assert (i = 0)%nat by lia. subst i. cbn. field.
  - destruct i as [|i]; [cbn [bc]; rewrite Nat.sub_0_r; change (fact 0) with 1%nat; cbn [INR]; field; apply fact_nz|].
    cbn [bc]. rewrite IH by lia. destruct (Nat.eq_dec i m) as [->|Hne].
    + rewrite bc_above by lia. rewrite !Nat.sub_diag. change (fact 0) with 1%nat. cbn [INR]. field. split; apply fact_nz.
    + rewrite IH by lia. replace (S m - S i)%nat with (S (m - S i)) by lia. replace (m - i)%nat with (S (m - S i)) by lia.
      set (q := (m - S i)%nat). assert (Em : INR m = INR q + INR i + 1) by (unfold q; rewrite minus_INR by lia; rewrite S_INR; ring).
      rewrite !fact_S. rewrite Em. pose proof (fact_nz i). pose proof (fact_nz q). pose proof (pos_INR i). pose proof (pos_INR q). field. repeat split; lra.
Qed.
Lemma Dn_binomial m f : causal f -> forall n k, (k < Z.of_nat n)%Z ->
  Dn m f k = rsum n (fun i => (-1) ^ i * bc m i * f (k - Z.of_nat i)%Z).
Proof.
  intros Hf n. induction m as [|m IH]; intros k Hk.
  - destruct n as [|n]; [cbn; apply Hf; lia|]. rewrite rsum_front. rewrite rsum_zero by (intros i Hi; cbn [bc]; ring).
    cbn [Dn pow bc]. replace (k - Z.of_nat 0)%Z with k by lia. ring.
  - cbn [Dn]. unfold D. rewrite !IH by lia. destruct n as [|n]; [cbn; ring|].
    assert (E : rsum (S n) (fun i => (-1) ^ i * bc m i * f (k - 1 - Z.of_nat i)%Z) = - rsum n (fun i => (-1) ^ S i * bc m i * f (k - Z.of_nat (S i))%Z)).
    { cbn [rsum]. rewrite (Hf (k - 1 - Z.of_nat n)%Z) by lia. rewrite Rmult_0_r, Rplus_0_r.
      replace (- rsum n _) with (-1 * rsum n (fun i => (-1) ^ S i * bc m i * f (k - Z.of_nat (S i))%Z)) by ring. rewrite <- rsum_scal.
      apply rsum_ext. intros i _. replace (k - Z.of_nat (S i))%Z with (k - 1 - Z.of_nat i)%Z by lia. cbn [pow]. ring. }
    rewrite E. rewrite !rsum_front. cbn [pow bc]. replace (bc m 0) with 1 by (destruct m; reflexivity).
    match goal with |- ?x + ?y - - ?z = ?x + ?w => replace w with (y + z); [ring|] end. rewrite <- rsum_plus. apply rsum_ext. intros i _. cbn [pow]. ring.
Qed.

(** ** the points *)
(** all lists of n numbers with the sum m, in the order of the tables *)
Fixpoint comps (n m : nat) : list (list nat) :=
  match n with
  | O => match m with O => [[]] | S _ => [] end
  | S n' => flat_map (fun b => map (cons b) (comps n' (m - b))) (seq 0 (S m))
  end.
Lemma comps_ok n : forall m be, In be (comps n m) -> length be = n /\ list_sum be = m.
Proof.
  induction n as [|n IH]; intros m be H.
  - destruct m; [destruct H as [<-|[]]; split; reflexivity|contradiction].
  - cbn [comps] in H. apply in_flat_map in H. destruct H as (b & Hb & H). apply in_seq in Hb. apply in_map_iff in H. destruct H as (be' & <- & H).
    apply IH in H. destruct H as (H1 & H2). cbn [length]. change (list_sum (b :: be')) with (b + list_sum be')%nat. lia.
Qed.
Definition odd (b : nat) : R := 2 * INR b + 1.
Lemma rlsum_flat_map {A C} (f : A -> list C) (g : C -> R) l : rlsum (map g (flat_map f l)) = rlsum (map (fun a => rlsum (map g (f a))) l).
Proof. induction l as [|a l IH]; [reflexivity|]. cbn [flat_map map rlsum]. rewrite map_app, rlsum_app, IH. reflexivity. Qed.
Lemma rlsum_scal {A} (g : A -> R) c l : rlsum (map (fun a => c * g a) l) = c * rlsum (map g l).
Proof. induction l as [|a l IH]; cbn [map rlsum]; [ring|]. rewrite IH. ring. Qed.
Lemma comps_sum al : forall m, rlsum (map (fun be => monomial al (map odd be)) (comps (length al) m)) = F al (Z.of_nat m).
Proof.
  induction al as [|a al IH]; intros m.
  - cbn [length comps F fold_right]. unfold delta. destruct m; cbn; ring.
  - cbn [length comps]. rewrite rlsum_flat_map. change (F (a :: al)) with (conv (P a) (F al)).
    rewrite rlsum_map_seq. unfold conv. destruct (Z.ltb_spec (Z.of_nat m) 0); [lia|]. rewrite Nat2Z.id. unfold zsm. apply rsum_ext. intros b Hb.
    rewrite map_map. cbn [map monomial]. rewrite rlsum_scal, IH.
    unfold P. destruct (Z.ltb_spec (Z.of_nat b) 0); [lia|]. rewrite <- INR_IZR_INZ. f_equal. f_equal. lia.
Qed.

(** ** the rule of index s in n dimensions, with barycentric coordinates *)
Definition gm_den (n s i : nat) : R := INR (2 * (s - i) + S n).
Definition gm_weight (n s i : nat) : R :=
  (-1) ^ i * gm_den n s i ^ (2 * s + 1) / (4 ^ s * INR (fact i) * INR (fact (2 * s + 1 + n - i))).
Definition gm_point (n s i : nat) (be : list nat) : list R := map (fun b => odd b / gm_den n s i) be.
Definition gm_rule (n s : nat) : list (R * list R) :=
  flat_map (fun i => map (fun be => (gm_weight n s i, gm_point n s i be)) (comps (S n) (s - i))) (seq 0 (S s)).
Lemma gm_den_pos n s i : 0 < gm_den n s i.
Proof. unfold gm_den. apply lt_0_INR. lia. Qed.
Lemma monomial_scaled c al : c <> 0 -> forall xs : list R, length xs = length al -> monomial al (map (fun x => x / c) xs) = monomial al xs / c ^ list_sum al.
Proof.
  intros Hc. induction al as [|a al IH]; intros [|x xs] H; try discriminate; [cbn; field|].
  cbn [map monomial]. injection H as H. rewrite IH by exact H. change (list_sum (a :: al)) with (a + list_sum al)%nat.
  unfold Rdiv. rewrite Rpow_mult_distr, pow_inv, pow_add. field. split; apply pow_nonzero; exact Hc.
Qed.
Lemma comps_length_map n m be : In be (comps n m) -> length (map odd be) = n.
Proof. intros H. rewrite map_length. apply comps_ok in H. apply H. Qed.
(** monomials of the full degree *)
Lemma gm_full n s al : length al = S n -> list_sum al = (2 * s + 1)%nat ->
  apply_rule (gm_rule n s) (monomial al) = factp al / INR (fact (2 * s + 1 + n)).
Proof.
  intros Hl Hs. unfold apply_rule, gm_rule. rewrite rlsum_flat_map, rlsum_map_seq.
  assert (E : forall i, (i < S s)%nat ->
     rlsum (map (fun wx => fst wx * monomial al (snd wx)) (map (fun be => (gm_weight n s i, gm_point n s i be)) (comps (S n) (s - i)))) =
     / (4 ^ s * INR (fact (2 * s + 1 + n))) * ((-1) ^ i * bc (list_sum al + n) i * F al (Z.of_nat s - Z.of_nat i)%Z)).
  { intros i Hi. rewrite map_map. cbn [fst snd].
    rewrite (map_ext_in _ (fun be => gm_weight n s i / gm_den n s i ^ (2 * s + 1) * monomial al (map odd be))).
    - rewrite rlsum_scal. rewrite <- Hl, comps_sum. replace (Z.of_nat s - Z.of_nat i)%Z with (Z.of_nat (s - i)) by lia.
      rewrite Hs, bc_fact by lia. unfold gm_weight. pose proof (gm_den_pos n s i) as Hp. pose proof (pow_nonzero _ (2 * s + 1) (Rgt_not_eq _ _ Hp)) as Hq.
      pose proof (fact_nz i). pose proof (fact_nz (2 * s + 1 + n - i)). pose proof (fact_nz (2 * s + 1 + n)). assert (4 ^ s <> 0) by (apply pow_nonzero; lra).
      field. repeat split; assumption.
    - intros be Hb. unfold gm_point. rewrite <- (map_map odd (fun x => x / gm_den n s i)).
      rewrite monomial_scaled; [|apply Rgt_not_eq, gm_den_pos|rewrite (comps_length_map _ _ _ Hb); symmetry; exact Hl].
      rewrite Hs. unfold Rdiv. ring. }
  rewrite (rsum_ext _ _ _ E), rsum_scal. rewrite <- (Dn_binomial (list_sum al + n) (F al) (F_causal al) (S s) (Z.of_nat s)) by lia.
  rewrite (F_half al n s Hl Hs). pose proof (fact_nz (2 * s + 1 + n)). assert (4 ^ s <> 0) by (apply pow_nonzero; lra). field. split; assumption.
Qed.

(** ** monomials of lower degree: multiply by the sum of the barycentric coordinates *)
Fixpoint bump (j : nat) (al : list nat) : list nat :=
  match al, j with a :: r, O => S a :: r | a :: r, S j' => a :: bump j' r | [], _ => [] end.
Lemma bump_length j : forall al, length (bump j al) = length al.
Proof. induction j as [|j IH]; intros [|a al]; try reflexivity. cbn [bump length]. rewrite IH. reflexivity. Qed.
Lemma bump_sum j : forall al, (j < length al)%nat -> list_sum (bump j al) = S (list_sum al).
Proof.
  induction j as [|j IH]; intros [|a al] H; cbn [length] in H; try lia; [reflexivity|].
  cbn [bump]. change (list_sum (a :: bump j al)) with (a + list_sum (bump j al))%nat. rewrite IH by lia. change (list_sum (a :: al)) with (a + list_sum al)%nat. lia.
Qed.
Lemma bump_monomial al : forall xs, length xs = length al -> rlsum xs = 1 ->
  monomial al xs = rsum (length al) (fun j => monomial (bump j al) xs).
Proof.
  assert (G : forall al xs, length xs = length al -> rsum (length al) (fun j => monomial (bump j al) xs) = rlsum xs * monomial al xs).
  { intros bl. induction bl as [|a bl IH]; intros [|x xs] H; try discriminate; [cbn; ring|]. injection H as H. cbn [length]. rewrite rsum_front. cbn [bump monomial rlsum pow].
    rewrite (rsum_scal (length bl) (x ^ a)), IH by exact H. ring. }
  intros xs H Hx. rewrite G, Hx by exact H. ring.
Qed.
Lemma bump_factp al : rsum (length al) (fun j => factp (bump j al)) = INR (list_sum al + length al) * factp al.
Proof.
  induction al as [|a al IH]; [cbn; ring|]. cbn [length]. rewrite rsum_front. cbn [bump factp fold_right]. fold (factp al).
  rewrite (rsum_ext _ (fun i => _) (fun i => INR (fact a) * factp (bump i al))) by reflexivity. rewrite rsum_scal, IH. rewrite fact_S.
  change (list_sum (a :: al)) with (a + list_sum al)%nat.
  replace (a + list_sum al + S (length al))%nat with (S a + (list_sum al + length al))%nat by lia. rewrite (plus_INR (S a)), S_INR. ring.
Qed.
Lemma odd_sum be : rlsum (map odd be) = INR (2 * list_sum be + length be).
Proof.
  induction be as [|b be IH]; [reflexivity|]. cbn [map rlsum length]. rewrite IH. change (list_sum (b :: be)) with (b + list_sum be)%nat.
  unfold odd. replace (2 * (b + list_sum be) + S (length be))%nat with (2 * b + 1 + (2 * list_sum be + length be))%nat by lia.
  rewrite (plus_INR (2 * b + 1)), (plus_INR (2 * b) 1), (mult_INR 2 b). cbn [INR]. ring.
Qed.
Lemma gm_in n s wx : In wx (gm_rule n s) -> length (snd wx) = S n /\ rlsum (snd wx) = 1 /\ forall x, In x (snd wx) -> 0 <= x <= 1.
Proof.
  intros H. apply in_flat_map in H. destruct H as (i & Hi & H). apply in_seq in Hi. apply in_map_iff in H. destruct H as (be & <- & Hb). cbn [snd].
  destruct (comps_ok _ _ _ Hb) as (L1 & L2). pose proof (gm_den_pos n s i) as Hp. unfold gm_point.
  assert (S1 : rlsum (map (fun b => odd b / gm_den n s i) be) = 1).
  { rewrite (map_ext _ (fun b => / gm_den n s i * odd b)) by (intros; unfold Rdiv; ring). rewrite rlsum_scal, odd_sum, L1, L2. unfold gm_den. field.
    apply not_0_INR. lia. }
  split; [rewrite map_length; exact L1|]. split; [exact S1|].
  assert (N : forall x, In x (map (fun b => odd b / gm_den n s i) be) -> 0 <= x).
  { intros x Hx. apply in_map_iff in Hx. destruct Hx as (b & <- & _). unfold odd. pose proof (pos_INR b). apply Rmult_le_pos; [lra|]. apply Rlt_le, Rinv_0_lt_compat, Hp. }
  intros x Hx. split; [apply N; exact Hx|]. rewrite <- S1. clear S1. revert N Hx. generalize (map (fun b => odd b / gm_den n s i) be). intros l N Hx.
  assert (Q : forall l : list R, (forall x, In x l -> 0 <= x) -> 0 <= rlsum l) by (induction l0 as [|y l0 IH]; intros HN; cbn [rlsum]; [lra|]; pose proof (HN y (or_introl eq_refl)); specialize (IH (fun z Hz => HN z (or_intror Hz))); lra).
  induction l as [|y l IH]; [contradiction|]. cbn [rlsum]. pose proof (N y (or_introl eq_refl)). pose proof (Q l (fun z Hz => N z (or_intror Hz))).
  destruct Hx as [->|Hx]; [lra|]. specialize (IH (fun z Hz => N z (or_intror Hz)) Hx). lra.
Qed.
Lemma apply_rule_sum r n (g : nat -> list R -> R) : apply_rule r (fun x => rsum n (fun j => g j x)) = rsum n (fun j => apply_rule r (g j)).
Proof.
  unfold apply_rule. induction r as [|wx r IH]; [symmetry; apply rsum_0|]. cbn [map rlsum]. rewrite IH, <- rsum_scal, <- rsum_plus. apply rsum_ext. intros j _. cbn [map rlsum]. reflexivity.
Qed.
Lemma apply_rule_ext_in r g h : (forall wx, In wx r -> g (snd wx) = h (snd wx)) -> apply_rule r g = apply_rule r h.
Proof. intros H. unfold apply_rule. f_equal. apply map_ext_in. intros wx Hx. rewrite (H wx Hx). reflexivity. Qed.

(** Grundmann and Moeller 1978: exact for every monomial of degree at most 2 s + 1 *)
Theorem gm_exact n s : forall k al, length al = S n -> (list_sum al + k)%nat = (2 * s + 1)%nat ->
  apply_rule (gm_rule n s) (monomial al) = factp al / INR (fact (list_sum al + n)).
Proof.
  induction k as [|k IH]; intros al Hl Hs.
  - rewrite Nat.add_0_r in Hs. rewrite Hs. apply gm_full; assumption.
  - rewrite (apply_rule_ext_in _ _ (fun x => rsum (length al) (fun j => monomial (bump j al) x))).
    2:{ intros wx Hx. destruct (gm_in n s wx Hx) as (H1 & H2 & _). apply bump_monomial; [rewrite H1; symmetry; exact Hl|exact H2]. }
    rewrite apply_rule_sum.
    rewrite (rsum_ext _ _ (fun j => factp (bump j al) * / INR (fact (S (list_sum al + n))))).
    + rewrite rsum_scal_r, bump_factp, Hl, fact_S. replace (list_sum al + S n)%nat with (S (list_sum al + n)) by lia. rewrite S_INR.
      pose proof (fact_nz (list_sum al + n)). pose proof (pos_INR (list_sum al + n)). field. split; [assumption|lra].
    + intros j Hj. rewrite IH; [rewrite bump_sum by exact Hj; reflexivity|rewrite bump_length; exact Hl|rewrite bump_sum by exact Hj; lia].
Qed.
