(** * Proofs for C30 *)
From Coq Require Import List Arith Bool Reals Lra Lia.
From Coquelicot Require Import Coquelicot.
From Verif Require Import Outcome RSum AdaptiveModel AdaptiveProofs FractureModel FractureSpec.
Import ListNotations.
Local Open Scope R_scope.

Lemma segment_value F D i s : segment_work F D i s ((F i * s + (F (S i) - F i) * (s * s) / 2) * (D (S i) - D i)).
Proof.
  unfold segment_work.
  set (P := fun x => (F i * x + (F (S i) - F i) * (x * x) / 2) * (D (S i) - D i)).
  replace ((F i * s + (F (S i) - F i) * (s * s) / 2) * (D (S i) - D i)) with (P s - P 0) by (unfold P; field).
  apply (is_RInt_derive P).
  - intros x _. unfold P. auto_derive; auto. field.
  - intros x _. apply (ex_derive_continuous (V := R_NormedModule)). auto_derive; auto.
Qed.

Lemma segment_unique F D i s a : segment_work F D i s a -> a = (F i * s + (F (S i) - F i) * (s * s) / 2) * (D (S i) - D i).
Proof.
  intros H. rewrite <- (is_RInt_unique _ _ _ _ H). apply (is_RInt_unique _ _ _ _ (segment_value F D i s)).
Qed.

Lemma fold_left_sum (f : nat -> R) l z : fold_left (fun s i => s + f i) l z = z + rlsum (map f l).
Proof. revert z; induction l as [|x l IH]; intros z; simpl; [lra|]. rewrite IH. lra. Qed.

Lemma internal_sum g n : integrate_internal g n =
  rsum (n - 1) (fun i => (at_ (mForce g) (S i) + at_ (mForce g) i) / 2 * (at_ (mDispl g) (S i) - at_ (mDispl g) i)).
Proof.
  unfold integrate_internal. rewrite (fold_left_sum (fun iRow => (at_ (mForce g) (iRow + 1) + at_ (mForce g) iRow) / 2 * (at_ (mDispl g) (iRow + 1) - at_ (mDispl g) iRow))), Rplus_0_l, rlsum_map_seq. apply rsum_ext. intros i _. rewrite Nat.add_1_r. reflexivity.
Qed.

Lemma full_work g n a : (forall i, (i < n)%nat -> segment_work (at_ (mForce g)) (at_ (mDispl g)) i 1 (a i)) ->
  integrate_internal g (S n) = rsum n a.
Proof.
  intros H. rewrite internal_sum. replace (S n - 1)%nat with n by lia. apply rsum_ext. intros i Hi.
  rewrite <- (is_RInt_unique _ _ _ _ (H i Hi)). symmetry.
  etransitivity; [apply (is_RInt_unique _ _ _ _ (segment_value _ _ i 1))|]. field.
Qed.

Lemma interpolation_integral F D g : forall n, (forall i, (i < n)%nat -> D i < D (S i)) -> interpolates F D (S n) g ->
  is_RInt g (D O) (D n) (rsum n (fun i => (F (S i) + F i) / 2 * (D (S i) - D i))).
Proof.
  induction n as [|n IH]; intros HD Hg; simpl.
  - apply (is_RInt_point g (D O)).
  - apply (is_RInt_Chasles g (D O) (D n) (D (S n))).
    + apply IH; [intros i Hi; apply HD; lia|]. intros i x Hi. apply Hg. lia.
    + assert (Hlt : D n < D (S n)) by (apply HD; lia).
      apply (is_RInt_ext (fun x => F n + (F (S n) - F n) * ((x - D n) / (D (S n) - D n)))).
      * intros x. rewrite Rmin_left, Rmax_right by lra. intros Hx. symmetry. apply Hg; [lia|lra].
      * set (P := fun x => F n * x + (F (S n) - F n) * ((x - D n) * (x - D n) / (2 * (D (S n) - D n)))).
        replace ((F (S n) + F n) / 2 * (D (S n) - D n)) with (P (D (S n)) - P (D n)) by (unfold P; field; lra).
        apply (is_RInt_derive P).
        -- intros x _. unfold P. auto_derive; [lra|]. field. lra.
        -- intros x _. apply (ex_derive_continuous (V := R_NormedModule)). auto_derive. lra.
Qed.

Lemma find_index_spec g thr i : find_index g thr = Ok i ->
  at_ (mForce g) (length (mForce g) - 1) <= thr /\ (S i < length (mForce g))%nat /\ thr < at_ (mForce g) i /\ at_ (mForce g) (S i) <= thr /\
  forall j, (j < i)%nat -> ~ (thr < at_ (mForce g) j /\ at_ (mForce g) (S j) <= thr).
Proof.
  unfold find_index. destruct (rltb_spec thr (at_ (mForce g) (length (mForce g) - 1))) as [(-> & _)|(-> & H0)]; [discriminate|].
  set (p := fun i : nat => rltb thr (at_ (mForce g) i) && rleb (at_ (mForce g) (i + 1)) thr).
  assert (G : forall n s, match find p (seq s n) with
    | Some i => (s <= i < s + n)%nat /\ p i = true /\ forall j, (s <= j < i)%nat -> p j = false
    | None => True end).
  { induction n as [|n IH]; intros s; simpl; auto. destruct (p s) eqn:Ep.
    - split; [lia|]. split; auto. intros j Hj. lia.
    - specialize (IH (S s)). destruct (find p (seq (S s) n)) as [k|]; auto. destruct IH as (A & B & C). split; [lia|]. split; auto.
      intros j Hj. destruct (Nat.eq_dec j s) as [->|]; auto. apply C. lia. }
  specialize (G (length (mForce g) - 1)%nat 0%nat). fold p. destruct (find p _) as [k|]; [|discriminate]. intros [= ->].
  destruct G as (A & B & C). split; auto. split; [lia|]. unfold p in B. apply andb_prop in B. destruct B as (B1 & B2).
  destruct (rltb_spec thr (at_ (mForce g) i)) as [(_ & Ha)|(Hf & _)]; [|congruence].
  destruct (rleb_spec (at_ (mForce g) (i + 1)) thr) as [(_ & Hb)|(Hf & _)]; [|congruence].
  rewrite Nat.add_1_r in Hb. split; auto. split; auto. intros j Hj (H1 & H2).
  assert (Hp : p j = false) by (apply C; lia). unfold p in Hp. rewrite Nat.add_1_r in Hp.
  destruct (rltb_spec thr (at_ (mForce g) j)) as [(E1 & _)|(_ & ?)]; [|lra].
  destruct (rleb_spec (at_ (mForce g) (S j)) thr) as [(E2 & _)|(_ & ?)]; [|lra].
  rewrite E1, E2 in Hp. discriminate.
Qed.

(** the crossing fraction exists and is unique *)
Lemma crossing a b thr : thr < a -> b <= thr -> exists s, 0 < s <= 1 /\ a + s * (b - a) = thr.
Proof.
  intros Ha Hb. exists ((a - thr) / (a - b)). split.
  - split; [apply Rdiv_lt_0_compat; lra|]. apply (Rmult_le_reg_r (a - b)); [lra|]. field_simplify; lra.
  - field. lra.
Qed.

Lemma threshold_collinear g area thr i w s : find_index g thr = Ok (S i) ->
  let F := at_ (mForce g) in let D := at_ (mDispl g) in
  F i <> F (S i) -> (F (S (S i)) - F (S i)) * (D (S i) - D i) = (F (S i) - F i) * (D (S (S i)) - D (S i)) ->
  F (S i) + s * (F (S (S i)) - F (S i)) = thr -> curve_work F D (S i) s w ->
  integrate_threshold g area thr = Ok (Some (w / area)).
Proof.
  intros Hi F D Hne Hcol Hs (a & Ha & Hl & ->). unfold integrate_threshold. rewrite Hi. cbn [obind integrate_to_threshold].
  fold F D. destruct (Req_EM_T (F i - F (S i)) 0) as [E|_]; [exfalso; apply Hne; lra|]. unfold omap. cbn [obind option_map]. apply (f_equal (fun x => Ok (Some (x / area)))).
  rewrite (full_work g i a) by (intros j Hj; apply Ha; lia). cbn [rsum].
  rewrite Rplus_assoc. apply (f_equal (Rplus (rsum i a))).
  assert (E1 : a i = (F (S i) + F i) / 2 * (D (S i) - D i)).
  { assert (Hii : (i < S i)%nat) by lia. rewrite <- (is_RInt_unique _ _ _ _ (Ha i Hii)).
    etransitivity; [apply (is_RInt_unique _ _ _ _ (segment_value F D i 1))|]. field. }
  assert (E2 : a (S i) = (F (S i) * s + (F (S (S i)) - F (S i)) * (s * s) / 2) * (D (S (S i)) - D (S i))).
  { rewrite <- (is_RInt_unique _ _ _ _ Hl). apply (is_RInt_unique _ _ _ _ (segment_value F D (S i) s)). }
  rewrite E1, E2, <- Hs.
  set (m := (D (S i) - D i) / (F (S i) - F i)).
  assert (Hm1 : D (S i) - D i = m * (F (S i) - F i)) by (unfold m; field; lra).
  assert (Hm2 : D (S (S i)) - D (S i) = m * (F (S (S i)) - F (S i))).
  { unfold m. apply (Rmult_eq_reg_l (F (S i) - F i)); [|lra]. rewrite <- Hcol. field. lra. }
  replace ((D i - D (S i)) / (F i - F (S i))) with m by (unfold m; field; split; lra).
  rewrite Hm1, Hm2. field.
Qed.
