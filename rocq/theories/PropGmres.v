(** * C85: the linear solver Gmres *)
From Coq Require Import List Arith Bool Reals Lra Lia Psatz.
From Verif Require Import RSum Outcome AdaptiveModel AdaptiveProofs CollisionModel CollisionProofs2 GmresModel GmresProofs.
Import ListNotations.
Local Open Scope R_scope.

(** ** Specification *)
(** what the user wants small: the length of b - A x, and of P (b - A x) *)
Definition true_residual (n : nat) (A : gmat) (b x : gvec) : R := gnorm n (fun k => b k - gmul n A x k).
Definition preconditioned_residual (n : nat) (A P : gmat) (b x : gvec) : R := gnorm n (gmul n P (fun k => b k - gmul n A x k)).
(** makeGivens(p, q): a rotation (c, s) with which the second of the two rows becomes 0 *)
Definition makes_givens (givens : R -> R -> R * R) : Prop := forall p q, let (c, s) := givens p q in c * c + s * s = 1 /\ s * p + c * q = 0.
Definition injective (n : nat) (A : gmat) : Prop := forall v, (forall k, (k < n)%nat -> gmul n A v k = 0) -> forall k, (k < n)%nat -> v k = 0.
(** x + c_0 r + c_1 (P A) r + ... + c_{m-1} (P A)^{m-1} r with r = P (b - A x) *)
Fixpoint power_of (n : nat) (A P : gmat) (r : gvec) (q : nat) : gvec :=
  match q with O => r | S q' => gmul n P (gmul n A (power_of n A P r q')) end.
Definition krylov_point (n : nat) (A P : gmat) (b x : gvec) (m : nat) (c : nat -> R) : gvec :=
  fun k => x k + rsum m (fun q => c q * power_of n A P (gmul n P (fun i => b i - gmul n A x i)) q k).
(** Eigen::DiagonalPreconditioner, the default *)
Definition diagonal (A : gmat) : gmat := fun i j => if Nat.eqb i j then (if reqb (A i i) 0 then 1 else 1 / A i i) else 0.

Lemma givens_ok givens : makes_givens givens -> forall p q, rotation (givens p q) /\ snd (givens p q) * p + fst (givens p q) * q = 0.
Proof. intros H p q. specialize (H p q). unfold rotation. destruct (givens p q) as [c s]. exact H. Qed.

(** ** C85: the returned number of restarts tells whether the preconditioned residual reached the tolerance; it never grows *)
Theorem C85_residual n A P b givens tolerance krylovDimension maxNumRestarts x x' q :
  makes_givens givens -> 0 <= tolerance ->
  Gmres n A P b givens tolerance krylovDimension maxNumRestarts x = Ok (Answer x' q) ->
  (q <= maxNumRestarts)%nat
  /\ preconditioned_residual n A P b x' <= preconditioned_residual n A P b x
  /\ ((q < maxNumRestarts)%nat -> preconditioned_residual n A P b x' <= tolerance * (if rltb (gnorm n b) (1 / 100000) then 1 else gnorm n b)).
Proof.
  intros Hg Ht E. unfold Gmres in E. destruct (Nat.eqb n 0); [discriminate|].
  destruct (restarts_good n A P b givens tolerance krylovDimension (givens_ok _ Hg) Ht maxNumRestarts x 0 x' q E) as (B1 & B2 & B3).
  cbn [Nat.add] in *. split; [lia|]. split; [exact B1|exact B3].
Qed.
Print Assumptions C85_residual.

(** ** C85: without an early exit, one restart gives the best point of the Krylov space *)
Theorem C85_optimal n A P b givens tolerance krylovDimension x x' q :
  makes_givens givens -> 0 <= tolerance ->
  Gmres n A P b givens tolerance krylovDimension 1 x = Ok (Answer x' q) ->
  preconditioned_residual n A P b x' <= tolerance * (if rltb (gnorm n b) (1 / 100000) then 1 else gnorm n b)
  \/ forall c, preconditioned_residual n A P b x' <= preconditioned_residual n A P b (krylov_point n A P b x krylovDimension c).
Proof.
  intros Hg Ht E. unfold Gmres in E. destruct (Nat.eqb n 0); [discriminate|]. cbn [restarts] in E.
  pose proof (rhsNorm_pos n b) as Hp.
  destruct (rltb_spec (tolerance * rhsNorm n b) (gnorm n (residual n A P b x))) as [(Er & Hl)|(Er & Hl)]; rewrite Er in E.
  - assert (Hpos: 0 < gnorm n (residual n A P b x)) by (assert (0 <= tolerance * rhsNorm n b) by (apply Rmult_le_pos; lra); lra).
    pose proof (cycle_good n A P b givens tolerance krylovDimension (givens_ok _ Hg) x Hpos) as Gc.
    destruct (one_cycle n A P b givens tolerance krylovDimension x (residual n A P b x) (gnorm n (residual n A P b x))) as [[x1|x1|e]| |]; cbn [good_cycle] in Gc; try discriminate.
    + injection E as <- <-. left. apply Rlt_le. apply Gc.
    + right. assert (X: x' = x1) by (destruct (rltb _ _) in E; injection E as <- <-; reflexivity). subst x1.
      destruct Gc as [_ Opt]. intros c. refine (Rle_trans _ _ _ (Opt c) (Req_le _ _ _)). unfold preconditioned_residual, krylov_point.
      assert (K: forall r j k, krylov n A P r j k = power_of n A P r j k).
      { intros r j. induction j as [|j IH]; intros k; cbn [krylov power_of]; [reflexivity|].
        apply gmul_ext. intros i _. apply gmul_ext. intros l _. apply IH. }
      unfold gnorm. f_equal. apply gdot_ext; intros k _; apply (res_ext n A P b); intros i _; f_equal; apply rsum_ext; intros j _; rewrite K; reflexivity.
  - left. injection E as <- <-. exact Hl.
Qed.
Print Assumptions C85_optimal.

(** ** C85: for a regular matrix the method never breaks down, if the Krylov dimension is below n *)
Theorem C85_nonsingular n A P b givens tolerance krylovDimension maxNumRestarts x :
  makes_givens givens -> 0 < tolerance -> (krylovDimension < n)%nat -> injective n A -> injective n P ->
  exists x' q, Gmres n A P b givens tolerance krylovDimension maxNumRestarts x = Ok (Answer x' q).
Proof.
  intros Hg Ht Hk HA HP. unfold Gmres. destruct (Nat.eqb_spec n 0); [lia|].
  apply restarts_defined; try assumption; [exact (givens_ok _ Hg)|]. intros v Hv. apply HA. apply HP. exact Hv.
Qed.
Print Assumptions C85_nonsingular.

(** the default preconditioner is injective *)
Lemma diagonal_times n A v k : (k < n)%nat -> gmul n (diagonal A) v k = (if reqb (A k k) 0 then 1 else 1 / A k k) * v k.
Proof.
  intros Hk. unfold gmul, diagonal. rewrite (rsum_single n k); [rewrite Nat.eqb_refl; reflexivity|exact Hk|].
  intros j _ Hne. destruct (Nat.eqb_spec k j); [congruence|]. ring.
Qed.
Theorem C85_default_preconditioner n A : injective n (diagonal A).
Proof.
  intros v H k Hk. specialize (H k Hk). rewrite diagonal_times in H by exact Hk.
  destruct (reqb_spec (A k k) 0) as [(E & _)|(E & Hne)]; rewrite E in H; [lra|].
  apply Rmult_integral in H. destruct H as [H|H]; [|exact H]. exfalso. apply (Rinv_neq_0_compat _ Hne). unfold Rdiv in H. lra.
Qed.
Print Assumptions C85_default_preconditioner.

(** a makeGivens that meets the contract *)
Definition the_givens (p q : R) : R * R :=
  if reqb (p * p + q * q) 0 then (1, 0) else (p / sqrt (p * p + q * q), - q / sqrt (p * p + q * q)).
Lemma the_givens_ok : makes_givens the_givens.
Proof.
  intros p q. unfold the_givens. destruct (reqb_spec (p * p + q * q) 0) as [(-> & H)|(-> & H)].
  - assert (q * q = 0) by nra. apply Rmult_integral in H0. split; [ring|]. destruct H0 as [->| ->]; ring.
  - assert (Hp: 0 <= p * p + q * q) by nra. assert (Hs: sqrt (p * p + q * q) <> 0) by (intros F; apply sqrt_eq_0 in F; lra).
    pose proof (sqrt_sqrt _ Hp) as S. set (s := sqrt (p * p + q * q)) in *. split; [|field; exact Hs].
    replace (p / s * (p / s) + - q / s * (- q / s)) with ((p * p + q * q) / (s * s)) by (field; exact Hs). rewrite S. field. exact H.
Qed.

(** ** concrete inputs *)
Definition two_by_two (a00 a01 a10 a11 : R) : gmat := fun i j =>
  match i, j with O, O => a00 | O, _ => a01 | _, O => a10 | _, _ => a11 end.
Definition e_first (a : R) : gvec := fun k => if Nat.eqb k 0 then a else 0.
Lemma norm_first a : 0 <= a -> forall v : gvec, v 0%nat = a -> v 1%nat = 0 -> gnorm 2 v = a.
Proof. intros Ha v H0 H1. unfold gnorm, gdot. cbn [rsum]. rewrite H0, H1. replace (0 + a * a + 0 * 0) with (a * a) by ring. apply sqrt_square. exact Ha. Qed.

(** the hypotheses of [C85_nonsingular] hold for an unsymmetric matrix, the default preconditioner and one column *)
Example C85_case : injective 2 (two_by_two 2 1 0 3) /\
  exists x' q, Gmres 2 (two_by_two 2 1 0 3) (diagonal (two_by_two 2 1 0 3)) (e_first 1) the_givens (1 / 1000000) 1 10 (fun _ => 0) = Ok (Answer x' q)
    /\ preconditioned_residual 2 (two_by_two 2 1 0 3) (diagonal (two_by_two 2 1 0 3)) (e_first 1) x' <= 1 / 2.
Proof.
  assert (HA: injective 2 (two_by_two 2 1 0 3)).
  { intros v H. pose proof (H 0%nat ltac:(lia)) as H0. pose proof (H 1%nat ltac:(lia)) as H1. unfold gmul, two_by_two in H0, H1. cbn [rsum] in H0, H1.
    intros k Hk. assert (v 1%nat = 0) by lra. destruct k as [|[|k]]; [lra|assumption|lia]. }
  split; [exact HA|].
  destruct (C85_nonsingular 2 (two_by_two 2 1 0 3) (diagonal (two_by_two 2 1 0 3)) (e_first 1) the_givens (1 / 1000000) 1 10 (fun _ => 0)
              the_givens_ok ltac:(lra) ltac:(lia) HA (C85_default_preconditioner 2 _)) as (x' & q & E).
  exists x', q. split; [exact E|]. apply C85_residual in E; [|exact the_givens_ok|lra]. destruct E as (_ & E & _). refine (Rle_trans _ _ _ E (Req_le _ _ _)).
  unfold preconditioned_residual. apply norm_first; [lra| |].
  - rewrite diagonal_times by lia. unfold two_by_two, e_first, gmul. cbn [rsum Nat.eqb]. destruct (reqb_spec 2 0) as [(_ & F)|(-> & _)]; lra.
  - rewrite diagonal_times by lia. unfold two_by_two, e_first, gmul. cbn [rsum Nat.eqb]. lra.
Qed.

(** ** C85 is false for the residual itself: only the preconditioned one is compared with the tolerance.  A = 1000 I, b = e_0,
    x = 0, tolerance 1/100: the start vector 0 is returned as converged, the residual is as large as b. *)
Theorem C85_true_residual_refuted : let A := two_by_two 1000 0 0 1000 in
  forall givens krylovDimension maxNumRestarts,
  Gmres 2 A (diagonal A) (e_first 1) givens (1 / 100) krylovDimension maxNumRestarts (fun _ => 0) = Ok (Answer (fun _ => 0) 0)
  /\ true_residual 2 A (e_first 1) (fun _ => 0) = 1 /\ gnorm 2 (e_first 1) = 1.
Proof.
  intros A givens kd mr.
  assert (Nb: gnorm 2 (e_first 1) = 1) by (apply norm_first; [lra|reflexivity|reflexivity]).
  assert (Nr: gnorm 2 (residual 2 A (diagonal A) (e_first 1) (fun _ => 0)) = 1 / 1000).
  { apply norm_first; [lra| |]; unfold residual; rewrite diagonal_times by lia; unfold A, two_by_two, e_first, gmul; cbn [rsum Nat.eqb];
      [|lra]. destruct (reqb_spec 1000 0) as [(_ & F)|(-> & _)]; lra. }
  split; [|split; [|exact Nb]].
  - unfold Gmres. cbn [Nat.eqb].
    assert (Rn: rhsNorm 2 (e_first 1) = 1) by (unfold rhsNorm; rewrite Nb; destruct (rltb_spec 1 (1 / 100000)) as [(-> & H)|(-> & H)]; lra).
    destruct mr; cbn [restarts]; rewrite Nr, Rn; destruct (rltb_spec (1 / 100 * 1) (1 / 1000)) as [(_ & F)|(-> & _)]; try lra; reflexivity.
  - apply norm_first; [lra| |]; unfold A, two_by_two, e_first, gmul; cbn [rsum Nat.eqb]; ring.
Qed.
Print Assumptions C85_true_residual_refuted.

(** ** a right hand side shorter than 1e-5 gets the tolerance as an absolute one: the equation x = 1e-6 e_0 is "solved" by 0 to a
    tolerance of 1e-5 *)
Theorem C85_small_rhs_refuted : let A := two_by_two 1 0 0 1 in
  forall givens krylovDimension maxNumRestarts,
  Gmres 2 A (diagonal A) (e_first (1 / 1000000)) givens (1 / 100000) krylovDimension maxNumRestarts (fun _ => 0) = Ok (Answer (fun _ => 0) 0)
  /\ true_residual 2 A (e_first (1 / 1000000)) (fun _ => 0) = gnorm 2 (e_first (1 / 1000000)) /\ 0 < gnorm 2 (e_first (1 / 1000000)).
Proof.
  intros A givens kd mr.
  assert (Nb: gnorm 2 (e_first (1 / 1000000)) = 1 / 1000000) by (apply norm_first; [lra|reflexivity|reflexivity]).
  assert (Nr: gnorm 2 (residual 2 A (diagonal A) (e_first (1 / 1000000)) (fun _ => 0)) = 1 / 1000000).
  { apply norm_first; [lra| |]; unfold residual; rewrite diagonal_times by lia; unfold A, two_by_two, e_first, gmul; cbn [rsum Nat.eqb]; [|lra].
    destruct (reqb_spec 1 0) as [(_ & F)|(-> & _)]; lra. }
  split; [|split; [|rewrite Nb; lra]].
  - unfold Gmres. cbn [Nat.eqb].
    assert (Rn: rhsNorm 2 (e_first (1 / 1000000)) = 1) by (unfold rhsNorm; rewrite Nb; destruct (rltb_spec (1 / 1000000) (1 / 100000)) as [(-> & H)|(-> & H)]; lra).
    destruct mr; cbn [restarts]; rewrite Nr, Rn; destruct (rltb_spec (1 / 100000 * 1) (1 / 1000000)) as [(_ & F)|(-> & _)]; try lra; reflexivity.
  - rewrite Nb. apply norm_first; [lra| |]; unfold A, two_by_two, e_first, gmul; cbn [rsum Nat.eqb]; ring.
Qed.
Print Assumptions C85_small_rhs_refuted.

(** ** with a Krylov dimension of n - or any system with one unknown - the vector s is read and written out of bounds *)
Theorem C85_full_space_refuted givens maxNumRestarts krylovDimension : let A : gmat := fun _ _ => 2 in
  Gmres 1 A (diagonal A) (fun _ => 1) givens (1 / 1000000) (S krylovDimension) (S maxNumRestarts) (fun _ => 0) = UB.
Proof.
  intros A. unfold Gmres. cbn [Nat.eqb restarts].
  assert (Nr: gnorm 1 (residual 1 A (diagonal A) (fun _ => 1) (fun _ => 0)) = 1 / 2).
  { unfold gnorm, gdot. cbn [rsum]. unfold residual. rewrite diagonal_times by lia. unfold A, gmul. cbn [rsum].
    destruct (reqb_spec 2 0) as [(_ & F)|(-> & _)]; [lra|].
    replace (0 + 1 / 2 * (1 - (0 + 2 * 0)) * (1 / 2 * (1 - (0 + 2 * 0)))) with (1 / 2 * (1 / 2)) by field. apply sqrt_square. lra. }
  assert (Rn: rhsNorm 1 (fun _ => 1) = 1).
  { assert (N: gnorm 1 (fun _ => 1) = 1) by (unfold gnorm, gdot; cbn [rsum]; replace (0 + 1 * 1) with (1 * 1) by ring; apply sqrt_square; lra).
    unfold rhsNorm. rewrite N. destruct (rltb_spec 1 (1 / 100000)) as [(-> & H)|(-> & H)]; lra. }
  rewrite Nr, Rn. destruct (rltb_spec (1 / 1000000 * 1) (1 / 2)) as [(-> & _)|(_ & F)]; [|lra]. reflexivity.
Qed.
Print Assumptions C85_full_space_refuted.

(** ** a singular matrix: A = 0 has no solution for b = e_0.  The estimate of the residual becomes 0, the method returns 0
    restarts, which means converged, and an x of which the entries are no numbers. *)
Theorem C85_singular_refuted givens maxNumRestarts krylovDimension : let A := two_by_two 0 0 0 0 in
  givens 0 0 = (1, 0) ->
  Gmres 2 A (diagonal A) (e_first 1) givens (1 / 1000000) (S krylovDimension) (S maxNumRestarts) (fun _ => 0) = Ok (NoNumber (Some 0%nat)).
Proof.
  intros A Hg. unfold Gmres. cbn [Nat.eqb restarts].
  assert (Z: forall v k, gmul 2 A v k = 0) by (intros v k; unfold gmul, A, two_by_two; cbn [rsum]; destruct k; ring).
  assert (Nr: gnorm 2 (residual 2 A (diagonal A) (e_first 1) (fun _ => 0)) = 1).
  { apply norm_first; [lra| |]; unfold residual; rewrite diagonal_times by lia; rewrite Z; unfold A, two_by_two, e_first; cbn [Nat.eqb];
      destruct (reqb_spec 0 0) as [(-> & _)|(_ & F)]; lra. }
  assert (Nb: gnorm 2 (e_first 1) = 1) by (apply norm_first; [lra|reflexivity|reflexivity]).
  assert (Rn: rhsNorm 2 (e_first 1) = 1) by (unfold rhsNorm; rewrite Nb; destruct (rltb_spec 1 (1 / 100000)) as [(-> & H)|(-> & H)]; lra).
  rewrite Nr, Rn. destruct (rltb_spec (1 / 1000000 * 1) 1) as [(-> & _)|(_ & F)]; [|lra].
  unfold one_cycle. cbn [columns Nat.ltb Nat.leb].
  set (st := mkArn _ _ _ _). destruct (column 2 A (diagonal A) givens st 0) as [st' nan] eqn:Ec.
  assert (W: forall v k, (k < 2)%nat -> gmul 2 (diagonal A) (gmul 2 A v) k = 0) by (intros v k Hk; rewrite diagonal_times by exact Hk; rewrite Z; ring).
  unfold column in Ec. cbn [gram] in Ec.
  set (w0 := gmul 2 (diagonal A) (gmul 2 A (aV st 0%nat))) in *.
  assert (D: gdot 2 w0 (aV st 0%nat) = 0) by (unfold gdot; cbn [rsum]; unfold w0; rewrite !W by lia; ring).
  rewrite D in Ec.
  assert (Nw: gnorm 2 (fun k => w0 k - 0 * aV st 0%nat k) = 0) by (apply norm_first; [lra| |]; unfold w0; rewrite W by lia; ring).
  rewrite Nw in Ec. cbn [rots] in Ec. unfold upd_col in Ec at 2 3 5 6 8 9. cbn [Nat.eqb] in Ec.
  unfold upd_col in Ec. cbn [Nat.eqb] in Ec. rewrite Hg in Ec. injection Ec as <- _.
  cbn [aS aH]. rewrite rot_Sl. cbn [fst snd st aS Nat.eqb]. replace (0 * 1 + 1 * 0) with 0 by ring. rewrite Rabs_R0, Rn.
  destruct (rltb_spec 0 (1 / 1000000 * 1)) as [(-> & _)|(_ & F)]; [|lra].
  unfold corrected. cbn [back_solve rsum Nat.ltb Nat.leb aS aH Nat.eqb].
  rewrite !rot_l. cbn [fst snd Nat.eqb].
  destruct (reqb_spec (1 * 1 - 0 * 0 - (0 + 0)) 0) as [(_ & F)|(-> & _)]; [lra|].
  destruct (reqb_spec (1 * 0 - 0 * 0) 0) as [(-> & _)|(_ & F)]; [reflexivity|lra].
Qed.
Print Assumptions C85_singular_refuted.
