(** * Proofs for C86 *)
From Coq Require Import List Arith ZArith Bool Reals Lra Lia Psatz.
From Verif Require Import RSum Outcome FitModel FitSpec.
Import ListNotations.
Local Open Scope R_scope.

(** ** a polynomial with more roots than its degree is zero *)
Fixpoint peval (l : list R) (x : R) : R := match l with [] => 0 | c :: l' => c + x * peval l' x end.
Fixpoint quot (l : list R) (a : R) : list R :=
  match l with [] => [] | _ :: l' => match l' with [] => [] | _ => peval l' a :: quot l' a end end.
Lemma quot_cons c l a : l <> [] -> quot (c :: l) a = peval l a :: quot l a.
Proof. destruct l; [congruence|reflexivity]. Qed.
Lemma quot_spec l a x : peval l x = peval l a + (x - a) * peval (quot l a) x.
Proof.
  induction l as [|c l IH]; [cbn; ring|]. destruct l as [|c2 l]; [cbn; ring|].
  rewrite quot_cons by discriminate. cbn [peval] in *. rewrite IH. ring.
Qed.
Lemma quot_length l a : length (quot l a) = pred (length l).
Proof. induction l as [|c l IH]; [reflexivity|]. destruct l as [|c2 l]; [reflexivity|]. rewrite quot_cons by discriminate. cbn [length] in *. rewrite IH. reflexivity. Qed.
Lemma quot_zero l a : peval l a = 0 -> Forall (fun c => c = 0) (quot l a) -> Forall (fun c => c = 0) l.
Proof.
  induction l as [|c l IH]; intros H F; [constructor|]. destruct l as [|c2 l].
  - cbn in H. constructor; [lra|constructor].
  - rewrite quot_cons in F by discriminate. inversion F as [|? ? F1 F2]; subst. change (c + a * peval (c2 :: l) a = 0) in H. change (peval (c2 :: l) a = 0) in F1. rewrite F1 in H.
    constructor; [lra|]. apply IH; assumption.
Qed.
Lemma roots_zero : forall l r, NoDup r -> (length l <= length r)%nat -> (forall a, In a r -> peval l a = 0) -> Forall (fun c => c = 0) l.
Proof.
  intros l r. revert l. induction r as [|a r IH]; intros l Hd Hl Hr.
  - destruct l; [constructor|cbn in Hl; lia].
  - apply (quot_zero l a); [apply Hr; left; reflexivity|]. inversion Hd as [|? ? Hn Hd']; subst. apply IH; [exact Hd'|rewrite quot_length; cbn in Hl; lia|].
    intros b Hb. pose proof (Hr b (or_intror Hb)) as Z. rewrite (quot_spec l a b) in Z. rewrite (Hr a (or_introl eq_refl)) in Z.
    assert (b - a <> 0) by (intros E; apply Hn; replace a with b by lra; exact Hb).
    assert ((b - a) * peval (quot l a) b = 0) by lra. apply Rmult_integral in H0. tauto.
Qed.
Lemma peval_shift c n s x : peval (map c (seq (S s) n)) x = peval (map (fun i => c (S i)) (seq s n)) x.
Proof. rewrite <- seq_shift, map_map. reflexivity. Qed.
Lemma peval_poly c d x : peval (map c (seq 0 (S d))) x = poly c d x.
Proof.
  unfold poly. revert c. induction d as [|d IH]; intros c; [cbn; ring|].
  change (seq 0 (S (S d))) with (0%nat :: seq 1 (S d)). cbn [map peval]. rewrite peval_shift, IH.
  rewrite (rsum_front (S d)). rewrite pow_O, <- rsum_scal. f_equal; [ring|]. apply rsum_ext. intros i _. cbn [pow]. ring.
Qed.
Lemma poly_zero c d x s : distinct_points d x s -> (forall i, (i <= d)%nat -> poly c d (x (s i)) = 0) -> forall i, (i <= d)%nat -> c i = 0.
Proof.
  intros Hs Hz i Hi.
  assert (F: Forall (fun c => c = 0) (map c (seq 0 (S d)))).
  { apply (roots_zero _ (map (fun i => x (s i)) (seq 0 (S d)))).
    - apply (NoDup_nth _ 0). rewrite map_length, seq_length. intros a b Ha Hb E.
      rewrite !(nth_indep _ 0 (x (s 0%nat))) in E by (rewrite map_length, seq_length; assumption).
      rewrite !(map_nth (fun i => x (s i))), !seq_nth in E by assumption. cbn [Nat.add] in E.
      destruct (Nat.eq_dec a b) as [|Hne]; [assumption|]. exfalso. apply (Hs a b); [lia|lia|exact Hne|exact E].
    - rewrite !map_length. lia.
    - intros a Ha. apply in_map_iff in Ha. destruct Ha as (k & <- & Hk). apply in_seq in Hk. rewrite peval_poly. apply Hz. lia. }
  rewrite Forall_forall in F. apply F. apply in_map. apply in_seq. lia.
Qed.

(** ** the normal equations *)
Lemma row_poly d (c : nat -> R) n x i : rsum (S d) (fun j => rsum n (fun k => x k ^ (i + j)) * c j) = rsum n (fun k => x k ^ i * poly c d (x k)).
Proof.
  rewrite (rsum_ext (S d) _ (fun j => rsum n (fun k => x k ^ i * (c j * x k ^ j)))) by (intros j _; rewrite <- rsum_scal_r; apply rsum_ext; intros k _; rewrite pow_add; ring).
  rewrite rsum_swap. apply rsum_ext. intros k _. rewrite rsum_scal. reflexivity.
Qed.
Lemma sum_poly d (c : nat -> R) n x (g : nat -> R) : rsum (S d) (fun i => c i * rsum n (fun k => x k ^ i * g k)) = rsum n (fun k => g k * poly c d (x k)).
Proof.
  rewrite (rsum_ext (S d) _ (fun i => rsum n (fun k => g k * (c i * x k ^ i)))) by (intros i _; rewrite <- rsum_scal; apply rsum_ext; intros; ring).
  rewrite rsum_swap. apply rsum_ext. intros k _. rewrite rsum_scal. reflexivity.
Qed.
Lemma squares_zero n g : rsum n (fun k => g k * g k) = 0 -> forall k, (k < n)%nat -> g k = 0.
Proof.
  induction n as [|n IH]; intros H k Hk; [lia|]. cbn [rsum] in H.
  assert (A: 0 <= rsum n (fun i => g i * g i)) by (apply rsum_nonneg; intros; apply Rle_0_sqr). pose proof (Rle_0_sqr (g n)) as B. unfold Rsqr in B.
  destruct (Nat.eq_dec k n) as [->|]; [assert (E: g n * g n = 0) by lra; apply Rmult_integral in E; tauto|apply IH; [lra|lia]].
Qed.
Lemma normal_regular d n x s bx : (forall i, (i <= d)%nat -> (s i < n)%nat) -> distinct_points d x s -> regular (S d) (lhs 0 n x bx).
Proof.
  intros Hs Hd v Hv.
  assert (Z: rsum n (fun k => poly v d (x k) * poly v d (x k)) = 0).
  { rewrite <- (sum_poly d v n x (fun k => poly v d (x k))). apply rsum_zero. intros i Hi. rewrite <- row_poly.
    unfold lhs in Hv. cbn [Nat.ltb Nat.leb] in Hv. specialize (Hv i Hi). rewrite Hv. ring. }
  intros i Hi. apply (poly_zero v d x s Hd); [|lia]. intros j Hj. apply (squares_zero n (fun k => poly v d (x k)) Z). apply Hs. exact Hj.
Qed.
Lemma poly_diff c p d x : poly (fun i => c i - p i) d x = poly c d x - poly p d x.
Proof. unfold poly. rewrite <- rsum_minus. apply rsum_ext. intros; ring. Qed.
Lemma normal_minimal d n x y bx by' p : (forall i, (i < S d)%nat -> rsum (S d) (fun j => lhs 0 n x bx i j * p j) = rhs 0 n x y by' i) ->
  forall c, sq_error n x y p d <= sq_error n x y c d.
Proof.
  intros Hp c. unfold sq_error.
  assert (E: forall i, (i < S d)%nat -> rsum n (fun k => x k ^ i * (poly p d (x k) - y k)) = 0).
  { intros i Hi. specialize (Hp i Hi). unfold lhs, rhs in Hp. cbn [Nat.ltb Nat.leb] in Hp. rewrite row_poly in Hp.
    rewrite (rsum_ext n _ (fun k => x k ^ i * poly p d (x k) - x k ^ i * y k)) by (intros; ring). rewrite rsum_minus. lra. }
  assert (O: rsum n (fun k => (poly p d (x k) - y k) * poly (fun i => c i - p i) d (x k)) = 0).
  { rewrite <- sum_poly. apply rsum_zero. intros i Hi. rewrite E by exact Hi. ring. }
  assert (P: 0 <= rsum n (fun k => poly (fun i => c i - p i) d (x k) * poly (fun i => c i - p i) d (x k))) by (apply rsum_nonneg; intros; apply Rle_0_sqr).
  assert (Sp: rsum n (fun k => (poly c d (x k) - y k) * (poly c d (x k) - y k))
    = rsum n (fun k => (poly p d (x k) - y k) * (poly p d (x k) - y k)) + 2 * rsum n (fun k => (poly p d (x k) - y k) * poly (fun i => c i - p i) d (x k))
      + rsum n (fun k => poly (fun i => c i - p i) d (x k) * poly (fun i => c i - p i) d (x k))).
  { rewrite <- rsum_scal, <- !rsum_plus. apply rsum_ext. intros k _. rewrite poly_diff. ring. }
  lra.
Qed.

(** ** the built model *)
Lemma build_ok lu f f' : build lu f = Ok f' -> 
  let d := Z.to_nat (f_degree f) in
  f_in f' = f_in f /\ f_out f' = f_out f /\ f_bcs f' = f_bcs f /\ f_degree f' = f_degree f /\ (0 <= f_degree f)%Z /\ (length (f_bcs f) <= S d)%nat /\
  f_coeffs f' = map (lu (S d) (lhs (length (f_bcs f)) (d_cols (f_in f)) (fun k => d_at (f_in f) 0 k) (fun i => fst (nth i (f_bcs f) (0, 0))))
                              (rhs (length (f_bcs f)) (d_cols (f_in f)) (fun k => d_at (f_in f) 0 k) (fun k => d_at (f_out f) 0 k) (fun i => snd (nth i (f_bcs f) (0, 0))))) (seq 0 (S d)).
Proof.
  unfold build. destruct (negb (Nat.eqb (d_rows (f_out f)) 1)); [discriminate|]. destruct (Z.ltb_spec (f_degree f) 0); [discriminate|].
  destruct (Nat.ltb_spec (S (Z.to_nat (f_degree f))) (length (f_bcs f))); [discriminate|]. cbn [orb].
  destruct (Nat.eqb (d_rows (f_in f)) 0 && negb (Nat.eqb (d_cols (f_in f)) 0))%bool; [discriminate|]. intros E. injection E as <-. cbn [f_in f_out f_bcs f_degree f_coeffs].
  repeat split; try reflexivity; assumption.
Qed.
Lemma solve_ok f p d input : f_degree f = Z.of_nat d -> f_coeffs f = map p (seq 0 (S d)) -> d_rows input = 1%nat ->
  solve_at f input = Ok (map (fun k => poly p d (d_at input 0 k)) (seq 0 (d_cols input))).
Proof.
  intros Hd Hc Hr. unfold solve_at. rewrite Hr, Hc, Hd, map_length, seq_length. cbn [Nat.eqb negb].
  destruct (Z.eqb_spec (Z.of_nat (S d)) (Z.of_nat d + 1)); [|lia]. cbn [negb]. f_equal. apply map_ext. intros k. apply rsum_ext. intros i Hi. f_equal.
  rewrite (nth_indep _ 0 (p 0%nat)) by (rewrite map_length, seq_length; exact Hi). rewrite map_nth, seq_nth by exact Hi. reflexivity.
Qed.

(** ** a solver: Gaussian elimination *)
Fixpoint pivot (n : nat) (a : nat -> nat -> R) : nat :=
  match n with O => O | S m => if Req_EM_T (a m 0%nat) 0 then pivot m a else m end.
Definition row_swap (p i : nat) : nat := if Nat.eqb i 0 then p else if Nat.eqb i p then 0%nat else i.
Fixpoint gauss (n : nat) (a : nat -> nat -> R) (b : nat -> R) : nat -> R :=
  match n with
  | O => fun _ => 0
  | S m =>
    let p := pivot n a in
    let q := a p 0%nat in
    let v := gauss m (fun i j => a (row_swap p (S i)) (S j) - a (row_swap p (S i)) 0%nat / q * a p (S j))
                     (fun i => b (row_swap p (S i)) - a (row_swap p (S i)) 0%nat / q * b p) in
    fun k => match k with O => (b p - rsum m (fun j => a p (S j) * v j)) / q | S k' => v k' end
  end.
Lemma pivot_spec n a : ((pivot n a < n)%nat /\ a (pivot n a) 0%nat <> 0) \/ (forall i, (i < n)%nat -> a i 0%nat = 0).
Proof.
  induction n as [|n IH]; cbn [pivot]; [right; intros; lia|]. destruct (Req_EM_T (a n 0%nat) 0) as [E|E].
  - destruct IH as [[H1 H2]|H]; [left; split; [lia|exact H2]|]. right. intros i Hi. destruct (Nat.eq_dec i n) as [->|]; [exact E|apply H; lia].
  - left. split; [lia|exact E].
Qed.
Lemma gauss_solver : solver gauss.
Proof.
  intros n. induction n as [|n IH]; intros a b Ha; [intros; lia|].
  destruct (pivot_spec (S n) a) as [[Hp Hpz]|H].
  2:{ exfalso. assert (E: (fun k => if Nat.eqb k 0 then 1 else 0) 0%nat = 0); [|cbn in E; lra].
      apply (Ha (fun k => if Nat.eqb k 0 then 1 else 0)); [|lia]. intros i Hi. rewrite (rsum_single (S n) 0); [rewrite (H i Hi); ring|lia|].
      intros j _ Hne. apply Nat.eqb_neq in Hne. rewrite Hne. ring. }
  cbn [gauss]. set (p := pivot (S n) a) in *. set (sg := row_swap p).
  assert (Sg: forall i, (i < S n)%nat -> (sg i < S n)%nat) by (intros i Hi; unfold sg, row_swap; destruct (Nat.eqb i 0); [exact Hp|]; destruct (Nat.eqb i p); lia).
  assert (Inv: forall i, sg (sg i) = i).
  { intros i. unfold sg, row_swap. destruct (Nat.eqb_spec i 0) as [->|H0].
    - destruct (Nat.eqb_spec p 0) as [->|]; [reflexivity|]. rewrite Nat.eqb_refl. reflexivity.
    - destruct (Nat.eqb_spec i p) as [->|H1]; [rewrite Nat.eqb_refl; reflexivity|].
      destruct (Nat.eqb_spec i 0); [lia|]. destruct (Nat.eqb_spec i p); [lia|reflexivity]. }
  set (q := a p 0%nat) in *.
  set (a' := fun i j => a (sg (S i)) (S j) - a (sg (S i)) 0%nat / q * a p (S j)).
  set (b' := fun i => b (sg (S i)) - a (sg (S i)) 0%nat / q * b p).
  set (ext := fun (v : nat -> R) (r : R) (k : nat) => match k with O => (r - rsum n (fun j => a p (S j) * v j)) / q | S k' => v k' end).
  assert (Row0: forall v r, rsum (S n) (fun j => a p j * ext v r j) = r).
  { intros v r. rewrite rsum_front. cbn [ext]. fold q. field. exact Hpz. }
  assert (RowS: forall v r i, rsum (S n) (fun j => a (sg (S i)) j * ext v r j) = rsum n (fun j => a' i j * v j) + a (sg (S i)) 0%nat / q * r).
  { intros v r i. rewrite rsum_front. cbn [ext]. unfold a'.
    rewrite (rsum_ext n (fun j => (a (sg (S i)) (S j) - a (sg (S i)) 0%nat / q * a p (S j)) * v j) (fun j => a (sg (S i)) (S j) * v j - a (sg (S i)) 0%nat / q * (a p (S j) * v j))) by (intros; ring).
    rewrite rsum_minus, rsum_scal. field. exact Hpz. }
  assert (Cover: forall i, (i < S n)%nat -> i = p \/ exists k, (k < n)%nat /\ i = sg (S k)).
  { intros i Hi. destruct (sg i) as [|k] eqn:E.
    - left. rewrite <- (Inv i), E. reflexivity.
    - right. exists k. split; [pose proof (Sg i Hi); lia|]. rewrite <- E. symmetry. apply Inv. }
  assert (Hv: forall i, (i < n)%nat -> rsum n (fun j => a' i j * gauss n a' b' j) = b' i).
  { apply IH. intros v Hv i Hi.
    assert (Z: forall k, (k < S n)%nat -> ext v 0 k = 0).
    { apply Ha. intros k Hk. destruct (Cover k Hk) as [->|(j & Hj & ->)]; [apply Row0|]. rewrite RowS, (Hv j Hj). ring. }
    apply (Z (S i)). lia. }
  intros i Hi. change (rsum (S n) (fun j => a i j * ext (gauss n a' b') (b p) j) = b i).
  destruct (Cover i Hi) as [->|(j & Hj & ->)]; [apply Row0|].
  rewrite RowS, (Hv j Hj). unfold b'. ring.
Qed.
