(** * Commutative rings and finite sums

    [double] arithmetic is modelled by an arbitrary commutative ring wherever a
    property needs ring laws only; rounding is then not modelled.  Integers and
    real numbers are instances (end of file). *)
From Coq Require Import List ZArith Arith Lia Ring Permutation Reals.
Import ListNotations.

Record CRing := mkCRing {
  car :> Type;
  r0 : car; r1 : car;
  radd : car -> car -> car; rmul : car -> car -> car; rsub : car -> car -> car; ropp : car -> car;
  r_theory : ring_theory r0 r1 radd rmul rsub ropp eq }.

Arguments r0 {_}. Arguments r1 {_}. Arguments radd {_}. Arguments rmul {_}.
Arguments rsub {_}. Arguments ropp {_}.

Declare Scope cring_scope.
Delimit Scope cring_scope with F.
Notation "x + y" := (radd x y) : cring_scope.
Notation "x * y" := (rmul x y) : cring_scope.
Notation "x - y" := (rsub x y) : cring_scope.
Notation "- x" := (ropp x) : cring_scope.
Notation "0" := r0 : cring_scope.
Notation "1" := r1 : cring_scope.

Section Sums.
  Variable F : CRing.
  Add Ring Fring : (r_theory F).
  Local Open Scope cring_scope.

  (** sum of a list *)
  Definition lsum (l : list F) : F := fold_right radd 0 l.

  (** sum of [f] over the elements of a list *)
  Definition sum_over {A} (l : list A) (f : A -> F) : F := lsum (map f l).

  (** sum of [f 0 .. f (n-1)] *)
  Definition sum_n (n : nat) (f : nat -> F) : F := sum_over (seq 0 n) f.

  Lemma lsum_app l m : lsum (l ++ m) = lsum l + lsum m.
  Proof. induction l as [|x l IH]; simpl; [|rewrite IH]; ring. Qed.

  Lemma lsum_perm l m : Permutation l m -> lsum l = lsum m.
  Proof. induction 1; simpl; try congruence; ring. Qed.

  Lemma sum_over_nil {A} (f : A -> F) : sum_over [] f = 0.
  Proof. reflexivity. Qed.

  Lemma sum_over_cons {A} a l (f : A -> F) : sum_over (a :: l) f = f a + sum_over l f.
  Proof. reflexivity. Qed.

  Lemma sum_over_app {A} l m (f : A -> F) : sum_over (l ++ m) f = sum_over l f + sum_over m f.
  Proof. unfold sum_over. rewrite map_app. apply lsum_app. Qed.

  Lemma sum_over_ext {A} l (f g : A -> F) : (forall a, In a l -> f a = g a) -> sum_over l f = sum_over l g.
  Proof. intros H. unfold sum_over. f_equal. apply map_ext_in. auto. Qed.

  Lemma sum_over_add {A} l (f g : A -> F) : sum_over l (fun a => f a + g a) = sum_over l f + sum_over l g.
  Proof. induction l as [|x l IH]; [rewrite !sum_over_nil|rewrite !sum_over_cons, IH]; ring. Qed.

  Lemma sum_over_scal {A} l c (f : A -> F) : sum_over l (fun a => c * f a) = c * sum_over l f.
  Proof. induction l as [|x l IH]; [rewrite !sum_over_nil|rewrite !sum_over_cons, IH]; ring. Qed.

  Lemma sum_over_scal_r {A} l c (f : A -> F) : sum_over l (fun a => f a * c) = sum_over l f * c.
  Proof. induction l as [|x l IH]; [rewrite !sum_over_nil|rewrite !sum_over_cons, IH]; ring. Qed.

  Lemma sum_over_opp {A} l (f : A -> F) : sum_over l (fun a => - f a) = - sum_over l f.
  Proof. induction l as [|x l IH]; [rewrite !sum_over_nil|rewrite !sum_over_cons, IH]; ring. Qed.

  Lemma sum_over_zero {A} l (f : A -> F) : (forall a, In a l -> f a = 0) -> sum_over l f = 0.
  Proof.
    induction l as [|x l IH]; intros H; [reflexivity|].
    rewrite sum_over_cons, IH, H; [ring | left; auto | intros; apply H; right; auto].
  Qed.

  Lemma sum_over_swap {A B} (l : list A) (m : list B) (f : A -> B -> F) :
    sum_over l (fun a => sum_over m (fun b => f a b)) = sum_over m (fun b => sum_over l (fun a => f a b)).
  Proof.
    induction l as [|x l IH].
    - rewrite sum_over_nil. symmetry. apply sum_over_zero. auto.
    - rewrite sum_over_cons, IH, <- sum_over_add. reflexivity.
  Qed.

  Lemma sum_over_perm {A} (l m : list A) (f : A -> F) : Permutation l m -> sum_over l f = sum_over m f.
  Proof. intros H. apply lsum_perm. apply Permutation_map; auto. Qed.

  Lemma sum_over_map {A B} (g : A -> B) l (f : B -> F) : sum_over (map g l) f = sum_over l (fun a => f (g a)).
  Proof. unfold sum_over. rewrite map_map. reflexivity. Qed.

  Lemma sum_over_flat_map {A B} (g : A -> list B) l (f : B -> F) :
    sum_over (flat_map g l) f = sum_over l (fun a => sum_over (g a) f).
  Proof. induction l as [|x l IH]; simpl; [reflexivity|]. rewrite sum_over_app, sum_over_cons, IH. reflexivity. Qed.

  Lemma sum_n_0 f : sum_n 0 f = 0. Proof. reflexivity. Qed.

  Lemma sum_n_S n f : sum_n (S n) f = sum_n n f + f n.
  Proof.
    unfold sum_n. rewrite seq_S, sum_over_app. simpl. rewrite sum_over_cons, sum_over_nil. ring.
  Qed.

  Lemma sum_n_ext n f g : (forall i, (i < n)%nat -> f i = g i) -> sum_n n f = sum_n n g.
  Proof. intros H. apply sum_over_ext. intros i Hi. apply in_seq in Hi. apply H; lia. Qed.

  Lemma sum_n_zero n f : (forall i, (i < n)%nat -> f i = 0) -> sum_n n f = 0.
  Proof. intros H. apply sum_over_zero. intros i Hi. apply in_seq in Hi. apply H; lia. Qed.

  Lemma sum_n_add n f g : sum_n n (fun i => f i + g i) = sum_n n f + sum_n n g.
  Proof. apply sum_over_add. Qed.

  Lemma sum_n_scal n c f : sum_n n (fun i => c * f i) = c * sum_n n f.
  Proof. apply sum_over_scal. Qed.

  Lemma sum_n_swap n m (f : nat -> nat -> F) :
    sum_n n (fun i => sum_n m (fun j => f i j)) = sum_n m (fun j => sum_n n (fun i => f i j)).
  Proof. apply sum_over_swap. Qed.

  (** splitting a sum *)
  Lemma sum_n_plus n m f : sum_n (n + m) f = sum_n n f + sum_n m (fun i => f (n + i)%nat).
  Proof.
    induction m as [|m IH].
    - rewrite Nat.add_0_r, sum_n_0. ring.
    - rewrite Nat.add_succ_r, !sum_n_S, IH. ring.
  Qed.

  (** picking one summand *)
  Lemma sum_n_single n k f : (k < n)%nat -> (forall i, (i < n)%nat -> i <> k -> f i = 0) -> sum_n n f = f k.
  Proof.
    induction n as [|n IH]; intros Hk H; [lia|]. rewrite sum_n_S.
    destruct (Nat.eq_dec k n) as [->|Hne].
    - rewrite sum_n_zero; [ring|]. intros i Hi. apply H; lia.
    - rewrite IH; [rewrite (H n) by lia; ring | lia | intros; apply H; lia].
  Qed.

  Lemma sum_n_delta n k (c : F) f : (k < n)%nat ->
    sum_n n (fun i => if Nat.eqb i k then f i else 0) = f k.
  Proof.
    intros Hk. rewrite (sum_n_single n k); auto.
    - rewrite Nat.eqb_refl. reflexivity.
    - intros i _ Hi. destruct (Nat.eqb_spec i k); congruence.
  Qed.
End Sums.

Arguments lsum {F}. Arguments sum_over {F A}. Arguments sum_n {F}.

Definition Z_cring : CRing := mkCRing Z 0%Z 1%Z Z.add Z.mul Z.sub Z.opp Zth.
Definition R_cring : CRing := mkCRing R 0%R 1%R Rplus Rmult Rminus Ropp RTheory.
