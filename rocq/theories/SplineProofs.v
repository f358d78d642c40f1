(** * Proofs for C72: the natural cubic spline *)
From Coq Require Import List Arith Bool Reals Lra Lia.
From Coquelicot Require Import Coquelicot.
From Verif Require Import Outcome AdaptiveModel AdaptiveProofs TableModel TableSpec TableProofs.
Import ListNotations.
Local Open Scope R_scope.

Lemma bisection_case data x k : increasing data -> (2 <= length data)%nat -> (S k < length data)%nat -> px data k <= x <= px data (S k) ->
  bisection data x = k \/ (S (bisection data x) = k /\ x = px data k).
Proof.
  intros Hi Hl Hk Hx.
  assert (Hr : px data 0 <= x <= px data (length data - 1)).
  { pose proof (increasing_le data 0 k Hi). pose proof (increasing_le data (S k) (length data - 1) Hi). 
    specialize (H ltac:(lia) ltac:(lia)). specialize (H0 ltac:(lia) ltac:(lia)). lra. }
  destruct (bisection_spec data x Hl Hr) as (Hb & Hlow & Hup). set (i := bisection data x) in *.
  destruct (Nat.lt_trichotomy i k) as [H|[H|H]]; auto.
  - right. pose proof (increasing_le data (S i) k Hi). specialize (H0 ltac:(lia) ltac:(lia)).
    assert (x = px data k) by lra. split; auto. destruct (Nat.eq_dec (S i) k); auto. exfalso. pose proof (Hi (S i) k). specialize (H2 ltac:(lia) ltac:(lia)). lra.
  - exfalso. destruct Hlow as [Hlow|(Hlow & _)]; [|lia]. pose proof (increasing_le data (S k) i Hi). specialize (H0 ltac:(lia) ltac:(lia)). lra.
Qed.

(** gluing at a knot *)
Lemma glue_derive (f f1 f2 : R -> R) (c l d : R) : 0 < d -> (forall x, c - d < x <= c -> f x = f1 x) -> (forall x, c <= x < c + d -> f x = f2 x) ->
  is_derive f1 c l -> is_derive f2 c l -> is_derive f c l.
Proof.
  intros Hd H1 H2 D1 D2. apply is_derive_Reals in D1, D2. apply is_derive_Reals. intros eps Heps.
  destruct (D1 eps Heps) as (d1 & E1). destruct (D2 eps Heps) as (d2 & E2).
  assert (Hm : 0 < Rmin d (Rmin d1 d2)) by (apply Rmin_pos; [auto|apply Rmin_pos; [apply d1|apply d2]]).
  exists (mkposreal _ Hm). intros h Hh Ha. simpl in Ha.
  assert (Ha0 : Rabs h < d) by (eapply Rlt_le_trans; [exact Ha|apply Rmin_l]).
  assert (Ha1 : Rabs h < d1) by (eapply Rlt_le_trans; [exact Ha|eapply Rle_trans; [apply Rmin_r|apply Rmin_l]]).
  assert (Ha2 : Rabs h < d2) by (eapply Rlt_le_trans; [exact Ha|eapply Rle_trans; [apply Rmin_r|apply Rmin_r]]).
  apply Rabs_def2 in Ha0. destruct (Rlt_le_dec h 0) as [Hn|Hn].
  - rewrite (H1 (c + h)), (H1 c) by lra. apply E1; auto.
  - rewrite (H2 (c + h)), (H2 c) by lra. apply E2; auto.
Qed.

Lemma glue_continuous (f f1 f2 : R -> R) (c d : R) : 0 < d -> (forall x, c - d < x <= c -> f x = f1 x) -> (forall x, c <= x < c + d -> f x = f2 x) ->
  continuous f1 c -> continuous f2 c -> continuous f c.
Proof.
  intros Hd H1 H2 D1 D2. apply continuity_pt_filterlim in D1, D2. apply continuity_pt_filterlim. intros eps Heps.
  destruct (D1 eps Heps) as (d1 & Hd1 & E1). destruct (D2 eps Heps) as (d2 & Hd2 & E2).
  exists (Rmin d (Rmin d1 d2)). split; [apply Rmin_pos; [auto|apply Rmin_pos; auto]|]. intros x (Hx & Ha). simpl in *. unfold R_dist in *.
  assert (Ha0 : Rabs (x - c) < d) by (eapply Rlt_le_trans; [exact Ha|apply Rmin_l]).
  assert (Ha1 : Rabs (x - c) < d1) by (eapply Rlt_le_trans; [exact Ha|eapply Rle_trans; [apply Rmin_r|apply Rmin_l]]).
  assert (Ha2 : Rabs (x - c) < d2) by (eapply Rlt_le_trans; [exact Ha|eapply Rle_trans; [apply Rmin_r|apply Rmin_r]]).
  apply Rabs_def2 in Ha0. destruct (Rlt_le_dec x c) as [Hn|Hn].
  - rewrite (H1 x), (H1 c) by lra. apply E1. split; auto.
  - rewrite (H2 x), (H2 c) by lra. apply E2. split; auto.
Qed.

Section Spline.
  Variable data : list (R * R).
  Hypothesis Hinc : increasing data.
  Hypothesis Hlen : (2 <= length data)%nat.
  Notation n := (length data).
  Notation X := (px data). Notation Y := (py data). Notation M := (ddy data).

  Lemma sigma_range i : (S (S i) < n)%nat -> 0 < (X (S i) - X i) / (X (S i + 1) - X i) < 1.
  Proof.
    intros Hi. replace (S i + 1)%nat with (S (S i)) by lia. pose proof (Hinc i (S i) ltac:(lia) ltac:(lia)). pose proof (Hinc (S i) (S (S i)) ltac:(lia) ltac:(lia)).
    split; [apply Rdiv_lt_0_compat; lra|]. apply (Rmult_lt_reg_r (X (S (S i)) - X i)); [lra|]. field_simplify; lra.
  Qed.

  Lemma forward_range i : (S i < n)%nat -> -1 < fst (forward data i) <= 0.
  Proof.
    induction i as [|i IH]; intros Hi; [simpl; lra|]. specialize (IH ltac:(lia)). cbn [forward]. destruct (forward data i) as (c, u). cbn [fst] in *.
    destruct (Nat.eq_dec (S (S i)) n) as [E|].
    - lia.
    - pose proof (sigma_range i ltac:(lia)) as Hs. set (sigma := (X (S i) - X i) / (X (S i + 1) - X i)) in *.
      assert (Hp : 1 < sigma * c + 2) by nra. split.
      + apply (Rmult_lt_reg_r (sigma * c + 2)); [lra|]. field_simplify; nra.
      + apply (Rmult_le_reg_r (sigma * c + 2)); [lra|]. field_simplify; nra.
  Qed.

  Lemma ddy_last : M (n - 1) = 0.
  Proof. unfold ddy. replace (n - 1 - (n - 1))%nat with 0%nat by lia. reflexivity. Qed.
  Lemma ddy_first : M 0 = 0.
  Proof.
    unfold ddy. rewrite Nat.sub_0_r. destruct (n - 1)%nat as [|j] eqn:E; [lia|]. cbn [backward].
    replace (length data - 1 - S j)%nat with 0%nat by lia. reflexivity.
  Qed.
  Lemma ddy_step k : (S k < n)%nat -> M k = fst (forward data k) * M (S k) + snd (forward data k).
  Proof.
    intros Hk. destruct k as [|k]; [rewrite ddy_first; simpl; lra|]. unfold ddy at 1.
    destruct (n - 1 - S k)%nat as [|j] eqn:E; [lia|]. cbn [backward]. replace (length data - 1 - S j)%nat with (S k) by lia.
    destruct (Nat.ltb_spec 0 (S k)); [|lia]. unfold ddy. replace (n - 1 - S (S k))%nat with j by lia. reflexivity.
  Qed.

  (** the tridiagonal system: equal slopes from both sides *)
  Lemma spline_system i : (S (S i) < n)%nat ->
    (X (S i) - X i) / 6 * M i + (X (S (S i)) - X i) / 3 * M (S i) + (X (S (S i)) - X (S i)) / 6 * M (S (S i)) =
    (Y (S (S i)) - Y (S i)) / (X (S (S i)) - X (S i)) - (Y (S i) - Y i) / (X (S i) - X i).
  Proof.
    intros Hi. pose proof (ddy_step i ltac:(lia)) as H0. pose proof (ddy_step (S i) ltac:(lia)) as H1.
    cbn [forward] in H1. pose proof (forward_range i ltac:(lia)) as Hc. destruct (forward data i) as (c, u). cbn [fst snd] in *.
    pose proof (sigma_range i Hi) as Hs.
    replace (S i + 1)%nat with (S (S i)) in * by lia.
    pose proof (Hinc i (S i) ltac:(lia) ltac:(lia)) as Ha. pose proof (Hinc (S i) (S (S i)) ltac:(lia) ltac:(lia)) as Hb.
    set (h0 := X (S i) - X i) in *. set (h1 := X (S (S i)) - X (S i)) in *. assert (Eh : X (S (S i)) - X i = h0 + h1) by (unfold h0, h1; lra).
    rewrite Eh in *. assert (0 < h0) by (unfold h0; lra). assert (0 < h1) by (unfold h1; lra).
    set (d := (Y (S (S i)) - Y (S i)) / h1 - (Y (S i) - Y i) / h0) in *. clearbody d h0 h1.
    set (p := h0 / (h0 + h1) * c + 2) in *. assert (Hp : 1 < p) by (unfold p; nra).
    assert (E : p * M (S i) = (h0 / (h0 + h1) - 1) * M (S (S i)) + (6 * d / (h0 + h1) - h0 / (h0 + h1) * u)).
    { rewrite H1 at 1. field. lra. }
    assert (E2 : h0 / (h0 + h1) * M i + 2 * M (S i) = (h0 / (h0 + h1) - 1) * M (S (S i)) + 6 * d / (h0 + h1)).
    { rewrite H0. unfold p in E. lra. }
    apply (Rmult_eq_compat_l ((h0 + h1) / 6)) in E2. field_simplify in E2; [|lra|lra]. field_simplify; [|lra..].
    lra.
  Qed.

  Definition C (i : nat) (x : R) : R :=
    let h := X (S i) - X i in let a := (X (S i) - x) / h in let b := (x - X i) / h in
    a * Y i + b * Y (S i) + ((a * a * a - a) * M i + (b * b * b - b) * M (S i)) * (h * h) / 6.
  Definition C1 (i : nat) (x : R) : R :=
    let h := X (S i) - X i in let a := (X (S i) - x) / h in let b := (x - X i) / h in
    (Y (S i) - Y i) / h + (- (3 * a * a - 1) * M i + (3 * b * b - 1) * M (S i)) * h / 6.
  Definition C2 (i : nat) (x : R) : R :=
    let h := X (S i) - X i in (X (S i) - x) / h * M i + (x - X i) / h * M (S i).

  Lemma C_derive i x : (S i < n)%nat -> is_derive (C i) x (C1 i x).
  Proof. intros Hi. pose proof (Hinc i (S i) ltac:(lia) Hi). unfold C, C1. auto_derive; auto. field. lra. Qed.
  Lemma C1_derive i x : (S i < n)%nat -> is_derive (C1 i) x (C2 i x).
  Proof. intros Hi. pose proof (Hinc i (S i) ltac:(lia) Hi). unfold C1, C2. auto_derive; auto. field. lra. Qed.
  Lemma C2_continuous i x : continuous (C2 i) x.
  Proof. apply (ex_derive_continuous (V := R_NormedModule)). unfold C2. auto_derive. auto. Qed.

  Lemma C_left i : (S i < n)%nat -> C i (X i) = Y i.
  Proof. intros Hi. pose proof (Hinc i (S i) ltac:(lia) Hi). unfold C. field. lra. Qed.
  Lemma C_right i : (S i < n)%nat -> C i (X (S i)) = Y (S i).
  Proof. intros Hi. pose proof (Hinc i (S i) ltac:(lia) Hi). unfold C. field. lra. Qed.
  Lemma C2_left i : (S i < n)%nat -> C2 i (X i) = M i.
  Proof. intros Hi. pose proof (Hinc i (S i) ltac:(lia) Hi). unfold C2. field. lra. Qed.
  Lemma C2_right i : (S i < n)%nat -> C2 i (X (S i)) = M (S i).
  Proof. intros Hi. pose proof (Hinc i (S i) ltac:(lia) Hi). unfold C2. field. lra. Qed.
  Lemma C1_knot i : (S (S i) < n)%nat -> C1 i (X (S i)) = C1 (S i) (X (S i)).
  Proof.
    intros Hi. pose proof (Hinc i (S i) ltac:(lia) ltac:(lia)). pose proof (Hinc (S i) (S (S i)) ltac:(lia) Hi).
    pose proof (spline_system i Hi) as E. unfold C1.
    replace ((X (S i) - X (S i)) / (X (S i) - X i)) with 0 by (field; lra).
    replace ((X (S i) - X i) / (X (S i) - X i)) with 1 by (field; lra).
    replace ((X (S (S i)) - X (S i)) / (X (S (S i)) - X (S i))) with 1 by (field; lra).
    replace ((X (S i) - X (S i)) / (X (S (S i)) - X (S i))) with 0 by (field; lra).
    lra.
  Qed.

  Definition g (x : R) : R := C (bisection data x) x.
  Definition g1 (x : R) : R := C1 (bisection data x) x.
  Definition g2 (x : R) : R := C2 (bisection data x) x.

  Lemma g_segment i x : (S i < n)%nat -> X i <= x <= X (S i) -> g x = C i x /\ g1 x = C1 i x /\ g2 x = C2 i x.
  Proof.
    intros Hi Hx. unfold g, g1, g2. destruct (bisection_case data x i Hinc Hlen Hi Hx) as [->|(Hb & ->)]; [auto|].
    destruct i as [|i]; [discriminate|]. injection Hb as ->. split; [rewrite C_left, C_right by lia; auto|].
    split; [apply C1_knot; lia|]. rewrite C2_left, C2_right by lia. auto.
  Qed.

  Lemma cubic_value_g x : X 0 <= x <= X (n - 1) -> cubic_value data x = Ok (g x).
  Proof. intros Hx. unfold cubic_value. rewrite (proj2 (in_range_spec data x) Hx). rewrite !Nat.add_1_r. reflexivity. Qed.

  Lemma g_smooth x : X 0 < x < X (n - 1) -> is_derive g x (g1 x) /\ is_derive g1 x (g2 x) /\ continuous g2 x.
  Proof.
    intros Hx. destruct (bisection_spec data x Hlen ltac:(lra)) as (Hb & Hlow & Hup). set (i := bisection data x) in *.
    assert (Hlow' : X i < x) by (destruct Hlow as [H|(-> & H)]; lra).
    pose proof (g_segment i x ltac:(lia) ltac:(lra)) as (E0 & E1 & E2). rewrite E1, E2.
    destruct (Rle_lt_or_eq_dec _ _ Hup) as [Hlt|Heq].
    - (* inside segment i *)
      assert (Hloc : locally x (fun y => C i y = g y /\ C1 i y = g1 y /\ C2 i y = g2 y)).
      { assert (Hd : 0 < Rmin (x - X i) (X (S i) - x)) by (apply Rmin_pos; lra).
        exists (mkposreal _ Hd). intros y Hy. change (Rabs (y - x) < Rmin (x - X i) (X (S i) - x)) in Hy.
        assert (Ha : Rabs (y - x) < x - X i) by (eapply Rlt_le_trans; [exact Hy|apply Rmin_l]).
        assert (Hc : Rabs (y - x) < X (S i) - x) by (eapply Rlt_le_trans; [exact Hy|apply Rmin_r]).
        apply Rabs_def2 in Ha, Hc. destruct (g_segment i y ltac:(lia) ltac:(lra)) as (-> & -> & ->). auto. }
      split; [|split].
      + apply (is_derive_ext_loc (C i)); [|apply C_derive; lia]. eapply filter_imp; [|exact Hloc]. intros y (H & _); auto.
      + apply (is_derive_ext_loc (C1 i)); [|apply C1_derive; lia]. eapply filter_imp; [|exact Hloc]. intros y (_ & H & _); auto.
      + apply (continuous_ext_loc g2 (C2 i) x); [|apply C2_continuous]. eapply filter_imp; [|exact Hloc]. intros y (_ & _ & H); auto.
    - (* at the knot *)
      assert (Hn : (S (S i) < n)%nat).
      { destruct (Nat.eq_dec (S (S i)) n) as [E|]; [|lia]. exfalso. replace (n - 1)%nat with (S i) in Hx by lia. lra. }
      pose proof (Hinc (S i) (S (S i)) ltac:(lia) Hn) as Hr.
      set (d := Rmin (x - X i) (X (S (S i)) - x)). assert (Hd : 0 < d) by (apply Rmin_pos; lra).
      assert (Hd1 : d <= x - X i) by apply Rmin_l. assert (Hd2 : d <= X (S (S i)) - x) by apply Rmin_r.
      assert (L : forall y, x - d < y <= x -> g y = C i y /\ g1 y = C1 i y /\ g2 y = C2 i y) by (intros y Hy; apply g_segment; [lia|lra]).
      assert (Rr : forall y, x <= y < x + d -> g y = C (S i) y /\ g1 y = C1 (S i) y /\ g2 y = C2 (S i) y) by (intros y Hy; apply g_segment; [lia|lra]).
      split; [|split].
      + apply (glue_derive g (C i) (C (S i)) x _ d Hd); [intros y Hy; apply L; auto|intros y Hy; apply Rr; auto|apply C_derive; lia|].
        rewrite Heq at 2. rewrite C1_knot by lia. rewrite <- Heq. apply C_derive; lia.
      + apply (glue_derive g1 (C1 i) (C1 (S i)) x _ d Hd); [intros y Hy; apply L; auto|intros y Hy; apply Rr; auto|apply C1_derive; lia|].
        assert (E : C2 i x = C2 (S i) x) by (rewrite Heq, C2_right, C2_left by lia; reflexivity). rewrite E. apply C1_derive; lia.
      + apply (glue_continuous g2 (C2 i) (C2 (S i)) x d Hd); [intros y Hy; apply L; auto|intros y Hy; apply Rr; auto|apply C2_continuous|apply C2_continuous].
  Qed.

  Lemma g_ends : g2 (X 0) = 0 /\ g2 (X (n - 1)) = 0.
  Proof.
    split.
    - pose proof (Hinc 0%nat 1%nat ltac:(lia) ltac:(lia)). destruct (g_segment 0%nat (X 0)) as (_ & _ & ->); [lia|lra|]. rewrite C2_left by lia. apply ddy_first.
    - destruct (n - 1)%nat as [|k] eqn:E; [lia|]. pose proof (Hinc k (S k) ltac:(lia) ltac:(lia)).
      destruct (g_segment k (X (S k))) as (_ & _ & ->); [lia|lra|]. rewrite C2_right by lia. rewrite <- E. apply ddy_last.
  Qed.

  Lemma g_hits k : (k < n)%nat -> g (X k) = Y k.
  Proof.
    intros Hk. destruct (Nat.eq_dec (S k) n) as [E|].
    - destruct k as [|k]; [lia|]. pose proof (Hinc k (S k) ltac:(lia) ltac:(lia)). destruct (g_segment k (X (S k))) as (-> & _); [lia|lra|]. apply C_right. lia.
    - pose proof (Hinc k (S k) ltac:(lia) ltac:(lia)). destruct (g_segment k (X k)) as (-> & _); [lia|lra|]. apply C_left. lia.
  Qed.

  (** on a segment the second derivative is linear *)
  Lemma g2_linear i x : (S i < n)%nat -> X i <= x <= X (S i) -> g2 x = g2 (X i) + (g2 (X (S i)) - g2 (X i)) * ((x - X i) / (X (S i) - X i)).
  Proof.
    intros Hi Hx. pose proof (Hinc i (S i) ltac:(lia) Hi). destruct (g_segment i x Hi Hx) as (_ & _ & ->).
    destruct (g_segment i (X i) Hi) as (_ & _ & ->); [lra|]. destruct (g_segment i (X (S i)) Hi) as (_ & _ & ->); [lra|].
    rewrite C2_left, C2_right by lia. unfold C2. field. lra.
  Qed.
End Spline.
