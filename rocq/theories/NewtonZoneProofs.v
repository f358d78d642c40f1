(** * Newton's method right of a zero of a solution of (1 - x^2) f'' = c x f' - L f (for C107) *)
From Coq Require Import Arith Bool Reals Lra Lia.
From Coquelicot Require Import Coquelicot.
From Verif Require Import PhaseProofs.
Local Open Scope R_scope.

Lemma stays_positive' (f : R -> R) (a b : R) : a <= b -> (forall x, a <= x <= b -> continuous f x) -> 0 < f a ->
  (forall x, a <= x <= b -> (forall y, a <= y <= x -> 0 <= f y) -> 0 < f x) -> forall x, a <= x <= b -> 0 < f x.
Proof.
  intros Hab Hc Ha Hs. apply stays_positive; auto. intros x Hx Hb.
  destruct (Req_dec x a) as [->|Hne]; [exact Ha|]. apply Hs; [exact Hx|]. intros y Hy.
  destruct (Rlt_or_le y x) as [H|H]; [left; apply Hb; lra|]. assert (y = x) by lra. subst y.
  destruct (Rle_or_lt 0 (f x)) as [H0|H0]; [exact H0|]. exfalso.
  destruct (Hc x Hx (fun y => y < 0) (open_lt 0 (f x) H0)) as (eps & He).
  set (y := Rmax a (x - eps / 2)). pose proof (cond_pos eps).
  assert (Hy1 : a <= y < x) by (unfold y; split; [apply Rmax_l|apply Rmax_lub_lt; lra]).
  assert (f y < 0); [|pose proof (Hb y Hy1); lra]. apply He. unfold ball; simpl. unfold AbsRing_ball, abs, minus, plus, opp; simpl.
  pose proof (Rmax_r a (x - eps / 2)). fold y in H2. apply Rabs_def1; lra.
Qed.

Section Zone.
Variables (c L x0 g : R) (f f1 f2 : R -> R).
Hypothesis D1 : forall x, is_derive f x (f1 x).
Hypothesis D2 : forall x, is_derive f1 x (f2 x).
Hypothesis C2 : forall x, continuous f2 x.
Hypothesis ODE : forall x, (1 - x * x) * f2 x = c * x * f1 x - L * f x.
Hypothesis Z0 : f x0 = 0.
Hypothesis S0 : 0 < f1 x0.
Hypothesis Hc : 0 < c.
Hypothesis HL : 0 <= L.
Hypothesis Hx : 0 < x0 <= g.
Hypothesis Hg : g < 1.
Hypothesis Near : L * (g - x0) < c * x0.

Lemma zone_convex : forall x, x0 <= x <= g -> 0 < f2 x /\ f1 x0 <= f1 x /\ 0 <= f x <= (x - x0) * f1 x.
Proof.
  assert (Step : forall x, x0 <= x <= g -> (forall y, x0 <= y <= x -> 0 <= f2 y) -> f1 x0 <= f1 x /\ 0 <= f x <= (x - x0) * f1 x).
  { intros x Hxx H2.
    assert (M1 : forall y, x0 <= y <= x -> f1 x0 <= f1 y) by (intros y Hy; apply (mono_le f1 f2); [lra|intros; apply D2|intros; apply H2; lra]).
    split; [apply M1; lra|]. split.
    - rewrite <- Z0. apply (mono_le f f1); [lra|intros; apply D1|]. intros t Ht. pose proof (M1 t Ht). lra.
    - assert (M := mono_le (fun y => (y - x0) * f1 y - f y) (fun y => (y - x0) * f2 y) x0 x (proj1 Hxx)). cbv beta in M.
      assert ((x0 - x0) * f1 x0 - f x0 <= (x - x0) * f1 x - f x); [|rewrite Z0 in H; lra]. apply M.
      + intros t Ht. assert (E1 : Derive (fun x => f x) t = f1 t) by (apply is_derive_unique; apply D1).
        assert (E2 : Derive (fun x => f1 x) t = f2 t) by (apply is_derive_unique; apply D2).
        auto_derive; [repeat split; eexists; [apply D2|apply D1]|]. rewrite E1, E2. ring.
      + intros t Ht. apply Rmult_le_pos; [lra|]. apply H2. lra. }
  assert (Pos : forall x, x0 <= x <= g -> 0 < f2 x).
  { apply (stays_positive' f2 x0 g); [lra|intros; apply C2| |].
    - pose proof (ODE x0) as O. rewrite Z0 in O. assert (0 < 1 - x0 * x0) by nra. assert (0 < c * x0 * f1 x0) by (apply Rmult_lt_0_compat; [nra|exact S0]). nra.
    - intros x Hxx H2. destruct (Step x Hxx H2) as (A & B & C). pose proof (ODE x) as O. assert (H1x : 0 < 1 - x * x) by nra.
      assert (F1 : 0 < f1 x) by lra.
      assert (L * f x <= L * ((x - x0) * f1 x)) by (apply Rmult_le_compat_l; lra).
      assert (L * (x - x0) <= L * (g - x0)) by (apply Rmult_le_compat_l; lra).
      assert (c * x0 <= c * x) by (apply Rmult_le_compat_l; lra).
      assert (0 < (c * x - L * (x - x0)) * f1 x) by (apply Rmult_lt_0_compat; lra).
      assert (0 < (1 - x * x) * f2 x) by (rewrite O; lra). nra. }
  intros x Hxx. split; [apply Pos; exact Hxx|]. apply Step; [exact Hxx|]. intros y Hy. left. apply Pos. lra.
Qed.

Variable lam : R.
Hypothesis Hlam : 0 < lam.
Hypothesis Far : c * g * (g - x0) <= lam * (1 - g * g).

Lemma zone_low : forall x, x0 <= x <= g -> (x - x0) * f1 x <= (1 + lam) * f x.
Proof.
  intros x Hxx.
  assert (M := mono_le (fun y => (1 + lam) * f y - (y - x0) * f1 y) (fun y => lam * f1 y - (y - x0) * f2 y) x0 x (proj1 Hxx)). cbv beta in M.
  assert ((1 + lam) * f x0 - (x0 - x0) * f1 x0 <= (1 + lam) * f x - (x - x0) * f1 x); [|rewrite Z0 in H; lra]. apply M.
  - intros t Ht. assert (E1 : Derive (fun x => f x) t = f1 t) by (apply is_derive_unique; apply D1).
    assert (E2 : Derive (fun x => f1 x) t = f2 t) by (apply is_derive_unique; apply D2).
    auto_derive; [repeat split; eexists; [apply D1|apply D2]|]. rewrite E1, E2. ring.
  - intros t Ht. destruct (zone_convex t ltac:(lra)) as (A & B & C & E). pose proof (ODE t) as O.
    assert (Ht1 : 0 < 1 - t * t) by nra. assert (F1 : 0 < f1 t) by lra.
    assert (Hlf : 0 <= L * f t) by (apply Rmult_le_pos; lra).
    assert (U : (1 - t * t) * f2 t <= c * t * f1 t) by lra.
    assert (K : c * t * (t - x0) <= lam * (1 - t * t)).
    { assert (c * t * (t - x0) <= c * g * (g - x0)).
      { rewrite !Rmult_assoc. apply Rmult_le_compat_l; [lra|]. apply Rmult_le_compat; lra. }
      assert (lam * (1 - g * g) <= lam * (1 - t * t)) by (apply Rmult_le_compat_l; [lra|nra]). lra. }
    assert (V : (t - x0) * ((1 - t * t) * f2 t) <= lam * (1 - t * t) * f1 t).
    { apply Rle_trans with ((t - x0) * (c * t * f1 t)); [apply Rmult_le_compat_l; lra|].
      replace ((t - x0) * (c * t * f1 t)) with (c * t * (t - x0) * f1 t) by ring. apply Rmult_le_compat_r; lra. }
    assert (W : (1 - t * t) * ((t - x0) * f2 t) <= (1 - t * t) * (lam * f1 t)) by lra.
    apply Rmult_le_reg_l in W; lra.
Qed.

(** one Newton step *)
Lemma zone_step : forall x, x0 <= x <= g -> f1 x <> 0 /\ x - x0 <= (1 + lam) * (f x / f1 x) /\ f x / f1 x <= x - x0.
Proof.
  intros x Hxx. destruct (zone_convex x Hxx) as (_ & B & C & E). pose proof (zone_low x Hxx) as W. assert (F : 0 < f1 x) by lra.
  split; [lra|]. split; apply (Rmult_le_reg_r (f1 x)); try lra; unfold Rdiv.
  - rewrite !Rmult_assoc, Rinv_l by lra. lra.
  - rewrite (Rmult_assoc (f x)), Rinv_l by lra. lra.
Qed.
Lemma zone_positive : forall x, x0 < x <= g -> 0 < f x.
Proof.
  intros x Hxx. destruct (zone_convex x ltac:(lra)) as (_ & B & _). pose proof (zone_low x ltac:(lra)) as W.
  assert (0 < (x - x0) * f1 x) by (apply Rmult_lt_0_compat; lra). nra.
Qed.
End Zone.

(** ** left of a zero, for c = 4 *)
Section Left.
Variables (L X s mu : R) (f f1 f2 : R -> R).
Hypothesis D1 : forall x, is_derive f x (f1 x).
Hypothesis D2 : forall x, is_derive f1 x (f2 x).
Hypothesis ODE : forall x, (1 - x * x) * f2 x = 4 * x * f1 x - L * f x.
Hypothesis Z0 : f X = 0.
Hypothesis S0 : 0 < f1 X.
Hypothesis HL : 0 <= L.
Hypothesis Hs : 0 <= s < X.
Hypothesis HX : X < 1.
Hypothesis Hmu : mu * s < 1.
Hypothesis Hmu0 : 0 <= mu.
Hypothesis Room : forall u, 0 <= u <= s -> 4 * (X - u) * (1 - mu * u) + L * u <= mu * (2 - mu * u) * (1 - (X - u) * (X - u)).

Let h (u : R) : R := - f (X - u).
Let h1 (u : R) : R := f1 (X - u).
Let h2 (u : R) : R := f2 (X - u).
Lemma left_h u : is_derive h u (h1 u).
Proof.
  assert (E1 : Derive (fun x => f x) (X - u) = f1 (X - u)) by (apply is_derive_unique; apply D1).
  unfold h, h1. auto_derive; [repeat split; eexists; apply D1|]. replace (X + - u) with (X - u) by ring. rewrite E1. ring.
Qed.
Lemma left_h1 u : is_derive h1 u (- h2 u).
Proof.
  assert (E1 : Derive (fun x => f1 x) (X - u) = f2 (X - u)) by (apply is_derive_unique; apply D2).
  unfold h1, h2. auto_derive; [repeat split; eexists; apply D2|]. replace (X + - u) with (X - u) by ring. rewrite E1. ring.
Qed.
Lemma left_room u : 0 <= u <= s -> 0 < 1 - (X - u) * (X - u).
Proof. intros Hu. nra. Qed.
Lemma left_ode u : (1 - (X - u) * (X - u)) * h2 u = 4 * (X - u) * h1 u + L * h u.
Proof. unfold h, h1, h2. rewrite ODE. ring. Qed.

Lemma left_barrier u : 0 <= u <= s -> (forall y, 0 <= y <= u -> 0 <= h1 y) -> 0 <= h u /\ (1 - mu * u) * h u <= u * h1 u.
Proof.
  intros Hu Hp.
  assert (Hh : forall y, 0 <= y <= u -> 0 <= h y).
  { intros y Hy. assert (E0 : h 0 = 0) by (unfold h; rewrite Rminus_0_r, Z0; ring). rewrite <- E0. apply (mono_le h h1); [lra|intros; apply left_h|]. intros; apply Hp; lra. }
  split; [apply Hh; lra|].
  set (V := fun y => (y * h1 y - (1 - mu * y) * h y) * ((1 - (X - y) * (X - y)) * (1 - (X - y) * (X - y))) * exp (- mu * y)).
  assert (M : V 0 <= V u).
  { apply (mono_le V (fun y => exp (- mu * y) * ((1 - (X - y) * (X - y)) * (h y * (mu * (2 - mu * y) * (1 - (X - y) * (X - y)) - (4 * (X - y) * (1 - mu * y) + L * y))))) 0 u); [lra| |].
    - intros y Hy. assert (E1 : Derive (fun x => h x) y = h1 y) by (apply is_derive_unique; apply left_h).
      assert (E2 : Derive (fun x => h1 x) y = - h2 y) by (apply is_derive_unique; apply left_h1).
      unfold V. auto_derive; [repeat split; match goal with |- ex_derive (fun x => h1 x) _ => exact (ex_intro _ _ (left_h1 y)) | |- _ => exact (ex_intro _ _ (left_h y)) end|]. rewrite E1, E2.
      pose proof (left_ode y) as O. pose proof (left_room y ltac:(lra)) as Rm.
      assert (Eh : h2 y = (4 * (X - y) * h1 y + L * h y) / (1 - (X - y) * (X - y))) by (apply (Rmult_eq_reg_l (1 - (X - y) * (X - y))); [rewrite O; field; lra|lra]).
      rewrite Eh. field. lra.
    - intros y Hy. apply Rmult_le_pos; [left; apply exp_pos|]. apply Rmult_le_pos; [left; apply left_room; lra|]. apply Rmult_le_pos; [apply Hh; lra|].
      pose proof (Room y ltac:(lra)). lra. }
  assert (V0 : V 0 = 0) by (unfold V, h; rewrite Rminus_0_r, Z0; ring). rewrite V0 in M. unfold V in M.
  pose proof (left_room u Hu) as Rm. pose proof (exp_pos (- mu * u)) as Ep.
  assert (K : 0 < (1 - (X - u) * (X - u)) * (1 - (X - u) * (X - u)) * exp (- mu * u)) by (apply Rmult_lt_0_compat; [apply Rmult_lt_0_compat; exact Rm|exact Ep]).
  destruct (Rle_or_lt ((1 - mu * u) * h u) (u * h1 u)) as [H|H]; [exact H|]. exfalso.
  assert (0 < ((1 - mu * u) * h u - u * h1 u) * ((1 - (X - u) * (X - u)) * (1 - (X - u) * (X - u)) * exp (- mu * u))) by (apply Rmult_lt_0_compat; lra). lra.
Qed.

Lemma left_zone u : 0 <= u <= s -> 0 < f1 (X - u) /\ u * f1 (X - u) <= - f (X - u) /\ (1 - mu * u) * - f (X - u) <= u * f1 (X - u).
Proof.
  assert (Pos : forall u, 0 <= u <= s -> 0 < h1 u).
  { apply (stays_positive h1 0 s); [lra| |].
    - intros y Hy. apply (ex_derive_continuous h1). eexists. apply left_h1.
    - intros y Hy Hb. destruct (Req_dec y 0) as [->|Hne]; [unfold h1; rewrite Rminus_0_r; exact S0|].
      assert (H1 : 0 <= h1 y).
      { destruct (Rle_or_lt 0 (h1 y)) as [H|H]; [exact H|]. exfalso.
        assert (Cy : continuous h1 y) by (apply (ex_derive_continuous h1); eexists; apply left_h1).
        destruct (Cy (fun z => z < 0) (open_lt 0 (h1 y) H)) as (eps & He). pose proof (cond_pos eps).
        set (z := Rmax 0 (y - eps / 2)). assert (Hz : 0 <= z < y) by (unfold z; split; [apply Rmax_l|apply Rmax_lub_lt; lra]).
        assert (h1 z < 0); [|pose proof (Hb z Hz); lra]. apply He. unfold ball; simpl. unfold AbsRing_ball, abs, minus, plus, opp; simpl.
        pose proof (Rmax_r 0 (y - eps / 2)) as Hm. fold z in Hm. apply Rabs_def1; lra. }
      assert (Hp : forall z, 0 <= z <= y -> 0 <= h1 z) by (intros z Hz; destruct (Req_dec z y) as [->|]; [exact H1|left; apply Hb; lra]).
      destruct (left_barrier y Hy Hp) as (_ & B).
      assert (E0 : h 0 = 0) by (unfold h; rewrite Rminus_0_r, Z0; ring).
      assert (h 0 < h (y / 2)) by (apply (mono_lt h h1); [lra|intros; apply left_h|intros; apply Hb; lra]).
      assert (h (y / 2) <= h y) by (apply (mono_le h h1); [lra|intros; apply left_h|intros; apply Hp; lra]).
      assert (mu * y <= mu * s) by (apply Rmult_le_compat_l; lra).
      assert (0 < (1 - mu * y) * h y) by (apply Rmult_lt_0_compat; lra). nra. }
  intros Hu. split; [apply Pos; exact Hu|].
  assert (Hp : forall y, 0 <= y <= u -> 0 <= h1 y) by (intros y Hy; left; apply Pos; lra).
  destruct (left_barrier u Hu Hp) as (Hh & B). split; [|exact B].
  assert (M := mono_le (fun y => h y - y * h1 y) (fun y => y * h2 y) 0 u (proj1 Hu)). cbv beta in M.
  assert (E0 : h 0 = 0) by (unfold h; rewrite Rminus_0_r, Z0; ring). rewrite E0 in M.
  assert (0 - 0 * h1 0 <= h u - u * h1 u); [|unfold h, h1 in *; lra]. apply M.
  - intros y Hy. assert (E1 : Derive (fun x => h x) y = h1 y) by (apply is_derive_unique; apply left_h).
    assert (E2 : Derive (fun x => h1 x) y = - h2 y) by (apply is_derive_unique; apply left_h1).
    auto_derive; [repeat split; match goal with |- ex_derive (fun x => h1 x) _ => exact (ex_intro _ _ (left_h1 y)) | |- _ => exact (ex_intro _ _ (left_h y)) end|]. rewrite E1, E2. ring.
  - intros y Hy. apply Rmult_le_pos; [lra|]. pose proof (left_ode y) as O. pose proof (left_room y ltac:(lra)) as Rm.
    destruct (left_barrier y ltac:(lra)) as (Hhy & _); [intros; apply Hp; lra|]. pose proof (Hp y Hy).
    assert (0 <= 4 * (X - y) * h1 y) by (apply Rmult_le_pos; lra). assert (0 <= L * h y) by (apply Rmult_le_pos; lra). nra.
Qed.
End Left.
