From Coq Require Import Reals ZArith List Bool Lia Lra Psatz.
From Verif Require Import Outcome AdaptiveModel AdaptiveProofs Vec3 CollisionModel CollisionProofs CollisionProofs2
  SubBoxModel SubBoxSpec SubBoxProofs.
Import ListNotations.
Local Open Scope R_scope.

Lemma count4 : forall b1 b2 b3 b4 : bool, forall p1 p2 p3 p4 : R * R, forall f : R * R -> bool,
  f p1 = b1 -> f p2 = b2 -> f p3 = b3 -> f p4 = b4 ->
  let n := length (filter f [p1; p2; p3; p4]) in
  andb (Nat.leb 1 n) (Nat.leb n 3) = andb (orb (orb b1 b2) (orb b3 b4)) (negb (andb (andb b1 b2) (andb b3 b4))).
Proof.
  intros. subst n. cbn [filter]. rewrite H, H0, H1, H2. destruct b1, b2, b3, b4; reflexivity.
Qed.

(** coordinates relative to the axis *)
Definition rel0 (g : grid) (R0 : R) (x : Z) : R := IZR x * ghx g - R0.
Definition rel0y (g : grid) (R0 : R) (y : Z) : R := IZR y * ghy g - R0.

Lemma gets_cylinder_spec : forall g R0 x y,
  let X0 := IZR x * ghx g - R0 in let X1 := (1 + IZR x) * ghx g - R0 in
  let Y0 := IZR y * ghy g - R0 in let Y1 := (1 + IZR y) * ghy g - R0 in
  gets_cylinder g R0 x y = true <->
  (X0 * X0 + Y0 * Y0 < R0 * R0 \/ X0 * X0 + Y1 * Y1 < R0 * R0 \/ X1 * X1 + Y0 * Y0 < R0 * R0 \/ X1 * X1 + Y1 * Y1 < R0 * R0) /\
  (R0 * R0 <= X0 * X0 + Y0 * Y0 \/ R0 * R0 <= X0 * X0 + Y1 * Y1 \/ R0 * R0 <= X1 * X1 + Y0 * Y0 \/ R0 * R0 <= X1 * X1 + Y1 * Y1).
Proof.
  intros g R0 x y X0 X1 Y0 Y1. unfold gets_cylinder, n_inside, box_corners.
  erewrite count4 by reflexivity. cbn [fst snd]. unfold corner_inside.
  replace (IZR x * ghx g + vx (gorg g) - (vx (gorg g) + R0)) with X0 by (subst X0; ring).
  replace ((1 + IZR x) * ghx g + vx (gorg g) - (vx (gorg g) + R0)) with X1 by (subst X1; ring).
  replace (IZR y * ghy g + vy (gorg g) - (vy (gorg g) + R0)) with Y0 by (subst Y0; ring).
  replace ((1 + IZR y) * ghy g + vy (gorg g) - (vy (gorg g) + R0)) with Y1 by (subst Y1; ring).
  destruct (rltb_spec (X0 * X0 + Y0 * Y0) (R0 * R0)) as [(-> & A)|(-> & A)];
  destruct (rltb_spec (X0 * X0 + Y1 * Y1) (R0 * R0)) as [(-> & B)|(-> & B)];
  destruct (rltb_spec (X1 * X1 + Y0 * Y0) (R0 * R0)) as [(-> & C)|(-> & C)];
  destruct (rltb_spec (X1 * X1 + Y1 * Y1) (R0 * R0)) as [(-> & D)|(-> & D)]; cbn [orb andb negb];
  (split; [intro E; try discriminate E; split; auto 8 with real | intros ([E|[E|[E|E]]] & [F|[F|[F|F]]]); try reflexivity; exfalso; lra]).
Qed.

Lemma between_sq : forall a b p, a < p < b -> p * p <= a * a \/ p * p <= b * b.
Proof. intros a b p H. destruct (Rle_lt_dec 0 p); [right|left]; nra. Qed.

(** the nearest grid line to the axis of a cell, relative to [1/n] *)
Lemma nearest_axis : forall R0 h n x p, 0 < R0 -> (2 <= n)%Z -> h = 2 * R0 / IZR n -> (0 <= x < n)%Z ->
  let X0 := IZR x * h - R0 in let X1 := (1 + IZR x) * h - R0 in
  X0 < p < X1 ->
  exists X, (X = X0 \/ X = X1) /\
    ((X * X < p * p /\ X * X <= (R0 * (IZR n - 2) / IZR n) * (R0 * (IZR n - 2) / IZR n)) \/
     X * X = (R0 / IZR n) * (R0 / IZR n)).
Proof.
  intros R0 h n x p HR Hn Eh Hx X0 X1 Hp.
  assert (Hn' : 2 <= IZR n) by (apply (IZR_le 2); lia).
  set (q := R0 / IZR n). assert (Hq : 0 < q) by (apply Rdiv_lt_0_compat; lra).
  assert (Eq : R0 = q * IZR n) by (subst q; field; lra).
  assert (E0 : X0 = q * IZR (2 * x - n)).
  { subst X0. rewrite Eh, minus_IZR, mult_IZR. subst q. field. lra. }
  assert (E1 : X1 = q * IZR (2 * x + 2 - n)).
  { subst X1. rewrite Eh, minus_IZR, plus_IZR, mult_IZR. subst q. field. lra. }
  assert (EQ : R0 * (IZR n - 2) / IZR n = q * (IZR n - 2)) by (subst q; field; lra).
  rewrite EQ. clearbody q X0 X1.
  destruct (Z_lt_le_dec (2 * x - n) 0) as [L|L].
  - destruct (Z_lt_le_dec 0 (2 * x + 2 - n)) as [M|M].
    + exists X0. split; [auto|]. right. assert (E : (2 * x - n = -1)%Z) by lia. rewrite E0, E. ring.
    + exists X1. split; [auto|]. left. apply IZR_le in M.
      assert (N : IZR (2 - n) <= IZR (2 * x + 2 - n)) by (apply IZR_le; lia). rewrite minus_IZR in N.
      assert (X1 <= 0) by (rewrite E1; nra). split; [nra|]. rewrite E1.
      replace (q * IZR (2 * x + 2 - n) * (q * IZR (2 * x + 2 - n)))
        with (q * q * (IZR (2 * x + 2 - n) * IZR (2 * x + 2 - n))) by ring.
      replace (q * (IZR n - 2) * (q * (IZR n - 2))) with (q * q * ((IZR n - 2) * (IZR n - 2))) by ring.
      apply Rmult_le_compat_l; nra.
  - exists X0. split; [auto|]. left. apply IZR_le in L.
    assert (N : IZR (2 * x - n) <= IZR (n - 2)) by (apply IZR_le; lia). rewrite (minus_IZR n 2) in N.
    assert (0 <= X0) by (rewrite E0; nra). split; [nra|]. rewrite E0.
    replace (q * IZR (2 * x - n) * (q * IZR (2 * x - n))) with (q * q * (IZR (2 * x - n) * IZR (2 * x - n))) by ring.
    replace (q * (IZR n - 2) * (q * (IZR n - 2))) with (q * q * ((IZR n - 2) * (IZR n - 2))) by ring.
    apply Rmult_le_compat_l; nra.
Qed.

Lemma corner_small : forall R0 n, 0 < R0 -> (2 <= n)%Z ->
  (R0 * (IZR n - 2) / IZR n) * (R0 * (IZR n - 2) / IZR n) + (R0 / IZR n) * (R0 / IZR n) < R0 * R0 /\
  (R0 / IZR n) * (R0 / IZR n) + (R0 / IZR n) * (R0 / IZR n) < R0 * R0.
Proof.
  intros R0 n HR Hn. assert (Hn' : 2 <= IZR n) by (apply (IZR_le 2); lia).
  set (m := IZR n) in *. set (q := R0 / m). assert (Hq : 0 < q) by (apply Rdiv_lt_0_compat; lra).
  assert (Eq : R0 = q * m) by (subst q; field; lra).
  replace (R0 * (m - 2) / m) with (q * (m - 2)) by (subst q; field; lra).
  clearbody q m. rewrite Eq. split.
  - replace (q * (m - 2) * (q * (m - 2)) + q * q) with (q * q * ((m - 2) * (m - 2) + 1)) by ring.
    replace (q * m * (q * m)) with (q * q * (m * m)) by ring. apply Rmult_lt_compat_l; nra.
  - replace (q * q + q * q) with (q * q * 2) by ring.
    replace (q * m * (q * m)) with (q * q * (m * m)) by ring. apply Rmult_lt_compat_l; nra.
Qed.

Lemma enclosed_lemma : forall g R0 n x y px py, 0 < R0 -> (2 <= n)%Z ->
  ghx g = 2 * R0 / IZR n -> ghy g = 2 * R0 / IZR n -> (0 <= x < n)%Z -> (0 <= y < n)%Z ->
  IZR x * ghx g - R0 < px < (1 + IZR x) * ghx g - R0 ->
  IZR y * ghy g - R0 < py < (1 + IZR y) * ghy g - R0 ->
  px * px + py * py = R0 * R0 -> gets_cylinder g R0 x y = true.
Proof.
  intros g R0 n x y px py HR Hn Ex Ey Hx Hy Bx By E.
  apply gets_cylinder_spec. split.
  - destruct (nearest_axis R0 (ghx g) n x px HR Hn Ex Hx Bx) as (X & EX & CX).
    destruct (nearest_axis R0 (ghy g) n y py HR Hn Ey Hy By) as (Y & EY & CY).
    destruct (corner_small R0 n HR Hn) as (S1 & S2).
    assert (H : X * X + Y * Y < R0 * R0).
    { destruct CX as [(A & B)|A], CY as [(C & D)|C]; lra. }
    destruct EX as [->| ->], EY as [->| ->]; auto.
  - destruct (between_sq _ _ _ Bx) as [A|A], (between_sq _ _ _ By) as [B|B]; [left|right; left|right; right; left|right; right; right]; lra.
Qed.

(** one division across: no corner is inside *)
Lemma one_division_lemma : forall g R0 y, 0 < R0 -> gnx g = 1%Z -> ghx g = 2 * R0 ->
  gets_cylinder g R0 0 y = false.
Proof.
  intros g R0 y HR N Eh. destruct (gets_cylinder g R0 0 y) eqn:E; trivial. exfalso.
  apply gets_cylinder_spec in E. destruct E as (E & _). rewrite Eh in E. cbn [IZR] in E.
  replace (0 * (2 * R0) - R0) with (- R0) in E by ring. replace ((1 + 0) * (2 * R0) - R0) with R0 in E by ring.
  pose proof (Rle_0_sqr (IZR y * ghy g - R0)) as S1. pose proof (Rle_0_sqr ((1 + IZR y) * ghy g - R0)) as S2.
  unfold Rsqr in S1, S2. destruct E as [E|[E|[E|E]]]; lra.
Qed.

(** ** Specimen *)
Lemma length_of_32 : forall b i, brows b = 3%nat -> bcols b = 2%nat -> (i < 3)%nat ->
  length_of b i = if rleb (bat b i 1 - bat b i 0) 0 then Throw else Ok (bat b i 1 - bat b i 0).
Proof.
  intros b i Er Ec Hi. unfold length_of, bread. rewrite Er, Ec.
  destruct (Nat.ltb_spec i 3); [|lia]. reflexivity.
Qed.
