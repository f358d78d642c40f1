(** * The phase of a plane curve, Sturm comparison (for C107) *)
From Coq Require Import Arith Bool Reals Lra Lia.
From Coquelicot Require Import Coquelicot.
Local Open Scope R_scope.

Section Phase.
Variables (N psi0 : R) (a b m e : R -> R).
Hypothesis Ha : forall t, 0 < t < PI -> is_derive a t (N * b t - m t * a t).
Hypothesis Hb : forall t, 0 < t < PI -> is_derive b t (- m t * b t - (N + e t) * a t).
Hypothesis He : forall t, 0 < t < PI -> continuous e t.
Hypothesis Hnz : forall t, 0 < t < PI -> a t * a t + b t * b t <> 0.
Hypothesis H0 : a (PI / 2) * cos psi0 = b (PI / 2) * sin psi0.

Let g (t : R) : R := N + e t * (a t * a t) / (a t * a t + b t * b t).

Lemma g_cont t : 0 < t < PI -> continuous g t.
Proof.
  intros Ht.
  assert (Ca : continuous a t) by (apply (ex_derive_continuous a); exists (N * b t - m t * a t); auto).
  assert (Cb : continuous b t) by (apply (ex_derive_continuous b); exists (- m t * b t - (N + e t) * a t); auto).
  unfold g. apply (continuous_plus (fun _ => N) (fun t => e t * (a t * a t) / (a t * a t + b t * b t))); [apply continuous_const|].
  unfold Rdiv. apply (continuous_mult (fun t => e t * (a t * a t)) (fun t => / (a t * a t + b t * b t))).
  - apply (continuous_mult e (fun t => a t * a t)); [apply He; exact Ht|]. apply (continuous_mult a a); assumption.
  - apply (continuous_comp (fun t => a t * a t + b t * b t) Rinv).
    + apply (continuous_plus (fun t => a t * a t) (fun t => b t * b t)); [apply (continuous_mult a a)|apply (continuous_mult b b)]; assumption.
    + apply continuous_Rinv. apply Hnz. exact Ht.
Qed.

Definition psi (t : R) : R := psi0 + RInt g (PI / 2) t.

Lemma psi_start : psi (PI / 2) = psi0.
Proof. unfold psi. rewrite RInt_point. unfold zero; simpl. lra. Qed.

Lemma psi_derive t : 0 < t < PI -> is_derive psi t (g t).
Proof.
  intros Ht. pose proof PI_RGT_0 as HPI.
  assert (HI : is_derive (fun t => RInt g (PI / 2) t) t (g t)).
  { apply (is_derive_RInt g (fun t => RInt g (PI / 2) t) (PI / 2) t); [|apply g_cont; exact Ht].
    assert (Hd : 0 < Rmin t (PI - t)) by (apply Rmin_glb_lt; lra).
    exists (mkposreal _ Hd). intros y Hy. apply (RInt_correct g). apply (ex_RInt_continuous g).
    intros z Hz. apply g_cont. unfold ball in Hy; simpl in Hy. unfold AbsRing_ball, abs, minus, plus, opp in Hy; simpl in Hy.
    apply Rabs_def2 in Hy. pose proof (Rmin_l t (PI - t)). pose proof (Rmin_r t (PI - t)).
    assert (0 < y < PI) by lra. unfold Rmin, Rmax in Hz. destruct (Rle_dec (PI / 2) y); lra. }
  unfold psi. assert (HP := is_derive_plus (fun _ : R => psi0) (fun t => RInt g (PI / 2) t) t zero (g t) (is_derive_const psi0 t) HI).
  rewrite plus_zero_l in HP. exact HP.
Qed.

Lemma K_derive t : 0 < t < PI ->
  is_derive (fun t => (a t * cos (psi t) - b t * sin (psi t)) * (a t * cos (psi t) - b t * sin (psi t)) / (a t * a t + b t * b t)) t 0.
Proof.
  intros Ht. pose proof (Ha t Ht) as Da. pose proof (Hb t Ht) as Db. pose proof (psi_derive t Ht) as Dp. pose proof (Hnz t Ht) as Hn.
  assert (Ea : Derive (fun x => a x) t = N * b t - m t * a t) by (apply is_derive_unique; exact Da).
  assert (Eb : Derive (fun x => b x) t = - m t * b t - (N + e t) * a t) by (apply is_derive_unique; exact Db).
  assert (Ep : Derive (fun x => psi x) t = g t) by (apply is_derive_unique; exact Dp).
  auto_derive.
  - repeat split; auto; try (eexists; eassumption).
  - rewrite Ea, Eb, Ep. unfold g. field. exact Hn.
Qed.

Lemma phase_angle t : 0 < t < PI -> a t * cos (psi t) = b t * sin (psi t).
Proof.
  intros Ht. pose proof PI_RGT_0 as HPI.
  set (K := fun t => (a t * cos (psi t) - b t * sin (psi t)) * (a t * cos (psi t) - b t * sin (psi t)) / (a t * a t + b t * b t)).
  assert (KE : K t = K (PI / 2)).
  { destruct (Rtotal_order t (PI / 2)) as [Hlt|[->|Hgt]]; [|reflexivity|].
    - apply (eq_is_derive K t (PI / 2)); [|exact Hlt]. intros y Hy. apply K_derive. lra.
    - symmetry. apply (eq_is_derive K (PI / 2) t); [|exact Hgt]. intros y Hy. apply K_derive. lra. }
  assert (K0 : K (PI / 2) = 0) by (unfold K; rewrite psi_start, H0; unfold Rdiv; ring).
  rewrite K0 in KE. unfold K in KE. pose proof (Hnz t Ht) as Hn.
  assert (Z : (a t * cos (psi t) - b t * sin (psi t)) * (a t * cos (psi t) - b t * sin (psi t)) = 0).
  { apply (Rmult_eq_reg_r (/ (a t * a t + b t * b t))); [|apply Rinv_neq_0_compat; exact Hn]. rewrite Rmult_0_l. exact KE. }
  apply Rmult_integral in Z. lra.
Qed.

Lemma phase_zero t : 0 < t < PI -> (a t = 0 <-> sin (psi t) = 0).
Proof.
  intros Ht. pose proof (phase_angle t Ht) as HA. pose proof (Hnz t Ht) as Hn. split; intros Hz.
  - rewrite Hz in HA, Hn. rewrite Rmult_0_l in HA. symmetry in HA. apply Rmult_integral in HA. destruct HA as [HA|HA]; [|exact HA].
    exfalso. apply Hn. rewrite HA. ring.
  - rewrite Hz, Rmult_0_r in HA. apply Rmult_integral in HA. destruct HA as [HA|HA]; [exact HA|].
    exfalso. pose proof (sin2_cos2 (psi t)) as S. rewrite Hz, HA in S. unfold Rsqr in S. lra.
Qed.
End Phase.

(** summary: a phase with known speed whose multiples of pi are the zeros of [a] *)
Lemma phase_exists (N psi0 : R) (a b m e : R -> R) :
  (forall t, 0 < t < PI -> is_derive a t (N * b t - m t * a t)) ->
  (forall t, 0 < t < PI -> is_derive b t (- m t * b t - (N + e t) * a t)) ->
  (forall t, 0 < t < PI -> continuous e t) ->
  (forall t, 0 < t < PI -> a t * a t + b t * b t <> 0) ->
  a (PI / 2) * cos psi0 = b (PI / 2) * sin psi0 ->
  exists psi : R -> R, psi (PI / 2) = psi0 /\
    (forall t, 0 < t < PI -> is_derive psi t (N + e t * (a t * a t) / (a t * a t + b t * b t))) /\
    (forall t, 0 < t < PI -> a t * cos (psi t) = b t * sin (psi t)) /\
    (forall t, 0 < t < PI -> (a t = 0 <-> sin (psi t) = 0)).
Proof.
  intros Ha Hb He Hnz H0. exists (psi N psi0 a b e). split; [apply psi_start|]. split; [|split].
  - intros t Ht. apply (psi_derive N psi0 a b m e Ha Hb He Hnz t Ht).
  - intros t Ht. apply (phase_angle N psi0 a b m e Ha Hb He Hnz H0 t Ht).
  - intros t Ht. apply (phase_zero N psi0 a b m e Ha Hb He Hnz H0 t Ht).
Qed.

(** ** monotone functions from derivatives *)
Lemma mono_le (f df : R -> R) (x y : R) : x <= y -> (forall t, x <= t <= y -> is_derive f t (df t)) -> (forall t, x <= t <= y -> 0 <= df t) -> f x <= f y.
Proof.
  intros Hxy Hd Hp. destruct (Req_dec x y) as [->|Hne]; [lra|].
  destruct (MVT_gen f x y df) as (c & Hc & E).
  - intros t Ht. apply Hd. unfold Rmin, Rmax in Ht. destruct (Rle_dec x y); lra.
  - intros t Ht. apply continuity_pt_filterlim. apply (ex_derive_continuous f). exists (df t). apply Hd. unfold Rmin, Rmax in Ht. destruct (Rle_dec x y); lra.
  - assert (0 <= df c) by (apply Hp; unfold Rmin, Rmax in Hc; destruct (Rle_dec x y); lra).
    assert (0 <= df c * (y - x)) by (apply Rmult_le_pos; lra). lra.
Qed.
Lemma mono_lt (f df : R -> R) (x y : R) : x < y -> (forall t, x <= t <= y -> is_derive f t (df t)) -> (forall t, x <= t <= y -> 0 < df t) -> f x < f y.
Proof.
  intros Hxy Hd Hp.
  destruct (MVT_gen f x y df) as (c & Hc & E).
  - intros t Ht. apply Hd. unfold Rmin, Rmax in Ht. destruct (Rle_dec x y); lra.
  - intros t Ht. apply continuity_pt_filterlim. apply (ex_derive_continuous f). exists (df t). apply Hd. unfold Rmin, Rmax in Ht. destruct (Rle_dec x y); lra.
  - assert (0 < df c) by (apply Hp; unfold Rmin, Rmax in Hc; destruct (Rle_dec x y); lra).
    assert (0 < df c * (y - x)) by (apply Rmult_lt_0_compat; lra). lra.
Qed.

(** continuity induction: a function that is positive wherever it was nonnegative before stays positive *)
Lemma stays_positive (f : R -> R) (a b : R) : a <= b -> (forall x, a <= x <= b -> continuous f x) -> 
  (forall x, a <= x <= b -> (forall y, a <= y < x -> 0 < f y) -> 0 < f x) -> forall x, a <= x <= b -> 0 < f x.
Proof.
  intros Hab Hc Hs. set (E := fun x => a <= x <= b /\ forall y, a <= y <= x -> 0 < f y).
  assert (Ea : E a). { split; [lra|]. intros y Hy. assert (y = a) by lra. subst y. apply Hs; [lra|]. intros z Hz. lra. }
  destruct (completeness E) as (s & (Hu & Hl)); [exists b; intros x (Hx & _); lra|exists a; exact Ea|].
  assert (Has : a <= s) by (apply Hu; exact Ea). assert (Hsb : s <= b) by (apply Hl; intros x (Hx & _); lra).
  assert (Below : forall y, a <= y < s -> 0 < f y).
  { intros y Hy. destruct (Classical_Prop.classic (exists x, E x /\ y <= x)) as [(x & (Hx & HE) & Hyx)|Hno].
    - apply HE. lra.
    - exfalso. assert (s <= y); [|lra]. apply Hl. intros x Hx. destruct (Rle_or_lt x y) as [H|H]; [exact H|]. exfalso. apply Hno. exists x. split; [exact Hx|lra]. }
  assert (Es : 0 < f s) by (apply Hs; [lra|exact Below]).
  destruct (Rle_lt_or_eq_dec s b Hsb) as [Hlt|Heq].
  - exfalso. assert (Cs := Hc s (conj Has Hsb)).
    assert (HL := Cs (fun y => 0 < y) (open_gt 0 (f s) Es)). destruct HL as (eps & Heps).
    set (d := Rmin (eps / 2) (b - s)). assert (Hd : 0 < d) by (unfold d; pose proof (cond_pos eps); apply Rmin_glb_lt; lra).
    assert (E (s + d)).
    { split; [unfold d; pose proof (Rmin_r (eps / 2) (b - s)); unfold d in Hd; lra|]. intros y Hy.
      destruct (Rlt_or_le y s) as [H|H]; [apply Below; lra|]. apply Heps. unfold ball; simpl. unfold AbsRing_ball, abs, minus, plus, opp; simpl.
      pose proof (Rmin_l (eps / 2) (b - s)). pose proof (cond_pos eps). apply Rabs_def1; unfold d in *; lra. }
    assert (s + d <= s) by (apply Hu; assumption). lra.
  - intros x Hx. destruct (Rle_lt_or_eq_dec x b (proj2 Hx)) as [H|H]; [apply Below; lra|]. subst x. subst s. exact Es.
Qed.
