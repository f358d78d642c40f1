(** * Proofs for linear elasticity, damaged elasticity and the invariants *)
From Coq Require Import List Arith Bool Reals Lra Lia Psatz.
From Coquelicot Require Import Coquelicot.
From Verif Require Import RSum Outcome AdaptiveModel AdaptiveProofs ElasticModel ElasticSpec.
Import ListNotations.
Local Open Scope R_scope.

Lemma half : 0.5 = 1 / 2. Proof. lra. Qed.
Lemma quarter : 0.25 = 1 / 4. Proof. lra. Qed.

Lemma sq x : 0 <= x * x. Proof. nra. Qed.

Ltac idx i H :=
  match type of H with
  | (i < ?n)%nat => let m := eval vm_compute in n in
    change (i < m)%nat in H;
    match m with
    | O => exfalso; lia
    | S _ => destruct i as [|i]; [clear H| let H' := fresh in assert (H' : (i < pred m)%nat) by (simpl; lia); clear H; rename H' into H; cbn [pred] in H; idx i H]
    end
  end.

Ltac cmp := simpl; unfold CalculateC1, CalculateC2, CalculateC3, CalculateCoefficients3D, CalculateCoefficients2DPlaneStress; cbv beta iota zeta.

(** a linear map is its own differential *)
Lemma linear_differential n (A : vec) (x : vec) : differential n (fun s => rsum n (fun j => A j * s j)) x A.
Proof.
  intros v.
  apply (is_derive_ext (fun t => rsum n (fun j => A j * x j) + t * rsum n (fun j => A j * v j))).
  - intros t. rewrite <- rsum_scal, <- rsum_plus. apply rsum_ext. intros. ring.
  - auto_derive; trivial. ring.
Qed.

(** ** LinearElastic *)
Lemma le_tangent_is_derivative d l x i : differential (Voigt_Dim d) (fun s => le_Stress d l s i) x (le_Tangent l x i).
Proof. exact (linear_differential _ (le_C l i) x). Qed.

Lemma C_symmetric d E nu ps i j : (i < Voigt_Dim d)%nat -> (j < Voigt_Dim d)%nat -> CalculateC d E nu ps i j = CalculateC d E nu ps j i.
Proof.
  destruct d as [|[|[|d]]]; intros Hi Hj; simpl CalculateC; [| reflexivity | |].
  all: destruct ps; idx i Hi; idx j Hj; reflexivity.
Qed.

Lemma hooke_3d E nu eps : -1 < nu < 1/2 ->
  hooke E nu (strain_tensor eps) (stress_tensor (le_Stress 3 (le_make 3 E nu PLANE_STRAIN) eps)).
Proof.
  intros Hn i j Hi Hj. idx i Hi; idx j Hj;
    unfold trace, delta, strain_tensor, stress_tensor, sym_tensor, le_Stress, mat_vec; cmp; field; lra.
Qed.

Lemma hooke_unique E nu eps s1 s2 : -1 < nu < 1/2 -> hooke E nu eps s1 -> hooke E nu eps s2 ->
  forall i j, (i < 3)%nat -> (j < 3)%nat -> s1 i j = s2 i j.
Proof.
  intros Hn H1 H2.
  assert (Ht : trace s1 = trace s2).
  { pose proof (H1 0 0 ltac:(lia) ltac:(lia))%nat as A0. pose proof (H1 1 1 ltac:(lia) ltac:(lia))%nat as A1. pose proof (H1 2 2 ltac:(lia) ltac:(lia))%nat as A2.
    pose proof (H2 0 0 ltac:(lia) ltac:(lia))%nat as B0. pose proof (H2 1 1 ltac:(lia) ltac:(lia))%nat as B1. pose proof (H2 2 2 ltac:(lia) ltac:(lia))%nat as B2.
    change (delta 0 0) with 1 in *. change (delta 1 1) with 1 in *. change (delta 2 2) with 1 in *.
    assert (H : (1 - 2 * nu) * (trace s1 - trace s2) = 0).
    { unfold trace in *. nra. }
    apply Rmult_integral in H. lra. }
  intros i j Hi Hj. specialize (H1 i j Hi Hj). specialize (H2 i j Hi Hj). rewrite Ht in H1.
  assert (H : (1 + nu) * (s1 i j - s2 i j) = 0) by nra. apply Rmult_integral in H. lra.
Qed.

(** plane strain: the 3D law with eps_zz = 0 *)
Definition lift (zz : R) (s : vec) : vec := fun i => match i with 0%nat => s 0%nat | 1%nat => s 1%nat | 2%nat => zz | 5%nat => s 2%nat | _ => 0 end.
Lemma plane_strain_3d E nu s ps :
  let s3 := le_Stress 3 (le_make 3 E nu ps) (lift 0 s) in
  let s2 := le_Stress 2 (le_make 2 E nu PLANE_STRAIN) s in
  s2 0%nat = s3 0%nat /\ s2 1%nat = s3 1%nat /\ s2 2%nat = s3 5%nat /\ s3 3%nat = 0 /\ s3 4%nat = 0.
Proof. unfold le_Stress, mat_vec; cmp; unfold lift. repeat split; ring. Qed.
Lemma plane_stress_3d E nu s ps zz : 0 < E -> -1 < nu < 1/2 ->
  let s3 := le_Stress 3 (le_make 3 E nu ps) (lift zz s) in
  let s2 := le_Stress 2 (le_make 2 E nu PLANE_STRESS) s in
  s3 2%nat = 0 -> s2 0%nat = s3 0%nat /\ s2 1%nat = s3 1%nat /\ s2 2%nat = s3 5%nat /\ s3 3%nat = 0 /\ s3 4%nat = 0.
Proof.
  intros HE Hn. unfold le_Stress, mat_vec; cmp; unfold lift.
  set (f := E / ((1 + nu) * (1 - 2 * nu))). intros H.
  assert (Hf : 0 < f) by (apply Rdiv_lt_0_compat; nra).
  assert (Hz : (1 - nu) * zz = - nu * (s 0%nat + s 1%nat)).
  { assert (f * ((1 - nu) * zz + nu * (s 0%nat + s 1%nat)) = 0) by (rewrite <- H; ring). apply Rmult_integral in H0. lra. }
  assert (Hz' : zz = - nu * (s 0%nat + s 1%nat) / (1 - nu)) by (rewrite <- Hz; field; lra).
  subst zz. rewrite half. repeat split; unfold f; try (field; nra). Qed.
Lemma plane_stress_exists E nu s ps : -1 < nu < 1/2 -> exists zz, le_Stress 3 (le_make 3 E nu ps) (lift zz s) 2%nat = 0.
Proof.
  intros Hn. exists (- nu * (s 0%nat + s 1%nat) / (1 - nu)). unfold le_Stress, mat_vec; cmp; unfold lift. field. lra. Qed.
(** 1D: the uniaxial stress state of the 3D law *)
Lemma uniaxial_1d E nu s ps ps' : -1 < nu < 1/2 ->
  let s3 := le_Stress 3 (le_make 3 E nu ps) (fun i => match i with 0%nat => s 0%nat | 1%nat => - nu * s 0%nat | 2%nat => - nu * s 0%nat | _ => 0 end) in
  le_Stress 1 (le_make 1 E nu ps') s 0%nat = E * s 0%nat /\ s3 0%nat = E * s 0%nat /\ forall i, (0 < i < 6)%nat -> s3 i = 0.
Proof.
  intros Hn. unfold le_Stress, mat_vec; cmp. split; [ring|]. split; [field; lra|].
  intros i [H0 Hi]. idx i Hi; try lia; try (field; lra); ring.
Qed.

(** positive definiteness *)
Lemma pos3 p q r x y z : 0 < p -> 0 < q -> 0 < r -> 0 <= x -> 0 <= y -> 0 <= z -> 0 < x + y + z -> 0 < p * x + q * y + r * z.
Proof.
  intros Hp Hq Hr Hx Hy Hz H.
  assert (M1 : 0 <= p * x) by (apply Rmult_le_pos; lra). assert (M2 : 0 <= q * y) by (apply Rmult_le_pos; lra). assert (M3 : 0 <= r * z) by (apply Rmult_le_pos; lra).
  destruct (Rlt_dec 0 x); [assert (0 < p * x) by (apply Rmult_lt_0_compat; lra); lra|].
  destruct (Rlt_dec 0 y); [assert (0 < q * y) by (apply Rmult_lt_0_compat; lra); lra|].
  assert (0 < r * z) by (apply Rmult_lt_0_compat; lra). lra.
Qed.
Lemma energy_1d E nu ps s : 0 < E -> s 0%nat <> 0 -> 0 < rsum 1 (fun i => s i * le_Stress 1 (le_make 1 E nu ps) s i).
Proof. intros HE Hs. unfold le_Stress, mat_vec; cmp. assert (0 < s 0%nat * s 0%nat) by nra. nra. Qed.

Lemma energy_2d E nu ps s : 0 < E -> -1 < nu < 1/2 -> (exists i, (i < 3)%nat /\ s i <> 0) ->
  0 < rsum 3 (fun i => s i * le_Stress 2 (le_make 2 E nu ps) s i).
Proof.
  intros HE Hn (i & Hi & Hs). unfold le_Stress, mat_vec; cmp. set (a := s 0%nat). set (b := s 1%nat). set (c := s 2%nat).
  assert (Hne : 0 < a * a + b * b + c * c).
  { idx i Hi; fold a b c in Hs; assert (0 <= a * a) by apply sq; assert (0 <= b * b) by apply sq; assert (0 <= c * c) by apply sq;
    [assert (0 < a * a) by nra | assert (0 < b * b) by nra | assert (0 < c * c) by nra]; lra. }
  destruct ps; simpl.
  - set (f := E / (1 - nu * nu)). assert (Hf : 0 < f) by (apply Rdiv_lt_0_compat; nra). rewrite half.
    match goal with |- 0 < ?e => replace e with (f * ((1 + nu) / 2 * ((a + b) * (a + b)) + (1 - nu) / 2 * ((a - b) * (a - b)) + (1 - nu) / 2 * (c * c))) by field end.
    apply Rmult_lt_0_compat; [exact Hf|].
    apply (pos3 _ _ _ ((a + b) * (a + b)) ((a - b) * (a - b)) (c * c)); try apply sq; try lra.
    replace ((a + b) * (a + b) + (a - b) * (a - b)) with (2 * (a * a + b * b)) by ring. pose proof (sq a). pose proof (sq b). pose proof (sq c). lra.
  - set (f := E / ((1 + nu) * (1 - 2 * nu))). assert (Hf : 0 < f) by (apply Rdiv_lt_0_compat; nra).
    replace (E / (2 * (1 + nu))) with (f * (1 - 2 * nu) / 2) by (unfold f; field; lra).
    match goal with |- 0 < ?e => replace e with (f * (1 / 2 * ((a + b) * (a + b)) + (1 - 2 * nu) / 2 * ((a - b) * (a - b)) + (1 - 2 * nu) / 2 * (c * c))) by field end.
    apply Rmult_lt_0_compat; [exact Hf|].
    apply (pos3 _ _ _ ((a + b) * (a + b)) ((a - b) * (a - b)) (c * c)); try apply sq; try lra.
    replace ((a + b) * (a + b) + (a - b) * (a - b)) with (2 * (a * a + b * b)) by ring. pose proof (sq a). pose proof (sq b). pose proof (sq c). lra.
Qed.

Lemma energy_3d E nu ps s : 0 < E -> -1 < nu < 1/2 -> (exists i, (i < 6)%nat /\ s i <> 0) ->
  0 < rsum 6 (fun i => s i * le_Stress 3 (le_make 3 E nu ps) s i).
Proof.
  intros HE Hn (i & Hi & Hs). unfold le_Stress, mat_vec; cmp.
  set (a := s 0%nat). set (b := s 1%nat). set (c := s 2%nat). set (x := s 3%nat). set (y := s 4%nat). set (z := s 5%nat).
  assert (Ha : 0 <= a * a) by apply sq. assert (Hb : 0 <= b * b) by apply sq. assert (Hc : 0 <= c * c) by apply sq.
  assert (Hx : 0 <= x * x) by apply sq. assert (Hy : 0 <= y * y) by apply sq. assert (Hz : 0 <= z * z) by apply sq.
  assert (Hne : 0 < a * a + b * b + c * c + x * x + y * y + z * z).
  { assert (Hsq : 0 < s i * s i) by nra. idx i Hi; fold a b c x y z in Hsq; lra. }
  set (f := E / ((1 + nu) * (1 - 2 * nu))). assert (Hf : 0 < f) by (apply Rdiv_lt_0_compat; nra).
  replace (E / (2 * (1 + nu))) with (f * (1 - 2 * nu) / 2) by (unfold f; field; lra).
  match goal with |- 0 < ?e => replace e with (f * ((1 + nu) / 3 * ((a + b + c) * (a + b + c)) + (1 - 2 * nu) / 3 * ((a - b) * (a - b) + (b - c) * (b - c) + (c - a) * (c - a)) + (1 - 2 * nu) / 2 * (x * x + y * y + z * z))) by field end.
  apply Rmult_lt_0_compat; [exact Hf|].
  apply pos3; try lra; try apply sq.
  pose proof (sq (a - b)). pose proof (sq (b - c)). pose proof (sq (c - a)). lra.
Qed.

(** SetPlaneState: any sequence of calls leaves the law of the last state *)
Lemma set_plane_state_last d E nu ps0 l :
  fold_left (le_SetPlaneState d) l (le_make d E nu ps0) = le_make d E nu (last l ps0).
Proof.
  revert ps0. induction l as [|p l IH]; intros ps0; [reflexivity|].
  simpl fold_left. change (le_SetPlaneState d (le_make d E nu ps0) p) with (le_make d E nu p). rewrite IH.
  destruct l; [reflexivity|]. f_equal. simpl. clear IH. revert e p ps0. induction l as [|q l IH]; intros; [reflexivity|]. simpl. apply IH; auto. 
Qed.

(** ** LinearElasticDamage *)
Lemma led_zero d E nu app ps s i : (1 <= d <= 3)%nat -> -1 < nu < 1/2 -> (i < Voigt_Dim d)%nat ->
  led_Stress d (led_make d E nu app ps) s 0 i = le_Stress d (le_make d E nu ps) s i.
Proof.
  intros Hd Hn Hi. destruct d as [|[|[|[|d]]]]; try lia; destruct ps; idx i Hi;
    unfold led_Stress, le_Stress, mat_vec, led_eV; cmp; rewrite ?half; field; repeat split; nra.
Qed.

Lemma led_full d E nu ps s w i : (1 <= d <= 3)%nat -> -1 < nu < 1/2 -> (i < Voigt_Dim d)%nat ->
  led_Stress d (led_make d E nu FULL ps) s w i = (1 - w) * le_Stress d (le_make d E nu ps) s i.
Proof.
  intros Hd Hn Hi. rewrite <- (led_zero d E nu FULL ps s i) by assumption.
  unfold led_Stress, led_H; simpl mDamageApplication; cbv iota. ring.
Qed.

Lemma led_eV_move d l x v t : led_eV d l (fun i => x i + t * v i) = led_eV d l x + t * led_eV d l v.
Proof. unfold led_eV. rewrite <- rsum_scal, <- rsum_plus. apply rsum_ext. intros. ring. Qed.

Lemma sign_stable (l : LinearElasticDamage) a b : (mDamageApplication l = FULL \/ a <> 0) ->
  locally 0 (fun t => led_H l (a + t * b) = led_H l a).
Proof.
  intros [H|H].
  { exists (mkposreal 1 Rlt_0_1). intros. unfold led_H. rewrite H. reflexivity. }
  assert (Hp : 0 < Rabs a / (1 + Rabs b)) by (apply Rdiv_lt_0_compat; [apply Rabs_pos_lt; auto|pose proof (Rabs_pos b); lra]).
  exists (mkposreal _ Hp). intros t Ht. unfold ball in Ht; simpl in Ht. unfold AbsRing_ball, abs, minus, plus, opp in Ht; simpl in Ht.
  rewrite Ropp_0, Rplus_0_r in Ht.
  assert (Hb : Rabs (t * b) < Rabs a).
  { rewrite Rabs_mult. pose proof (Rabs_pos b). pose proof (Rabs_pos t).
    apply (Rmult_lt_compat_r (1 + Rabs b)) in Ht; [|lra]. replace (Rabs a / (1 + Rabs b) * (1 + Rabs b)) with (Rabs a) in Ht by (field; lra). nra. }
  unfold led_H. destruct (mDamageApplication l); [reflexivity|]. unfold rltb.
  apply Rabs_def2 in Hb. destruct (Rlt_dec a 0) as [H1|H1]; destruct (Rlt_dec (a + t * b) 0) as [H2|H2]; try reflexivity.
  - rewrite (Rabs_left a) in Hb by lra. lra.
  - rewrite (Rabs_right a) in Hb by lra. lra.
Qed.

Lemma led_dstrain d E nu app ps x w i : (i < Voigt_Dim d)%nat -> let l := led_make d E nu app ps in
  app = FULL \/ led_eV d l x <> 0 ->
  differential (Voigt_Dim d) (fun s => led_Stress d l s w i) x (led_DstressDstrain d l x w i).
Proof.
  intros Hi l Hs v.
  assert (Hs' : mDamageApplication l = FULL \/ led_eV d l x <> 0) by exact Hs.
  pose proof (sign_stable l (led_eV d l x) (led_eV d l v) Hs') as Hloc.
  set (h := led_H l (led_eV d l x)) in *.
  apply (is_derive_ext_loc (fun t => mD l i * ((1 - w * h) * m3K l * (led_eV d l x + t * led_eV d l v)) +
      (1 - w) * m2G l * mPinvDiag l i * (x i + t * v i - mD l i * (led_eV d l x + t * led_eV d l v)))).
  - apply (filter_imp (F := locally 0) (fun t => led_H l (led_eV d l x + t * led_eV d l v) = h)); [|exact Hloc].
    intros t Ht. unfold led_Stress. rewrite led_eV_move, Ht. reflexivity.
  - assert (Hsum : rsum (Voigt_Dim d) (fun j => led_DstressDstrain d l x w i j * v j) =
        mD l i * ((1 - w * h) * m3K l * led_eV d l v) + (1 - w) * m2G l * mPinvDiag l i * (v i - mD l i * led_eV d l v)).
    { unfold led_DstressDstrain. fold h.
      rewrite (rsum_ext _ _ (fun j => (m3K l * (1 - w * h) * mD l i - (1 - w) * m2G l * mPinvDiag l i * mD l i) * (1 / 3 * mD2 l j * v j) + (1 - w) * m2G l * mPinvDiag l i * ((if Nat.eqb i j then 1 else 0) * v j))).
      2:{ intros j Hj. change (mIv l i j) with (1 / 3 * mD l i * mD2 l j). change (mPinvId l i j) with (mPinvDiag l i * ((if Nat.eqb i j then 1 else 0) - 1 / 3 * mD l i * mD2 l j)). ring. }
      rewrite rsum_plus, !rsum_scal. fold (led_eV d l v).
      rewrite (rsum_single _ i); [|exact Hi|].
      - rewrite Nat.eqb_refl. ring.
      - intros k Hk Hne. destruct (Nat.eqb_spec i k); [congruence|ring]. }
    rewrite Hsum. clear. clearbody h l. generalize (led_eV d l x) (led_eV d l v) (mD l i) (m3K l) (m2G l) (mPinvDiag l i) (x i) (v i). intros e e2 a b c f g k. auto_derive; trivial. ring.
Qed.

Lemma led_domega d l x w i : is_derive (fun o => led_Stress d l x o i) w (led_DstressDomega d l x w i).
Proof. unfold led_Stress, led_DstressDomega. auto_derive; trivial. ring. Qed.

(** the volumetric strain is a third of the trace of the 3D strain *)
Lemma led_eV_trace_3 E nu app ps s : led_eV 3 (led_make 3 E nu app ps) s = trace (strain_tensor s) / 3.
Proof. unfold led_eV, trace, strain_tensor, sym_tensor; simpl. field. Qed.

(** ** invariants *)
Lemma to_tensor_spec v i j : (i < 3)%nat -> (j < 3)%nat -> ToTensor v i j = strain_tensor v i j.
Proof. intros Hi Hj. idx i Hi; idx j Hj; unfold ToTensor, strain_tensor, sym_tensor; rewrite ?half; field. Qed.

Lemma charpoly_invariants v x : charpoly (strain_tensor v) x = x * x * x - I1 v * x * x + I2 v * x - I3 v.
Proof. unfold charpoly, det3, delta, strain_tensor, sym_tensor, I1, I2, I3; simpl. rewrite quarter. field. Qed.
Lemma charpoly_deviator v x :
  charpoly (strain_tensor (Deviatoric v)) x = x * x * x - J2 v * x - det3 (strain_tensor (Deviatoric v)).
Proof. unfold charpoly, det3, delta, Deviatoric, strain_tensor, sym_tensor, J2, I1; simpl. rewrite half. field. Qed.
Lemma J2_I v : J2 v = I1 v * I1 v / 3 - I2 v.
Proof. unfold J2, I1, I2. rewrite half, quarter. field. Qed.
Lemma J2_nonneg v : 0 <= J2 v.
Proof. unfold J2. rewrite half. set (a := v 0%nat). set (b := v 1%nat). set (c := v 2%nat).
  assert (0 <= (a - b) * (a - b)) by apply sq. assert (0 <= (b - c) * (b - c)) by apply sq. assert (0 <= (c - a) * (c - a)) by apply sq.
  assert (0 <= (1/2 * v 3%nat) * (1/2 * v 3%nat)) by apply sq. assert (0 <= (1/2 * v 4%nat) * (1/2 * v 4%nat)) by apply sq. assert (0 <= (1/2 * v 5%nat) * (1/2 * v 5%nat)) by apply sq. lra. Qed.
Lemma J2_zero v : J2 v = 0 <-> (v 0%nat = v 1%nat /\ v 1%nat = v 2%nat /\ v 3%nat = 0 /\ v 4%nat = 0 /\ v 5%nat = 0).
Proof.
  split.
  - unfold J2. rewrite half. set (a := v 0%nat). set (b := v 1%nat). set (c := v 2%nat). set (x := v 3%nat). set (y := v 4%nat). set (z := v 5%nat). intros H.
    assert (P1 : 0 <= (a - b) * (a - b)) by apply sq. assert (P2 : 0 <= (b - c) * (b - c)) by apply sq. assert (P3 : 0 <= (c - a) * (c - a)) by apply sq.
    assert (P4 : 0 <= (1/2 * x) * (1/2 * x)) by apply sq. assert (P5 : 0 <= (1/2 * y) * (1/2 * y)) by apply sq. assert (P6 : 0 <= (1/2 * z) * (1/2 * z)) by apply sq.
    assert ((a - b) * (a - b) = 0) by lra. assert ((b - c) * (b - c) = 0) by lra.
    assert ((1/2 * x) * (1/2 * x) = 0) by lra. assert ((1/2 * y) * (1/2 * y) = 0) by lra. assert ((1/2 * z) * (1/2 * z) = 0) by lra.
    repeat split; match goal with |- ?p = ?q => idtac end; nra.
  - intros (A & B & C & D & E). unfold J2. rewrite C, D, E, A, B. field.
Qed.

Lemma det3_mul A B : det3 (mul3 A B) = det3 A * det3 B.
Proof. unfold det3, mul3. ring. Qed.
Lemma det3_ext A B : (forall i j, (i < 3)%nat -> (j < 3)%nat -> A i j = B i j) -> det3 A = det3 B.
Proof. intros H. unfold det3. rewrite !H by lia. reflexivity. Qed.
Lemma det3_delta : det3 delta = 1.
Proof. unfold det3, delta; simpl. ring. Qed.
Lemma charpoly_rotated Q T x : orthogonal Q -> charpoly (mul3 Q (mul3 T (tr3 Q))) x = charpoly T x.
Proof.
  intros HQ. unfold charpoly.
  rewrite (det3_ext _ (mul3 Q (mul3 (fun i j => x * delta i j - T i j) (tr3 Q)))).
  - rewrite !det3_mul.
    assert (Hd : det3 Q * det3 (tr3 Q) = 1) by (rewrite <- det3_mul, <- det3_delta; apply det3_ext; exact HQ).
    transitivity (det3 Q * det3 (tr3 Q) * det3 (fun i j => x * delta i j - T i j)); [ring|]. rewrite Hd. ring.
  - intros i j Hi Hj. rewrite <- (HQ i j Hi Hj). idx i Hi; idx j Hj; unfold mul3, tr3, delta; simpl; ring.
Qed.
Lemma poly_coefficients a b c a' b' c' : (forall x, x * x * x - a * x * x + b * x - c = x * x * x - a' * x * x + b' * x - c') -> a = a' /\ b = b' /\ c = c'.
Proof. intros H. pose proof (H 0). pose proof (H 1). pose proof (H (-1)). lra. Qed.
Lemma invariants_rotated Q v w : orthogonal Q -> rotated Q v w -> I1 w = I1 v /\ I2 w = I2 v /\ I3 w = I3 v.
Proof.
  intros HQ HR. apply poly_coefficients. intros x. rewrite <- !charpoly_invariants.
  rewrite <- (charpoly_rotated Q (strain_tensor v) x HQ). unfold charpoly. apply det3_ext. intros i j Hi Hj. rewrite HR by assumption. reflexivity.
Qed.
