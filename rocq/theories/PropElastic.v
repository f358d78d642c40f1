(** * C40-C45, C75: constitutive laws *)
From Coq Require Import List Arith Bool Reals Lra Lia Psatz.
From Coquelicot Require Import Coquelicot.
From Verif Require Import RSum Outcome AdaptiveModel AdaptiveProofs ElasticModel ElasticSpec ElasticProofs NormProofs DamageProofs.
Import ListNotations.
Local Open Scope R_scope.

(** ** C40 *)

(** the stress of the 3D law is the one and only stress tensor that satisfies Hooke's law *)
Theorem C40_hooke_3d : forall E nu ps eps, 0 < E -> -1 < nu < 1/2 ->
  let sigma := stress_tensor (le_Stress 3 (le_make 3 E nu ps) eps) in
  hooke E nu (strain_tensor eps) sigma /\
  forall sigma', hooke E nu (strain_tensor eps) sigma' -> forall i j, (i < 3)%nat -> (j < 3)%nat -> sigma' i j = sigma i j.
Proof.
  intros E nu ps eps HE Hn sigma. split; [exact (hooke_3d E nu eps Hn)|].
  intros s' Hs'. apply (hooke_unique E nu (strain_tensor eps)); [exact Hn|exact Hs'|exact (hooke_3d E nu eps Hn)].
Qed.
Print Assumptions C40_hooke_3d.

(** in 1D, 2D and 3D the tangent is the derivative of the stress and is symmetric *)
Theorem C40_tangent : forall d E nu ps x, (1 <= d <= 3)%nat ->
  let l := le_make d E nu ps in
  (forall i, differential (Voigt_Dim d) (fun s => le_Stress d l s i) x (le_Tangent l x i)) /\
  (forall i j, (i < Voigt_Dim d)%nat -> (j < Voigt_Dim d)%nat -> le_Tangent l x i j = le_Tangent l x j i).
Proof. intros d E nu ps x Hd l. split; intros; [apply le_tangent_is_derivative|apply C_symmetric; assumption]. Qed.
Print Assumptions C40_tangent.

(** strain energy is positive unless the strain is zero *)
Theorem C40_positive_definite : forall d E nu ps s, (1 <= d <= 3)%nat -> 0 < E -> -1 < nu < 1/2 ->
  (exists i, (i < Voigt_Dim d)%nat /\ s i <> 0) -> 0 < rsum (Voigt_Dim d) (fun i => s i * le_Stress d (le_make d E nu ps) s i).
Proof.
  intros d E nu ps s Hd HE Hn H. destruct d as [|[|[|[|d]]]]; try lia.
  - destruct H as (i & Hi & H). idx i Hi. apply energy_1d; assumption.
  - apply energy_2d; assumption.
  - apply energy_3d; assumption.
Qed.
Print Assumptions C40_positive_definite.

(** [e] is the 3D strain with in-plane components [s], out-of-plane normal strain [zz] and no out-of-plane shear *)
Definition in_plane (s e : nat -> R) (zz : R) : Prop :=
  e 0%nat = s 0%nat /\ e 1%nat = s 1%nat /\ e 5%nat = s 2%nat /\ e 2%nat = zz /\ e 3%nat = 0 /\ e 4%nat = 0.
(** in-plane components of a 3D Voigt vector *)
Definition same_plane (s2 s3 : nat -> R) : Prop := s2 0%nat = s3 0%nat /\ s2 1%nat = s3 1%nat /\ s2 2%nat = s3 5%nat.

Lemma stress3_ext E nu ps s e zz : in_plane s e zz -> forall i, le_Stress 3 (le_make 3 E nu ps) e i = le_Stress 3 (le_make 3 E nu ps) (lift zz s) i.
Proof.
  intros (A & B & C & D & F & G) i. unfold le_Stress, mat_vec. apply rsum_ext. intros j Hj. f_equal. idx j Hj; simpl; assumption.
Qed.
Theorem C40_plane_strain : forall E nu ps s e, in_plane s e 0 ->
  same_plane (le_Stress 2 (le_make 2 E nu PLANE_STRAIN) s) (le_Stress 3 (le_make 3 E nu ps) e).
Proof.
  intros E nu ps s e H. unfold same_plane. rewrite !(stress3_ext E nu ps s e 0 H).
  destruct (plane_strain_3d E nu s ps) as (A & B & C & _). auto.
Qed.
Print Assumptions C40_plane_strain.
Theorem C40_plane_stress : forall E nu ps s, 0 < E -> -1 < nu < 1/2 ->
  (exists e zz, in_plane s e zz /\ le_Stress 3 (le_make 3 E nu ps) e 2%nat = 0) /\
  forall e zz, in_plane s e zz -> le_Stress 3 (le_make 3 E nu ps) e 2%nat = 0 ->
    same_plane (le_Stress 2 (le_make 2 E nu PLANE_STRESS) s) (le_Stress 3 (le_make 3 E nu ps) e).
Proof.
  intros E nu ps s HE Hn. split.
  - destruct (plane_stress_exists E nu s ps Hn) as (zz & H). exists (lift zz s), zz. split; [repeat split|exact H].
  - intros e zz H H0. unfold same_plane. rewrite !(stress3_ext E nu ps s e zz H) in *.
    destruct (plane_stress_3d E nu s ps zz HE Hn H0) as (A & B & C & _). auto.
Qed.
Print Assumptions C40_plane_stress.
(** the 1D law is E eps: the uniaxial stress state of the 3D law *)
Theorem C40_uniaxial : forall E nu ps ps' s, -1 < nu < 1/2 ->
  let e := fun i => match i with 0%nat => s 0%nat | 1%nat => - nu * s 0%nat | 2%nat => - nu * s 0%nat | _ => 0 end in
  le_Stress 1 (le_make 1 E nu ps') s 0%nat = E * s 0%nat /\
  le_Stress 3 (le_make 3 E nu ps) e 0%nat = E * s 0%nat /\ forall i, (0 < i < 6)%nat -> le_Stress 3 (le_make 3 E nu ps) e i = 0.
Proof. intros E nu ps ps' s Hn. exact (uniaxial_1d E nu s ps ps' Hn). Qed.
Print Assumptions C40_uniaxial.
(** however often the plane state is changed, the law is the one a fresh object with the last state has *)
Theorem C40_set_plane_state : forall d E nu ps0 states,
  fold_left (le_SetPlaneState d) states (le_make d E nu ps0) = le_make d E nu (last states ps0).
Proof. exact set_plane_state_last. Qed.
Print Assumptions C40_set_plane_state.

Example C40_case : 0 < rsum 3 (fun i => (fun _ => 1) i * le_Stress 2 (le_make 2 30000 0.2 PLANE_STRESS) (fun _ => 1) i).
Proof. apply (C40_positive_definite 2); [lia|lra|lra|]. exists 0%nat. split; [simpl; lia|lra]. Qed.

(** ** C41 *)
Theorem C41_exponential : forall kappa0 beta alpha, 0 < kappa0 -> 0 <= beta -> 0 <= alpha <= 1 ->
  let l := DamageLawExponential kappa0 beta alpha in damage_law_ok kappa0 (fun k => k = kappa0) (Damage l) (Derivative l).
Proof. exact exponential_ok. Qed.
Print Assumptions C41_exponential.
Theorem C41_no_softening : forall kappa0, 0 < kappa0 ->
  let l := DamageLawNoSoftening kappa0 in damage_law_ok kappa0 (fun k => k = kappa0) (Damage l) (Derivative l).
Proof. exact nosoftening_ok. Qed.
Print Assumptions C41_no_softening.
(** the linear law has a second kink, where the damage reaches its cap *)
Theorem C41_linear : forall kappa0 kappaC omegaMax, 0 < kappa0 -> kappa0 < kappaC -> 0 <= omegaMax < 1 ->
  let l := DamageLawLinear kappa0 kappaC omegaMax in
  damage_law_ok kappa0 (fun k => k = kappa0 \/ (Damage l k = omegaMax /\ forall k', k' < k -> Damage l k' < omegaMax)) (Damage l) (Derivative l).
Proof. exact linear_ok. Qed.
Print Assumptions C41_linear.
(** the laws made from material parameters have their threshold at ft / E and meet the conditions above *)
Theorem C41_softening_parameters : forall m, 0 < s_E m -> 0 < s_ft m -> 0 < s_gf m -> 0 < s_fMin m <= s_ft m ->
  let k0 := s_ft m / s_E m in
  let e := DamageLawExponential_softening m in let n := DamageLawNoSoftening_softening m in let l := DamageLawLinear_softening m in
  damage_law_ok k0 (fun k => k = k0) (Damage e) (Derivative e) /\
  damage_law_ok k0 (fun k => k = k0) (Damage n) (Derivative n) /\
  damage_law_ok k0 (fun k => k = k0 \/ (Damage l k = 1 - s_fMin m / s_ft m /\ forall k', k' < k -> Damage l k' < 1 - s_fMin m / s_ft m)) (Damage l) (Derivative l).
Proof.
  intros m HE Hft Hgf Hm k0 e n l. assert (H0 : 0 < k0) by (apply Rdiv_lt_0_compat; lra).
  assert (Hr : 0 < s_fMin m / s_ft m) by (apply Rdiv_lt_0_compat; lra).
  assert (Hr1 : s_fMin m / s_ft m <= 1) by (apply (Rmult_le_reg_r (s_ft m)); [lra|]; replace (s_fMin m / s_ft m * s_ft m) with (s_fMin m) by (field; lra); lra).
  assert (Hb : 0 < s_ft m / s_gf m) by (apply Rdiv_lt_0_compat; lra).
  assert (Hc : 0 < 2 * s_gf m / s_ft m) by (apply Rdiv_lt_0_compat; lra).
  split; [|split].
  - apply exponential_ok; [exact H0|left; exact Hb|lra].
  - apply nosoftening_ok. exact H0.
  - apply linear_ok; [exact H0|fold k0; lra|lra].
Qed.
Print Assumptions C41_softening_parameters.
(** uniaxial stress: bounded by the strength E kappa0, which it has at the threshold *)
Theorem C41_peak_stress : forall E kappa0 beta alpha k, 0 < E -> 0 < kappa0 -> 0 <= beta -> 0 <= alpha <= 1 -> 0 <= k ->
  let w := Damage (DamageLawExponential kappa0 beta alpha) in let v := Damage (DamageLawNoSoftening kappa0) in
  (1 - w k) * E * k <= E * kappa0 /\ (1 - w kappa0) * E * kappa0 = E * kappa0 /\
  (1 - v k) * E * k <= E * kappa0 /\ (kappa0 <= k -> (1 - v k) * E * k = E * kappa0).
Proof.
  intros E k0 b a k HE H0 Hb Ha Hk w v.
  assert (Hw : forall x, k0 <= x -> (1 - w x) * E * x = E * k0 * (1 - a + a * exp (b * (k0 - x)))).
  { intros x Hx. unfold w; simpl; unfold exp_Damage. destruct (rltb_spec x k0) as [(_ & H')|(-> & _)]; [lra|]. field. lra. }
  assert (Hv : forall x, k0 <= x -> (1 - v x) * E * x = E * k0).
  { intros x Hx. unfold v; simpl; unfold nos_Damage. destruct (rltb_spec x k0) as [(_ & H')|(-> & _)]; [lra|]. field. lra. }
  split; [|split; [|split]].
  - destruct (Rlt_dec k k0) as [Hl|Hl].
    + unfold w; simpl; unfold exp_Damage. destruct (rltb_spec k k0) as [(-> & _)|(_ & H')]; [nra|lra].
    + rewrite Hw by lra.
      assert (Hexp : exp (b * (k0 - k)) <= 1).
      { rewrite <- exp_0. destruct (Req_dec (b * (k0 - k)) 0) as [->|Hne]; [lra|]. left. apply exp_increasing. nra. }
      pose proof (exp_pos (b * (k0 - k))). assert (a * exp (b * (k0 - k)) <= a) by nra. assert (0 < E * k0) by nra. nra.
  - rewrite Hw by lra. replace (b * (k0 - k0)) with 0 by ring. rewrite exp_0. ring.
  - destruct (Rlt_dec k k0) as [Hl|Hl]; [|rewrite Hv by lra; lra].
    unfold v; simpl; unfold nos_Damage. destruct (rltb_spec k k0) as [(-> & _)|(_ & H')]; [nra|lra].
  - apply Hv.
Qed.
Print Assumptions C41_peak_stress.
(** the linear law softens linearly until its cap; beyond the cap the stress grows again without bound *)
Theorem C41_linear_peak_stress_refuted :
  exists m, 0 < s_E m /\ 0 < s_ft m /\ 0 < s_gf m /\ 0 < s_fMin m < s_ft m /\
  exists k, s_ft m / s_E m < k /\ s_ft m < (1 - Damage (DamageLawLinear_softening m) k) * s_E m * k.
Proof.
  exists {| s_E := 1; s_nu := 0; s_ft := 1; s_fc := 1; s_gf := 1; s_c := 1; s_fMin := 1 / 2; s_planeState := PLANE_STRAIN |}. simpl.
  repeat split; try lra. exists 4. split; [lra|]. simpl. unfold lin_Damage.
  destruct (rltb_spec 4 (1 / 1)) as [(_ & H)|(-> & _)]; [lra|]. cbv zeta.
  match goal with |- context [rltb ?a ?b] => destruct (rltb_spec a b) as [(-> & H)|(_ & H)] end; lra.
Qed.
Print Assumptions C41_linear_peak_stress_refuted.
(** the area under the softening branch is gf when the residual strength is zero *)
Theorem C41_fracture_energy : forall m K, 0 < s_E m -> 0 < s_ft m -> 0 < s_gf m -> s_fMin m = 0 -> s_ft m / s_E m < K ->
  is_RInt (fun k => (1 - Damage (DamageLawExponential_softening m) k) * s_E m * k) (s_ft m / s_E m) K
          (s_gf m * (1 - exp (- (s_ft m / s_gf m) * (K - s_ft m / s_E m)))).
Proof.
  intros m K HE Hft Hgf Hz HK. set (k0 := s_ft m / s_E m) in *. set (b := s_ft m / s_gf m).
  assert (H0 : 0 < k0) by (apply Rdiv_lt_0_compat; lra). assert (Hb : 0 < b) by (apply Rdiv_lt_0_compat; lra).
  apply (is_RInt_ext (fun k => s_ft m * exp (b * (k0 - k)))).
  { intros x Hx. rewrite Rmin_left in Hx by lra. unfold DamageLawExponential_softening; simpl. unfold exp_Damage. fold k0 b.
    destruct (rltb_spec x k0) as [(_ & H')|(-> & _)]; [lra|]. rewrite Hz.
    replace (0 / s_ft m) with 0 by (field; lra). 
    assert (Hk : s_ft m = s_E m * k0) by (unfold k0; field; lra). generalize (exp (b * (k0 - x))). intros e. rewrite Hk at 1. clearbody k0.
    match goal with |- ?a = ?b => change (@eq R a b) end. field. lra. }
  set (F := fun k => - (s_gf m * exp (b * (k0 - k)))).
  replace (s_gf m * (1 - exp (- b * (K - k0)))) with (minus (F K) (F k0)).
  - apply (is_RInt_derive (V := R_CompleteNormedModule) F).
    + intros x _. unfold F. auto_derive; trivial. unfold Rminus. unfold b. field. lra.
    + intros x _. apply (ex_derive_continuous (V := R_NormedModule)). auto_derive. trivial.
  - unfold F, minus, plus, opp; simpl. replace (b * (k0 - k0)) with 0 by ring. rewrite exp_0.
    replace (b * (k0 - K)) with (- b * (K - k0)) by ring. ring.
Qed.
Print Assumptions C41_fracture_energy.
Example C41_case : let k := 8 / 30000 in let l := DamageLawExponential_softening DefaultConcrete in 0 <= Damage l k < 1.
Proof. intros k l. destruct (C41_softening_parameters DefaultConcrete) as ((H & _) & _); simpl; try lra. apply H. unfold k. lra. Qed.

(** ** C42 *)
(** an operation is in range when it addresses a cell and integration point for which history data are allocated *)
Definition addresses (rows cols : nat) (o : li_op) : Prop :=
  match o with OpStress _ c ip | OpTangent _ c ip | OpUpdate _ c ip => (c < rows)%nat /\ (ip < cols)%nat end.
(** the strains with which Update was called for the integration point (c, ip), in order *)
Fixpoint updated_strains (c ip : nat) (ops : list li_op) : list vec :=
  match ops with
  | [] => []
  | OpUpdate s c' ip' :: rest => if (Nat.eqb c c' && Nat.eqb ip ip')%bool then s :: updated_strains c ip rest else updated_strains c ip rest
  | _ :: rest => updated_strains c ip rest
  end.
Definition kappa_of (l : LocalIsotropicDamage) (c ip : nat) : R := h_at (ev_kappas (li_evolution l)) c ip.

Lemma updates_strains d n c ip ops : updates_at d n c ip ops = map (mm_Value d n) (updated_strains c ip ops).
Proof.
  induction ops as [|o ops IH]; [reflexivity|]. rewrite updates_cons, IH. destruct o; simpl; try reflexivity.
  destruct (Nat.eqb c c0 && Nat.eqb ip ip0)%bool; reflexivity.
Qed.

Theorem C42_history : forall d rows cols elastic law norm ops, List.Forall (addresses rows cols) ops ->
  exists l, li_run d (li_make elastic law (ev_make norm rows cols)) ops = Ok l /\
  forall c ip, (c < rows)%nat -> (ip < cols)%nat ->
    maximum_from_zero (map (mm_Value d norm) (updated_strains c ip ops)) (kappa_of l c ip) /\
    (forall strain, exists k, maximum_from_zero (mm_Value d norm strain :: map (mm_Value d norm) (updated_strains c ip ops)) k /\
       li_Stress d l strain c ip = Ok (led_Stress d elastic strain (Damage law k))).
Proof.
  intros d rows cols elastic law norm ops H.
  destruct (run_spec d ops (li_make elastic law (ev_make norm rows cols))) as (l & E & A1 & A2 & A3 & A4 & A5 & A6).
  { eapply List.Forall_impl; [|exact H]. intros o Ho. destruct o; exact Ho. }
  exists l. split; [exact E|]. intros c ip Hc Hip. unfold kappa_of. rewrite A6, updates_strains. simpl h_at. simpl ev_norm.
  pose proof (fold_max_zero (map (mm_Value d norm) (updated_strains c ip ops))) as Hm.
  split; [exact Hm|]. intros strain. set (k := fold_left Rmax (map (mm_Value d norm) (updated_strains c ip ops)) 0) in *.
  exists (Rmax (mm_Value d norm strain) k). split.
  - destruct Hm as (B0 & B1 & B2). pose proof (Rmax_l (mm_Value d norm strain) k). pose proof (Rmax_r (mm_Value d norm strain) k).
    split; [lra|]. split.
    + intros x [<-|Hx]; [lra|]. specialize (B1 x Hx). lra.
    + unfold Rmax. destruct (Rle_dec (mm_Value d norm strain) k) as [Hl|Hl].
      * destruct B2 as [B2|B2]; [left; exact B2|right; right; exact B2].
      * right. left. reflexivity.
  - unfold li_Stress, ev_Kappa. rewrite A1, A2, A3. rewrite read_ok by (rewrite ?A4, ?A5; assumption). simpl.
    rewrite std_max_spec, A6, updates_strains. reflexivity.
Qed.
Print Assumptions C42_history.

(** damage at every integration point only grows along a history, whatever is evaluated in between *)
Theorem C42_damage_irreversible : forall d rows cols elastic law norm ops more, List.Forall (addresses rows cols) (ops ++ more) ->
  (forall k k', 0 <= k <= k' -> Damage law k <= Damage law k') ->
  exists l l', li_run d (li_make elastic law (ev_make norm rows cols)) ops = Ok l /\ li_run d l more = Ok l' /\
  forall c ip, (c < rows)%nat -> (ip < cols)%nat -> kappa_of l c ip <= kappa_of l' c ip /\ Damage law (kappa_of l c ip) <= Damage law (kappa_of l' c ip).
Proof.
  intros d rows cols elastic law norm ops more H Hmono. apply Forall_app in H. destruct H as [H1 H2].
  destruct (run_spec d ops (li_make elastic law (ev_make norm rows cols))) as (l & E & A1 & A2 & A3 & A4 & A5 & A6).
  { eapply List.Forall_impl; [|exact H1]. intros o Ho. destruct o; exact Ho. }
  destruct (run_spec d more l) as (l' & E' & B1 & B2 & B3 & B4 & B5 & B6).
  { eapply List.Forall_impl; [|exact H2]. intros o Ho. destruct o; unfold in_range; rewrite A4, A5; exact Ho. }
  exists l, l'. split; [exact E|]. split; [exact E'|]. intros c ip Hc Hip. unfold kappa_of.
  assert (H0 : 0 <= h_at (ev_kappas (li_evolution l)) c ip).
  { rewrite A6. simpl h_at. destruct (fold_max_zero (updates_at d norm c ip ops)) as (A & _). exact A. }
  assert (Hle : h_at (ev_kappas (li_evolution l)) c ip <= h_at (ev_kappas (li_evolution l')) c ip).
  { rewrite B6. destruct (fold_max_spec (updates_at d (ev_norm (li_evolution l)) c ip more) _ H0) as (A & _). exact A. }
  split; [exact Hle|]. apply Hmono. lra.
Qed.
Print Assumptions C42_damage_irreversible.

(** evaluating stresses and tangents any number of times leaves the law as it was *)
Theorem C42_evaluation_is_pure : forall d l ops, (forall o, In o ops -> match o with OpUpdate _ _ _ => False | _ => True end) ->
  List.Forall (addresses (h_rows (ev_kappas (li_evolution l))) (h_cols (ev_kappas (li_evolution l)))) ops -> li_run d l ops = Ok l.
Proof.
  intros d l. induction ops as [|o ops IH]; intros Hn Hf; [reflexivity|]. inversion Hf as [|? ? Ho Hr]; subst.
  assert (Hstep : li_step d l o = Ok l).
  { pose proof (Hn o (or_introl eq_refl)) as Hno. destruct o as [s c ip|s c ip|s c ip]; [| |contradiction]; destruct Ho as [Hc Hi].
    - unfold li_step, li_Stress, ev_Kappa. rewrite read_ok by assumption. reflexivity.
    - unfold li_step, li_Tangent, ev_Kappa, ev_DkappaDstrain. rewrite read_ok by assumption. reflexivity. }
  cbn [li_run]. rewrite Hstep. cbn [obind]. apply IH; [intros o' Ho'; apply Hn; right; exact Ho'|exact Hr].
Qed.
Print Assumptions C42_evaluation_is_pure.

(** a call for an integration point without history data is undefined; the law made from material parameters has 1 x 1 *)
Theorem C42_unallocated_refuted : forall d m app s, li_Stress d (li_make_softening d m app) s 1 0 = UB /\ li_Update d (li_make_softening d m app) s 0 1 = UB.
Proof. intros. split; reflexivity. Qed.
Print Assumptions C42_unallocated_refuted.
Example C42_case : List.Forall (addresses 2 3) [OpStress (fun _ => 1) 0 0; OpUpdate (fun _ => 1) 1 2; OpTangent (fun _ => 0) 1 2].
Proof. repeat (apply List.Forall_cons; [split; lia|]). apply List.Forall_nil. Qed.

(** ** C43 *)
Theorem C43_undamaged : forall d E nu app ps s i, (1 <= d <= 3)%nat -> -1 < nu < 1/2 -> (i < Voigt_Dim d)%nat ->
  led_Stress d (led_make d E nu app ps) s 0 i = le_Stress d (le_make d E nu ps) s i.
Proof. exact led_zero. Qed.
Print Assumptions C43_undamaged.
Theorem C43_full : forall d E nu ps s omega i, (1 <= d <= 3)%nat -> -1 < nu < 1/2 -> (i < Voigt_Dim d)%nat ->
  led_Stress d (led_make d E nu FULL ps) s omega i = (1 - omega) * le_Stress d (le_make d E nu ps) s i.
Proof. exact led_full. Qed.
Print Assumptions C43_full.
(** DstressDstrain is the derivative of the stress; for the unilateral law away from zero volumetric strain *)
Theorem C43_dstrain : forall d E nu app ps x omega i, (1 <= d <= 3)%nat -> -1 < nu < 1/2 -> (i < Voigt_Dim d)%nat ->
  app = FULL \/ rsum d (fun j => x j) <> 0 ->
  let l := led_make d E nu app ps in differential (Voigt_Dim d) (fun s => led_Stress d l s omega i) x (led_DstressDstrain d l x omega i).
Proof.
  intros d E nu app ps x omega i Hd Hn Hi Hs l. apply led_dstrain; [exact Hi|]. destruct Hs as [Hs|Hs]; [left; exact Hs|right].
  intros H. apply Hs. unfold led_eV in H.
  destruct d as [|[|[|[|d]]]]; try lia; simpl in H |- *; try lra.
  destruct ps; simpl in H; [|lra].
  assert (Hf : 1 + nu / (nu - 1) <> 0).
  { replace (1 + nu / (nu - 1)) with ((2 * nu - 1) / (nu - 1)) by (field; lra). intros F. apply Rmult_integral in F.
    destruct F as [F|F]; [lra|]. apply (Rinv_neq_0_compat (nu - 1)); [lra|exact F]. }
  assert (Hp : (1 + nu / (nu - 1)) * (0 + x 0%nat + x 1%nat) = 0) by lra. apply Rmult_integral in Hp. tauto.
Qed.
Print Assumptions C43_dstrain.
Theorem C43_domega : forall d E nu app ps x omega i, let l := led_make d E nu app ps in
  is_derive (fun o => led_Stress d l x o i) omega (led_DstressDomega d l x omega i).
Proof. intros. apply led_domega. Qed.
Print Assumptions C43_domega.
(** unilateral damage in 3D: tension is fully damaged; in compression the mean stress is the undamaged one and the
    rest is scaled by (1 - omega) *)
Theorem C43_unilateral_3d : forall E nu ps s omega, -1 < nu < 1/2 ->
  let sigma := stress_tensor (led_Stress 3 (led_make 3 E nu UNILATERAL ps) s omega) in
  let sigma0 := stress_tensor (le_Stress 3 (le_make 3 E nu ps) s) in
  (0 <= trace (strain_tensor s) -> forall i j, (i < 3)%nat -> (j < 3)%nat -> sigma i j = (1 - omega) * sigma0 i j) /\
  (trace (strain_tensor s) < 0 -> forall i j, (i < 3)%nat -> (j < 3)%nat ->
     sigma i j = trace sigma0 / 3 * delta i j + (1 - omega) * (sigma0 i j - trace sigma0 / 3 * delta i j)).
Proof.
  intros E nu ps s omega Hn sigma sigma0.
  assert (Hst : forall i, (i < 6)%nat -> led_Stress 3 (led_make 3 E nu FULL ps) s omega i = (1 - omega) * le_Stress 3 (le_make 3 E nu ps) s i) by (intros; apply led_full; auto; lia).
  split; intros Ht i j Hi Hj.
  - assert (Hu : forall i, led_Stress 3 (led_make 3 E nu UNILATERAL ps) s omega i = led_Stress 3 (led_make 3 E nu FULL ps) s omega i).
    { intros k. unfold led_Stress; cbv zeta. change (led_eV 3 (led_make 3 E nu UNILATERAL ps) s) with (led_eV 3 (led_make 3 E nu FULL ps) s).
      unfold led_H; simpl mDamageApplication; cbv iota. rewrite led_eV_trace_3.
      destruct (rltb_spec (trace (strain_tensor s) / 3) 0) as [(_ & H')|(-> & _)]; [lra|reflexivity]. }
    unfold sigma, sigma0, stress_tensor. rewrite !Hu, !Hst by lia. idx i Hi; idx j Hj; unfold sym_tensor; ring.
  - assert (Hu : forall i, led_Stress 3 (led_make 3 E nu UNILATERAL ps) s omega i =
        led_Stress 3 (led_make 3 E nu FULL ps) s omega i + omega * (mD (led_make 3 E nu FULL ps) i * (m3K (led_make 3 E nu FULL ps) * (trace (strain_tensor s) / 3)))).
    { intros k. unfold led_Stress; cbv zeta. change (led_eV 3 (led_make 3 E nu UNILATERAL ps) s) with (led_eV 3 (led_make 3 E nu FULL ps) s).
      unfold led_H; simpl mDamageApplication; cbv iota. rewrite led_eV_trace_3.
      destruct (rltb_spec (trace (strain_tensor s) / 3) 0) as [(-> & _)|(_ & H')]; [|lra].
      change (mD (led_make 3 E nu UNILATERAL ps)) with (mD (led_make 3 E nu FULL ps)). change (m3K (led_make 3 E nu UNILATERAL ps)) with (m3K (led_make 3 E nu FULL ps)).
      change (m2G (led_make 3 E nu UNILATERAL ps)) with (m2G (led_make 3 E nu FULL ps)). change (mPinvDiag (led_make 3 E nu UNILATERAL ps)) with (mPinvDiag (led_make 3 E nu FULL ps)). ring. }
    assert (Hp : m3K (led_make 3 E nu FULL ps) * (trace (strain_tensor s) / 3) = trace sigma0 / 3).
    { unfold sigma0, trace, strain_tensor, stress_tensor, sym_tensor, le_Stress, mat_vec; cmp. field. lra. }
    rewrite Hp in Hu. unfold sigma. unfold stress_tensor at 1. rewrite !Hu, !Hst by lia. fold sigma0.
    generalize (trace sigma0 / 3). intros p.
    assert (H0 : forall a b, (a < 3)%nat -> (b < 3)%nat -> sigma0 a b = stress_tensor (le_Stress 3 (le_make 3 E nu ps) s) a b) by reflexivity.
    rewrite H0 by assumption. clear - Hi Hj. unfold stress_tensor. generalize (le_Stress 3 (le_make 3 E nu ps) s). intros q.
    idx i Hi; idx j Hj; unfold sym_tensor, delta; simpl; ring.
Qed.
Print Assumptions C43_unilateral_3d.
(** pure volumetric compression is not damaged at all *)
Theorem C43_volumetric_compression : forall E nu ps p omega s, -1 < nu < 1/2 -> 0 < p ->
  (forall i, s i = if Nat.ltb i 3 then - p else 0) -> forall i, (i < 6)%nat ->
  led_Stress 3 (led_make 3 E nu UNILATERAL ps) s omega i = le_Stress 3 (le_make 3 E nu ps) s i.
Proof.
  intros E nu ps p omega s Hn Hp Hs i Hi. rewrite <- (led_zero 3 E nu UNILATERAL ps s i) by (auto; lia).
  unfold led_Stress; cbv zeta. rewrite led_eV_trace_3.
  replace (trace (strain_tensor s) / 3) with (- p) by (unfold trace, strain_tensor, sym_tensor; rewrite !Hs; simpl; field).
  unfold led_H; simpl mDamageApplication; cbv iota. destruct (rltb_spec (- p) 0) as [(-> & _)|(_ & H')]; [|lra]. rewrite Hs.
  idx i Hi; simpl; ring.
Qed.
Print Assumptions C43_volumetric_compression.
(** "it corresponds to LinearElastic when you pass omega = 0" (class comment): not with the default plane states *)
Theorem C43_default_plane_state_refuted : exists E nu s, 0 < E /\ -1 < nu < 1/2 /\
  led_Stress 2 (led_make_default 2 E nu FULL) s 0 0%nat <> le_Stress 2 (le_make_default 2 E nu) s 0%nat.
Proof.
  exists 1, (1/4), (fun i => match i with 0%nat => 1 | _ => 0 end). split; [lra|]. split; [lra|].
  unfold led_make_default. rewrite led_zero by (try lia; try lra; simpl; lia). unfold le_make_default, le_Stress, mat_vec; cmp. lra.
Qed.
Print Assumptions C43_default_plane_state_refuted.
Example C43_case : led_Stress 3 (led_make 3 30000 0.2 UNILATERAL PLANE_STRAIN) (fun i => if Nat.ltb i 3 then - 1 else 0) 0.9 0%nat
  = le_Stress 3 (le_make 3 30000 0.2 PLANE_STRAIN) (fun i => if Nat.ltb i 3 then - 1 else 0) 0%nat.
Proof. apply (C43_volumetric_compression _ _ _ 1); try lra; try lia. reflexivity. Qed.

(** ** C44 *)
(** the strain of a uniaxial stress state with longitudinal strain [e] in d dimensions *)
Definition uniaxial (d : nat) (nu e : R) (s : nat -> R) : Prop :=
  s 0%nat = e /\ (d <> 1%nat -> s 1%nat = - nu * e) /\ (d = 2%nat -> s 2%nat = 0) /\
  (d = 3%nat -> s 2%nat = - nu * e /\ s 3%nat = 0 /\ s 4%nat = 0 /\ s 5%nat = 0).
Theorem C44_uniaxial : forall d nu k ps e s, (1 <= d <= 3)%nat -> -1 < nu < 1/2 -> 1 <= k -> (d = 2%nat -> ps = PLANE_STRESS) -> 0 <= e ->
  (uniaxial d nu e s -> mm_Value d (mm_make nu k ps) s = e) /\
  (uniaxial d nu (- (k * e)) s -> mm_Value d (mm_make nu k ps) s = e).
Proof.
  intros d nu k ps e s Hd Hn Hk Hps He. split; intros (A & B & C & D).
  - rewrite (uniaxial_value nu k ps Hn Hk d s e Hps Hd A B C D). destruct (Rle_dec 0 e); lra.
  - rewrite (uniaxial_value nu k ps Hn Hk d s _ Hps Hd A B C D).
    destruct (Rle_dec 0 (- (k * e))) as [H|H]; [assert (e = 0) by nra; subst; lra|field; lra].
Qed.
Print Assumptions C44_uniaxial.
Theorem C44_nonnegative_homogeneous : forall d nu k ps s, -1 < nu < 1/2 -> 1 <= k ->
  let n := mm_make nu k ps in 0 <= mm_Value d n s /\ forall c, 0 <= c -> mm_Value d n (fun i => c * s i) = c * mm_Value d n s.
Proof. intros d nu k ps s Hn Hk n. split; [apply Value_nonneg; assumption|intros; apply Value_scal; assumption]. Qed.
Print Assumptions C44_nonnegative_homogeneous.
(** Derivative is the gradient wherever the norm has one; a point has no gradient exactly when the norms of s and -s both
    vanish, and for k > 1 the only such point is the origin *)
Theorem C44_gradient : forall d nu k ps s, (1 <= d <= 3)%nat -> -1 < nu < 1/2 -> 1 <= k ->
  let n := mm_make nu k ps in
  (forall g, differential (Voigt_Dim d) (mm_Value d n) s g -> differential (Voigt_Dim d) (mm_Value d n) s (mm_Derivative d n s)) /\
  (mm_Value d n s + mm_Value d n (fun i => - s i) <> 0 -> differential (Voigt_Dim d) (mm_Value d n) s (mm_Derivative d n s)) /\
  (1 < k -> (exists i, (i < Voigt_Dim d)%nat /\ s i <> 0) -> differential (Voigt_Dim d) (mm_Value d n) s (mm_Derivative d n s)).
Proof.
  intros d nu k ps s Hd Hn Hk n. assert (Hpos : forall s, 0 <= mm_Value d n s) by (intros; apply Value_nonneg; assumption).
  split; [|split].
  - intros g Hg. apply gradient; auto. pose proof (Hpos s). pose proof (Hpos (fun i => - s i)).
    destruct (Req_dec (mm_Value d n s + mm_Value d n (fun i => - s i)) 0) as [E|E]; [|fold n; lra].
    exfalso. exact (not_differentiable nu k ps Hn Hk d s Hd E g Hg).
  - intros H. apply gradient; auto. pose proof (Hpos s). pose proof (Hpos (fun i => - s i)). fold n. lra.
  - intros Hk1 H. apply gradient; auto. apply positive_at_nonzero; assumption.
Qed.
Print Assumptions C44_gradient.
(** the 3D norm does not depend on the coordinate system *)
Theorem C44_frame_invariance : forall nu k ps Q v w, orthogonal Q -> rotated Q v w ->
  mm_Value 3 (mm_make nu k ps) w = mm_Value 3 (mm_make nu k ps) v.
Proof. intros nu k ps Q v w. apply Value_rotated. Qed.
Print Assumptions C44_frame_invariance.
(** a damage law made from plane stress material parameters measures strains with the plane strain norm: uniaxial
    tension of size 1 does not have norm 1 *)
Theorem C44_softening_plane_stress_refuted : exists m s, s_planeState m = PLANE_STRESS /\ uniaxial 2 (s_nu m) 1 s /\ -1 < s_nu m < 1/2 /\ 1 <= s_fc m / s_ft m /\
  mm_Value 2 (mm_make_softening m PLANE_STRESS) s = 1 /\
  mm_Value 2 (ev_norm (li_evolution (li_make_softening 2 m FULL))) s <> 1.
Proof.
  exists {| s_E := 30000; s_nu := 1/4; s_ft := 4; s_fc := 4; s_gf := 0.1; s_c := 1; s_fMin := 0.04; s_planeState := PLANE_STRESS |},
         (fun i => match i with 0%nat => 1 | 1%nat => - (1/4) * 1 | _ => 0 end).
  assert (Hu : uniaxial 2 (1/4) 1 (fun i => match i with 0%nat => 1 | 1%nat => - (1/4) * 1 | _ => 0 end)) by (repeat split; auto; discriminate).
  split; [reflexivity|]. split; [exact Hu|]. simpl s_nu. simpl s_fc. simpl s_ft. split; [lra|]. split; [lra|]. split.
  - unfold mm_make_softening; simpl s_nu; simpl s_fc; simpl s_ft. refine (proj1 (C44_uniaxial 2 (1/4) (4/4) PLANE_STRESS 1 _ _ _ _ _ _) Hu); [lia|lra|lra|reflexivity|lra].
  - simpl. unfold mm_Value. rewrite mm_A_Q. unfold mm_Q, J2, I1, mm_make_softening, mm_make. simpl. intros H.
    match type of H with _ + sqrt ?q = _ => assert (Hq : q = 21 / 25) by (rewrite half; field); rewrite Hq in H end.
    assert (Hs : sqrt (21 / 25) = 1) by lra. assert (Hs2 : sqrt (21/25) * sqrt (21/25) = 1) by (rewrite Hs; ring). rewrite sqrt_sqrt in Hs2; lra.
Qed.
Print Assumptions C44_softening_plane_stress_refuted.

(** ** C45 *)
Theorem C45_characteristic_polynomial : forall v x,
  (forall i j, (i < 3)%nat -> (j < 3)%nat -> ToTensor v i j = strain_tensor v i j) /\
  charpoly (strain_tensor v) x = x * x * x - I1 v * x * x + I2 v * x - I3 v /\
  I1 v = trace (strain_tensor v) /\ I3 v = det3 (strain_tensor v).
Proof.
  intros v x. split; [apply to_tensor_spec|]. split; [apply charpoly_invariants|]. split; [reflexivity|].
  pose proof (charpoly_invariants v 0) as H. unfold charpoly in H.
  unfold I3, det3, strain_tensor, sym_tensor. rewrite quarter. field.
Qed.
Print Assumptions C45_characteristic_polynomial.
(** J2: of the deviator, which is trace free and differs from the strain by a multiple of the identity *)
Theorem C45_deviator : forall v x,
  (forall i j, (i < 3)%nat -> (j < 3)%nat -> strain_tensor (Deviatoric v) i j = strain_tensor v i j - trace (strain_tensor v) / 3 * delta i j) /\
  trace (strain_tensor (Deviatoric v)) = 0 /\
  charpoly (strain_tensor (Deviatoric v)) x = x * x * x - J2 v * x - det3 (strain_tensor (Deviatoric v)) /\
  J2 v = I1 v * I1 v / 3 - I2 v /\ 0 <= J2 v /\
  (J2 v = 0 <-> forall i j, (i < 3)%nat -> (j < 3)%nat -> strain_tensor (Deviatoric v) i j = 0).
Proof.
  intros v x.
  assert (Hdev : forall i j, (i < 3)%nat -> (j < 3)%nat -> strain_tensor (Deviatoric v) i j = strain_tensor v i j - trace (strain_tensor v) / 3 * delta i j).
  { intros i j Hi Hj. idx i Hi; idx j Hj; unfold strain_tensor, Deviatoric, sym_tensor, trace, delta, I1; simpl; field. }
  split; [exact Hdev|].
  split; [unfold trace, strain_tensor, sym_tensor, Deviatoric, I1; simpl; field|]. split; [apply charpoly_deviator|].
  split; [apply J2_I|]. split; [apply J2_nonneg|]. split.
  - intros H i j Hi Hj. apply J2_zero in H. destruct H as (A & B & C & D & F).
    idx i Hi; idx j Hj; unfold strain_tensor, Deviatoric, sym_tensor, I1; simpl; lra.
  - intros H. apply J2_zero.
    pose proof (H 0 0 ltac:(lia) ltac:(lia))%nat as H00. pose proof (H 1 1 ltac:(lia) ltac:(lia))%nat as H11. pose proof (H 2 2 ltac:(lia) ltac:(lia))%nat as H22.
    pose proof (H 0 1 ltac:(lia) ltac:(lia))%nat as H01. pose proof (H 0 2 ltac:(lia) ltac:(lia))%nat as H02. pose proof (H 1 2 ltac:(lia) ltac:(lia))%nat as H12.
    unfold strain_tensor, Deviatoric, sym_tensor, I1 in *; simpl in *. repeat split; lra.
Qed.
Print Assumptions C45_deviator.
(** none of them depends on the coordinate system *)
Theorem C45_frame_invariance : forall Q v w, orthogonal Q -> rotated Q v w -> I1 w = I1 v /\ I2 w = I2 v /\ I3 w = I3 v /\ J2 w = J2 v.
Proof. intros Q v w HQ HR. destruct (invariants_rotated Q v w HQ HR) as (A & B & C). rewrite !J2_I, A, B. auto. Qed.
Print Assumptions C45_frame_invariance.
Example C45_case : orthogonal (fun i j => match i, j with 0%nat, 1%nat => -1 | 1%nat, 0%nat => 1 | 2%nat, 2%nat => 1 | _, _ => 0 end).
Proof. intros i j Hi Hj. idx i Hi; idx j Hj; unfold mul3, tr3, delta; simpl; ring. Qed.

(** ** C75: the tangent of the damage model *)
(** the stress component i of the law as a function of the strain, when history data exist for (c, ip) *)
Definition stress_component (d : nat) (l : LocalIsotropicDamage) (c ip i : nat) (s : nat -> R) : R :=
  match li_Stress d l s c ip with Ok v => v i | _ => 0 end.
Theorem C75_tangent : forall d E nu k app ps psn law h c ip s i,
  (1 <= d <= 3)%nat -> -1 < nu < 1/2 -> 1 <= k -> 0 <= h_at h c ip -> (c < h_rows h)%nat -> (ip < h_cols h)%nat -> (i < Voigt_Dim d)%nat ->
  let n := mm_make nu k psn in
  let l := li_make (led_make d E nu app ps) law {| ev_norm := n; ev_kappas := h |} in
  app = FULL \/ rsum d (fun j => s j) <> 0 ->
  mm_Value d n s < h_at h c ip \/
    (h_at h c ip < mm_Value d n s /\ is_derive (Damage law) (mm_Value d n s) (Derivative law (mm_Value d n s))) ->
  exists T, li_Tangent d l s c ip = Ok T /\ differential (Voigt_Dim d) (stress_component d l c ip i) s (T i).
Proof.
  intros d E nu k app ps psn law h c ip s i Hd Hn Hk H0 Hc Hip Hi n l Hs Hcase.
  assert (Hs' : app = FULL \/ led_eV d (led_make d E nu app ps) s <> 0).
  { destruct Hs as [Hs|Hs]; [left; exact Hs|right]. intros H. apply Hs. unfold led_eV in H.
    destruct d as [|[|[|[|d]]]]; try lia; simpl in H |- *; try lra. destruct ps; simpl in H; [|lra].
    assert (Hf : 1 + nu / (nu - 1) <> 0).
    { replace (1 + nu / (nu - 1)) with ((2 * nu - 1) / (nu - 1)) by (field; lra). intros F. apply Rmult_integral in F.
      destruct F as [F|F]; [lra|]. apply (Rinv_neq_0_compat (nu - 1)); [lra|exact F]. }
    assert (Hp : (1 + nu / (nu - 1)) * (0 + s 0%nat + s 1%nat) = 0) by lra. apply Rmult_integral in Hp. tauto. }
  destruct Hcase as [Hu|[Hu Hw]].
  - exact (tangent_unloading d E nu k app ps psn law h c ip Hn Hk Hc Hip s i Hi Hs' Hu).
  - assert (Hp : 0 < mm_Value d n s + mm_Value d n (fun j => - s j)).
    { pose proof (Value_nonneg nu k psn Hn Hk d (fun j => - s j)). fold n in H. lra. }
    exact (tangent_loading d E nu k app ps psn law h c ip Hd Hn Hk Hc Hip s i Hi Hs' Hu Hp Hw).
Qed.
Print Assumptions C75_tangent.
(** at a kink of the norm, of the volumetric split, of the damage law, or with the strain norm equal to the history
    variable, the stress need not have a derivative; everywhere else the theorem applies: *)
Example C75_case : let m := DefaultConcrete in let law := DamageLawExponential_softening m in
  let h := {| h_rows := 1; h_cols := 1; h_at := fun _ _ => 0 |} in let n := mm_make 0.2 10 PLANE_STRAIN in
  let s := fun i => match i with 0%nat => 1 | _ => 0 end in
  h_at h 0%nat 0%nat < mm_Value 1 n s /\ is_derive (Damage law) (mm_Value 1 n s) (Derivative law (mm_Value 1 n s)).
Proof.
  intros m law h n s.
  assert (Hv : mm_Value 1 n s = 1).
  { refine (proj1 (C44_uniaxial 1 0.2 10 PLANE_STRAIN 1 s _ _ _ _ _) _); [lia|lra|lra|discriminate|lra|].
    split; [reflexivity|]. split; [congruence|]. split; discriminate. }
  rewrite Hv. split; [simpl; lra|].
  destruct (C41_softening_parameters m) as ((_ & _ & _ & _ & H & _) & _); simpl; try lra. apply H. simpl. lra.
Qed.
