(** C80: the Hessian0 of an integrand is the derivative of its Gradient; virtual work.
    C81: the history of the gradient damage integrand.
    C82: loads and masses. *)
From Coq Require Import List Arith Bool Reals Lra Lia FunctionalExtensionality.
From Coquelicot Require Import Coquelicot.
From Verif Require Import RSum Outcome AdaptiveModel AdaptiveProofs ElasticModel ElasticSpec ElasticProofs NormProofs DamageProofs PropElastic IntegrandModel IntegrandProofs
  CellModel CellProofs.
Import ListNotations.
Local Open Scope R_scope.

(** * C80 *)
(** component [a] of a vector that a call returned *)
Definition component (o : outcome (nat -> R)) (a : nat) : R := match o with Ok x => x a | _ => 0 end.

(** a law that returns stress and tangent for every strain *)
Lemma momentum_tangent d (stress : (nat -> R) -> outcome (nat -> R)) (tangent : (nat -> R) -> outcome (nat -> nat -> R)) cols B u T :
  (forall s, exists x, stress s = Ok x) -> tangent (strain_of cols B u) = Ok T ->
  (forall i, (i < Voigt_Dim d)%nat -> differential (Voigt_Dim d) (fun s => component (stress s) i) (strain_of cols B u) (T i)) ->
  exists H, mb_Hessian0 d tangent cols B u = Ok H /\
    forall a, differential cols (fun w => component (mb_Gradient d stress cols B w) a) u (H a).
Proof.
  intros Hs Ht HT. unfold mb_Hessian0. rewrite Ht. cbn [omap obind]. eexists. split; [reflexivity|]. intros a p.
  apply (is_derive_ext (fun t => rsum (Voigt_Dim d) (fun i => B i a * component (stress (fun j => strain_of cols B u j + t * strain_of cols B p j)) i))).
  { intros t. unfold mb_Gradient, strain_of. rewrite mat_vec_shift.
    destruct (Hs (fun i => mat_vec cols B u i + t * mat_vec cols B p i)) as (x & ->). reflexivity. }
  replace (rsum cols _) with (rsum (Voigt_Dim d) (fun i => B i a * rsum (Voigt_Dim d) (fun j => T i j * strain_of cols B p j))).
  - apply is_derive_rsum. intros i Hi. apply (is_derive_scal (fun t => component (stress (fun j => strain_of cols B u j + t * strain_of cols B p j)) i)).
    apply (HT i Hi).
  - rewrite rsum_mat. unfold strain_of at 1, mat_vec at 1. rewrite rsum_mat. reflexivity.
Qed.

(** MomentumBalance with LinearElastic: Hessian0 is the derivative of Gradient, symmetric and positive semidefinite, for
    every B matrix and all node values *)
Theorem C80_linear_elastic : forall d E nu ps cols B u, (1 <= d <= 3)%nat -> 0 < E -> -1 < nu < 1/2 ->
  let l := le_make d E nu ps in
  let grad := mb_Gradient d (fun s => Ok (le_Stress d l s)) cols B in
  exists H, mb_Hessian0 d (fun s => Ok (le_Tangent l s)) cols B u = Ok H /\
    (forall a, differential cols (fun w => component (grad w) a) u (H a)) /\
    (forall a b, H a b = H b a) /\
    (forall v, 0 <= rsum cols (fun a => v a * rsum cols (fun b => H a b * v b))).
Proof.
  intros d E nu ps cols B u Hd HE Hn l grad.
  destruct (momentum_tangent d (fun s => Ok (le_Stress d l s)) (fun s => Ok (le_Tangent l s)) cols B u (le_C l)) as (H & E1 & D).
  - eauto.
  - reflexivity.
  - intros i Hi. apply le_tangent_is_derivative.
  - exists H. split; [auto|]. split; [auto|].
    unfold mb_Hessian0 in E1. cbn [omap obind] in E1. injection E1 as <-. split.
    + intros a b. unfold mat_mat, tmat_mat, le_Tangent.
      rewrite (rsum_ext _ _ (fun j => rsum (Voigt_Dim d) (fun i => B i a * le_C l i j * B j b)))
        by (intros; rewrite rsum_scal_r; reflexivity).
      rewrite rsum_swap.
      apply rsum_ext. intros i Hi. rewrite <- rsum_scal_r. apply rsum_ext. intros j Hj.
      unfold l, le_make. cbn [le_C]. rewrite (C_symmetric d E nu ps i j Hi Hj). ring.
    + intros v.
      assert (X: rsum cols (fun a => v a * rsum cols (fun b => mat_mat (Voigt_Dim d) (tmat_mat (Voigt_Dim d) B (le_Tangent l (strain_of cols B u))) B a b * v b))
                 = rsum (Voigt_Dim d) (fun i => strain_of cols B v i * le_Stress d l (strain_of cols B v) i)).
      { unfold mat_mat, tmat_mat, le_Tangent.
        rewrite (rsum_ext cols _ (fun a => rsum (Voigt_Dim d) (fun i => le_Stress d l (strain_of cols B v) i * (B i a * v a)))).
        - rewrite rsum_swap. apply rsum_ext. intros i Hi. rewrite rsum_scal. unfold strain_of at 2, mat_vec. ring.
        - intros a Ha. rewrite <- (rsum_mat (Voigt_Dim d) cols). 
          rewrite (rsum_ext _ (fun i => rsum (Voigt_Dim d) (fun i0 => B i0 a * le_C l i0 i) * rsum cols (fun b => B i b * v b))
                     (fun i => rsum (Voigt_Dim d) (fun i0 => B i0 a * le_C l i0 i) * strain_of cols B v i)) by reflexivity.
          rewrite <- (rsum_mat (Voigt_Dim d) (Voigt_Dim d)). rewrite <- rsum_scal. apply rsum_ext. intros i Hi.
          unfold le_Stress, mat_vec. ring. }
      refine (Rle_trans _ _ _ _ (Req_le _ _ (eq_sym X))). clear X.
      destruct (all_zero_or (Voigt_Dim d) (strain_of cols B v)) as [Z|Z].
      * rewrite rsum_zero; [lra|]. intros i Hi. rewrite Z by auto. ring.
      * apply Rlt_le. apply C40_positive_definite; auto.
Qed.
Print Assumptions C80_linear_elastic.

(** MomentumBalance with the local damage law: at every state that is not a kink of the law (C75_tangent) *)
Theorem C80_local_damage : forall d E nu k app ps psn law h c ip cols B u,
  (1 <= d <= 3)%nat -> -1 < nu < 1/2 -> 1 <= k -> 0 <= h_at h c ip -> (c < h_rows h)%nat -> (ip < h_cols h)%nat ->
  let n := mm_make nu k psn in
  let l := li_make (led_make d E nu app ps) law {| ev_norm := n; ev_kappas := h |} in
  let s := strain_of cols B u in
  app = FULL \/ rsum d (fun j => s j) <> 0 ->
  mm_Value d n s < h_at h c ip \/
    (h_at h c ip < mm_Value d n s /\ is_derive (Damage law) (mm_Value d n s) (Derivative law (mm_Value d n s))) ->
  exists H, mb_Hessian0 d (fun s => li_Tangent d l s c ip) cols B u = Ok H /\
    forall a, differential cols (fun w => component (mb_Gradient d (fun s => li_Stress d l s c ip) cols B w) a) u (H a).
Proof.
  intros d E nu k app ps psn law h c ip cols B u Hd Hn Hk H0 Hc Hip n l s Hs Hcase.
  assert (V: (0 < Voigt_Dim d)%nat) by (destruct d as [|[|[|[|]]]]; cbn [Voigt_Dim]; lia).
  destruct (C75_tangent d E nu k app ps psn law h c ip s 0 Hd Hn Hk H0 Hc Hip V Hs Hcase) as (T & ET & _). fold n l in ET.
  apply (momentum_tangent d (fun s => li_Stress d l s c ip) (fun s => li_Tangent d l s c ip) cols B u T).
  - intros s'. eexists. apply (DamageProofs.stress_eq d E nu k app ps psn law h c ip); assumption.
  - exact ET.
  - intros i Hi. destruct (C75_tangent d E nu k app ps psn law h c ip s i Hd Hn Hk H0 Hc Hip Hi Hs Hcase) as (T' & ET' & D). fold n l in ET'.
    assert (T' = T) by congruence. subst T'. exact D.
Qed.
Print Assumptions C80_local_damage.

(** the interaction laws *)
Theorem C80_interaction : forall r eta, 0 < eta ->
  let i := Interaction_Decreasing r eta in
  (forall w, is_derive (iFactor i) w (iDerivative i w)) /\
  (forall w, is_derive (iFactor Interaction_Constant) w (iDerivative Interaction_Constant w)) /\
  iFactor i 0 = 1 /\ iFactor i 1 = r /\
  (r <= 1 -> forall w w', w <= w' -> iFactor i w' <= iFactor i w).
Proof.
  intros r eta He i.
  assert (Ex: exp (- eta) < 1) by (rewrite <- exp_0; apply exp_increasing; lra).
  split; [|split; [|split; [|split]]].
  - intros w. unfold i, Interaction_Decreasing. cbn [iFactor iDerivative]. auto_derive; [auto|]. field. lra.
  - intros w. cbn [Interaction_Constant iFactor iDerivative]. apply (is_derive_const (1:R)).
  - unfold i, Interaction_Decreasing. cbn [iFactor]. rewrite Rmult_0_r, exp_0. field. lra.
  - unfold i, Interaction_Decreasing. cbn [iFactor]. rewrite Rmult_1_r. field. lra.
  - intros Hr w w' Hw. unfold i, Interaction_Decreasing. cbn [iFactor]. unfold Rdiv. apply Rmult_le_compat_r.
    + apply Rlt_le, Rinv_0_lt_compat. lra.
    + assert (exp (- eta * w') <= exp (- eta * w)) by (apply exp_le'; nra). nra.
Qed.
Print Assumptions C80_interaction.

(** the node values of both dof types move in the directions [p] and [q] *)
Definition moved_values (v : view) (p q : nat -> R) (t : R) : view :=
  {| v_cols := v_cols v; v_Bdisp := v_Bdisp v; v_disp := fun i => v_disp v i + t * p i;
     v_ecols := v_ecols v; v_Neeq := v_Neeq v; v_Beeq := v_Beeq v; v_eeq := fun i => v_eeq v i + t * q i;
     v_cell := v_cell v; v_ip := v_ip v |}.
Definition disp_part (o : outcome ((nat -> R) * (nat -> R))) (a : nat) : R := match o with Ok x => fst x a | _ => 0 end.
Definition eeq_part (o : outcome ((nat -> R) * (nat -> R))) (a : nat) : R := match o with Ok x => snd x a | _ => 0 end.

(** GradientDamage: all four blocks of Hessian0 are the partial derivatives of Gradient, wherever the parts of the model
    have derivatives: away from zero volumetric strain (unilateral damage), from zero strain norm, from
    eeq = kappa and from the kinks of the damage law (C41, C43, C44). *)
Theorem C80_gradient_damage : forall d E nu k app ps psn law inter c h v,
  (1 <= d <= 3)%nat -> -1 < nu < 1/2 -> 1 <= k -> (v_cell v < h_rows h)%nat -> (v_ip v < h_cols h)%nat ->
  let n := mm_make nu k psn in
  let g := {| gd_c := c; gd_elastic := led_make d E nu app ps; gd_law := law; gd_norm := n; gd_inter := inter; gd_kappas := h |} in
  let s := disp_strain v in let k0 := h_at h (v_cell v) (v_ip v) in let eeq := eeq_of v in
  app = FULL \/ rsum d (fun j => s j) <> 0 ->
  mm_Value d n s + mm_Value d n (fun i => - s i) <> 0 ->
  eeq < k0 \/ (k0 < eeq /\ is_derive (Damage law) eeq (Derivative law eeq)) ->
  (forall w, is_derive (iFactor inter) w (iDerivative inter w)) ->
  exists H, gd_Hessian0 d g v = Ok H /\ forall p q a,
    is_derive (fun t => disp_part (gd_Gradient d g (moved_values v p q t)) a) 0
      (rsum (v_cols v) (fun b => b_dd H a b * p b) + rsum (v_ecols v) (fun b => b_de H a b * q b)) /\
    is_derive (fun t => eeq_part (gd_Gradient d g (moved_values v p q t)) a) 0
      (rsum (v_cols v) (fun b => b_ed H a b * p b) + rsum (v_ecols v) (fun b => b_ee H a b * q b)).
Proof.
  intros d E nu k app ps psn law inter c h v Hd Hn Hk Hc Hip n g s k0 eeq Hs Hz Hcase Hint.
  assert (HR: h_read h (v_cell v) (v_ip v) = Ok k0).
  { unfold h_read. apply Nat.ltb_lt in Hc. apply Nat.ltb_lt in Hip. rewrite Hc, Hip. reflexivity. }
  unfold gd_Hessian0, gd_DkappaDeeq, gd_Kappa. change (gd_kappas g) with h. rewrite HR. cbn [omap obind].
  eexists. split; [reflexivity|]. intros p q a. cbn [b_dd b_de b_ed b_ee].
  set (V := Voigt_Dim d). set (B := v_Bdisp v). set (N := v_Neeq v). set (Be := v_Beeq v).
  set (s' := mat_vec (v_cols v) B p). set (e' := rsum (v_ecols v) (fun b => N b * q b)). set (eg' := mat_vec (v_ecols v) Be q).
  set (kap := std_max k0 (eeq_of v)). set (om := Damage (gd_law g) kap). set (dO := Derivative (gd_law g) kap).
  set (dK := if rleb k0 (eeq_of v) then 1 else 0). fold s.
  assert (Es: forall t, disp_strain (moved_values v p q t) = fun i => s i + t * s' i).
  { intros t. unfold disp_strain, moved_values. cbn [v_cols v_Bdisp v_disp]. apply mat_vec_shift. }
  assert (Ee: forall t, eeq_of (moved_values v p q t) = eeq + t * e').
  { intros t. unfold eeq_of, moved_values. cbn [v_ecols v_Neeq v_eeq]. fold N.
    unfold eeq, eeq_of, e'. fold N. rewrite <- rsum_scal, <- rsum_plus. apply rsum_ext. intros. ring. }
  assert (Eg: forall t, eeq_gradient (moved_values v p q t) = fun i => eeq_gradient v i + t * eg' i).
  { intros t. unfold eeq_gradient, moved_values. cbn [v_ecols v_Beeq v_eeq]. apply mat_vec_shift. }
  assert (Ht: forall t, gd_Kappa g (moved_values v p q t) = Ok (std_max k0 (eeq + t * e'))).
  { intros t. unfold gd_Kappa. change (gd_kappas g) with h. cbn [moved_values v_cell v_ip]. rewrite HR. cbn [omap obind].
    change (omap (fun k => std_max k (eeq_of (moved_values v p q t))) (Ok k0)) with (Ok (std_max k0 (eeq_of (moved_values v p q t)))).
    rewrite Ee. reflexivity. }
  assert (Kap: kap = eeq \/ eeq < k0).
  { destruct Hcase as [|(Hl & _)]; [auto|left]. unfold kap, std_max. fold eeq. destruct (rltb_spec k0 eeq) as [(-> & _)|(_ & F)]; [auto|lra]. }
  assert (Dom: is_derive (fun t => Damage law (std_max k0 (eeq + t * e'))) 0 (dO * dK * e')).
  { apply of_kappa_derive. fold eeq. destruct Hcase as [|(Hl & D)]; [auto|right]. split; auto.
    unfold dO. destruct Kap as [->|]; [exact D|lra]. }
  set (omf := fun t => Damage law (std_max k0 (eeq + t * e'))) in *.
  assert (Om0: omf 0 = om) by (unfold omf, om, kap; rewrite Rmult_0_l, Rplus_0_r; reflexivity).
  assert (Dfac: is_derive (fun t => iFactor inter (omf t)) 0 (iDerivative inter om * dO * dK * e')).
  { replace (iDerivative inter om * dO * dK * e') with (scal (dO * dK * e') (iDerivative inter om)) by (unfold scal; simpl; unfold mult; simpl; ring).
    apply (is_derive_comp (iFactor inter) omf); [rewrite Om0; apply Hint|exact Dom]. }
  split.
  - apply (is_derive_ext (fun t => rsum V (fun i => B i a * led_Stress d (led_make d E nu app ps) (fun j => s j + t * s' j) (omf t) i))).
    { intros t. unfold gd_Gradient. rewrite Ht. cbn [omap obind disp_part fst]. rewrite Es. reflexivity. }
    set (l := led_make d E nu app ps).
    replace (rsum (v_cols v) _ + rsum (v_ecols v) _) with
      (rsum V (fun i => B i a * (rsum V (fun j => led_DstressDstrain d l s (omf 0) i j * s' j) + led_DstressDomega d l s (omf 0) i * (dO * dK * e')))).
    + apply is_derive_rsum. intros i Hi.
      apply (is_derive_scal (fun t => led_Stress d l (fun j => s j + t * s' j) (omf t) i)).
      apply stress_derive; auto.
    + rewrite Om0. rewrite (rsum_ext V _ (fun i => B i a * rsum V (fun j => led_DstressDstrain d l s om i j * s' j) +
                         (B i a * (led_DstressDomega d l s om i * dO * dK)) * e')) by (intros; ring).
      rewrite rsum_plus, rsum_mat, rsum_scal_r. f_equal.
      * unfold s', mat_vec. rewrite rsum_mat. reflexivity.
      * unfold e'. rewrite <- rsum_scal. apply rsum_ext. intros b Hb. unfold tmat_vec. fold V. change (gd_elastic g) with l. ring.
  - assert (Dn: is_derive (fun t => mm_Value d n (fun j => s j + t * s' j)) 0 (rsum V (fun j => mm_Derivative d n s j * s' j))).
    { apply (proj1 (proj2 (C44_gradient d nu k psn s Hd Hn Hk)) Hz). }
    apply (is_derive_ext (fun t => N a * ((eeq + t * e') - mm_Value d n (fun j => s j + t * s' j)) +
             rsum d (fun i => Be i a * (c * (iFactor inter (omf t) * (eeq_gradient v i + t * eg' i)))))).
    { intros t. unfold gd_Gradient. rewrite Ht. cbn [omap obind eeq_part snd]. rewrite Es, Ee, Eg. unfold tmat_vec.
      cbn [moved_values v_Neeq v_Beeq]. f_equal. apply rsum_ext. intros i Hi. change (gd_c g) with c. change (gd_inter g) with inter.
      unfold omf. change (gd_law g) with law. fold Be. ring. }
    replace (rsum (v_cols v) _ + rsum (v_ecols v) _) with
      (N a * (e' - rsum V (fun j => mm_Derivative d n s j * s' j)) +
       rsum d (fun i => Be i a * (c * (iDerivative inter om * dO * dK * e' * eeq_gradient v i + iFactor inter om * eg' i)))).
    + apply (is_derive_plus (fun t => N a * ((eeq + t * e') - mm_Value d n (fun j => s j + t * s' j)))).
      * apply (is_derive_scal (fun t => (eeq + t * e') - mm_Value d n (fun j => s j + t * s' j))).
        apply (is_derive_minus (fun t => eeq + t * e')); [apply affine_derive|exact Dn].
      * apply is_derive_rsum. intros i Hi.
        apply (is_derive_scal (fun t => c * (iFactor inter (omf t) * (eeq_gradient v i + t * eg' i)))).
        apply (is_derive_scal (fun t => iFactor inter (omf t) * (eeq_gradient v i + t * eg' i))).
        evar (r : R). replace (_ + _) with r.
        -- apply (is_derive_mult (fun t => iFactor inter (omf t)) (fun t => eeq_gradient v i + t * eg' i)); [exact Dfac|apply affine_derive|].
           intros. apply Rmult_comm.
        -- unfold r, plus, mult. simpl. rewrite Om0. match goal with |- ?x = ?y => change (@eq R x y) end. ring.
    + rewrite (rsum_ext d _ (fun i => (Be i a * (c * eeq_gradient v i * iDerivative inter om * dO * dK)) * e' + (c * iFactor inter om * Be i a) * eg' i))
        by (intros; ring).
      rewrite rsum_plus, rsum_scal_r. unfold eg', mat_vec. rewrite rsum_mat. 
      rewrite (rsum_ext (v_cols v) _ (fun b => - N a * (rsum V (fun j => mm_Derivative d n s j * B j b) * p b))).
      2:{ intros b Hb. rewrite <- Rmult_assoc, <- rsum_scal. f_equal. apply rsum_ext. intros j Hj. change (gd_norm g) with n. fold N B. ring. }
      rewrite rsum_scal, <- (rsum_mat V (v_cols v)). fold (mat_vec (v_cols v) B p). 
      change (fun i => mm_Derivative d n s i * rsum (v_cols v) (fun b => B i b * p b)) with (fun i => mm_Derivative d n s i * s' i).
      rewrite (rsum_ext (v_ecols v) (fun b => (N a * N b + _ + _) * q b)
        (fun b => (N a + tmat_vec d Be (fun i => c * eeq_gradient v i * iDerivative inter om * dO * dK) a) * (N b * q b) +
                  rsum d (fun i => c * iFactor inter om * Be i a * Be i b) * q b)).
      2:{ intros b Hb. unfold tmat_mat. change (gd_c g) with c. change (gd_inter g) with inter. ring. }
      rewrite rsum_plus, rsum_scal. fold e'. unfold tmat_vec. ring.
Qed.
Print Assumptions C80_gradient_damage.

(** virtual work: the internal forces do on any virtual displacement the work that the stresses do on its strains *)
Theorem C80_virtual_work : forall d stress cols B u sigma, stress (strain_of cols B u) = Ok sigma ->
  exists f, mb_Gradient d stress cols B u = Ok f /\
  forall w, rsum cols (fun a => f a * w a) = rsum (Voigt_Dim d) (fun i => sigma i * rsum cols (fun a => B i a * w a)).
Proof.
  intros d stress cols B u sigma E. unfold mb_Gradient. rewrite E. eexists. split; [reflexivity|]. intros w. rewrite rsum_mat.
  apply rsum_ext. intros a Ha. f_equal. unfold tmat_vec. apply rsum_ext. intros. ring.
Qed.
Print Assumptions C80_virtual_work.

(** a case of C80_gradient_damage: one element in one dimension, loading (eeq 2 beyond kappa 1) *)
Definition ex_view : view :=
  {| v_cols := 2; v_Bdisp := fun _ b => match b with 0%nat => -1 | _ => 1 end; v_disp := fun b => match b with 0%nat => 0 | _ => 1 end;
     v_ecols := 2; v_Neeq := fun _ => 1/2; v_Beeq := fun _ b => match b with 0%nat => -1 | _ => 1 end; v_eeq := fun _ => 2;
     v_cell := 0; v_ip := 0 |}.
Definition ex_smooth : DamageLaw := {| Damage := fun k => k / 4; Derivative := fun _ => 1/4 |}.
Example C80_case : exists H, gd_Hessian0 1 {| gd_c := 1; gd_elastic := led_make 1 1 (1/4) UNILATERAL PLANE_STRAIN; gd_law := ex_smooth;
    gd_norm := mm_make (1/4) 2 PLANE_STRAIN; gd_inter := Interaction_Decreasing (1/10) 5;
    gd_kappas := {| h_rows := 1; h_cols := 1; h_at := fun _ _ => 1 |} |} ex_view = Ok H.
Proof.
  destruct (C80_gradient_damage 1 1 (1/4) 2 UNILATERAL PLANE_STRAIN PLANE_STRAIN ex_smooth (Interaction_Decreasing (1/10) 5) 1
    {| h_rows := 1; h_cols := 1; h_at := fun _ _ => 1 |} ex_view) as (H & E & _).
  - lia.
  - lra.
  - lra.
  - cbn; lia.
  - cbn; lia.
  - right. unfold disp_strain, mat_vec, ex_view. cbn [v_cols v_Bdisp v_disp rsum]. lra.
  - assert (Hp: 0 < mm_Value 1 (mm_make (1/4) 2 PLANE_STRAIN) (disp_strain ex_view) + mm_Value 1 (mm_make (1/4) 2 PLANE_STRAIN) (fun i => - disp_strain ex_view i)); [|lra].
    apply NormProofs.positive_at_nonzero; try lra; try lia. exists 0%nat. split; [cbn; lia|]. unfold disp_strain, mat_vec, ex_view. cbn [v_cols v_Bdisp v_disp rsum]. lra.
  - right. unfold eeq_of, ex_view. cbn [v_ecols v_Neeq v_eeq rsum v_cell v_ip h_at]. split; [lra|]. cbn [ex_smooth Damage Derivative].
    auto_derive; [auto|lra].
  - intros w. apply (proj1 (C80_interaction (1/10) 5 ltac:(lra))).
  - exists H. exact E.
Qed.

(** * C81 *)
(** the cell and integration point of a call exist in a history of the given size *)
Definition call_inside (rows cols : nat) (o : gd_op) : Prop :=
  let v := match o with GGradient v | GHessian0 v | GUpdate v => v end in (v_cell v < rows)%nat /\ (v_ip v < cols)%nat.
(** the nonlocal equivalent strains an integration point was updated with, oldest first *)
Fixpoint updated_eeqs (c ip : nat) (ops : list gd_op) : list R :=
  match ops with
  | nil => nil
  | GUpdate v :: rest => if (Nat.eqb (v_cell v) c && Nat.eqb (v_ip v) ip)%bool then eeq_of v :: updated_eeqs c ip rest else updated_eeqs c ip rest
  | _ :: rest => updated_eeqs c ip rest
  end.
(** [m] is the largest of [k0] and the values in the list *)
Definition maximum_from (k0 : R) (values : list R) (m : R) : Prop :=
  k0 <= m /\ (forall x, In x values -> x <= m) /\ (m = k0 \/ In m values).

Lemma maximum_cons k0 x l m : maximum_from (Rmax k0 x) l m -> maximum_from k0 (x :: l) m.
Proof.
  intros (A & B & C). pose proof (Rmax_l k0 x). pose proof (Rmax_r k0 x). split; [lra|]. split.
  - intros y [<-|Hy]; [lra|auto].
  - destruct C as [C|C]; [|right; right; exact C]. unfold Rmax in C. destruct (Rle_dec k0 x); [right; left; lra|left; exact C].
Qed.

Lemma gd_run_spec d ops : forall g, List.Forall (call_inside (h_rows (gd_kappas g)) (h_cols (gd_kappas g))) ops ->
  exists h, gd_run d g ops = Ok {| gd_c := gd_c g; gd_elastic := gd_elastic g; gd_law := gd_law g; gd_norm := gd_norm g; gd_inter := gd_inter g; gd_kappas := h |} /\
    h_rows h = h_rows (gd_kappas g) /\ h_cols h = h_cols (gd_kappas g) /\
    forall c ip, maximum_from (h_at (gd_kappas g) c ip) (updated_eeqs c ip ops) (h_at h c ip).
Proof.
  induction ops as [|o ops IH]; intros g H.
  - exists (gd_kappas g). split; [destruct g; reflexivity|]. repeat split; auto; [lra|intros x []].
  - apply Forall_cons_iff in H. destruct H as (Ho & H).
    destruct o as [v|v|v]; destruct Ho as (Hc & Hi); cbn [gd_run gd_step].
    + unfold gd_Gradient, gd_Kappa. rewrite read_ok by assumption. cbn [omap obind]. apply IH. exact H.
    + unfold gd_Hessian0, gd_DkappaDeeq, gd_Kappa. rewrite read_ok by assumption. cbn [omap obind]. apply IH. exact H.
    + unfold gd_Update, gd_Kappa. rewrite read_ok by assumption. cbn [omap obind]. unfold h_write.
      pose proof (proj2 (Nat.ltb_lt _ _) Hc) as Lc. pose proof (proj2 (Nat.ltb_lt _ _) Hi) as Li. rewrite Lc, Li. cbn [andb omap obind].
      match goal with |- exists h, gd_run d ?g' ops = _ /\ _ => destruct (IH g' H) as (h & E & A1 & A2 & A3) end.
      cbn [gd_c gd_elastic gd_law gd_norm gd_inter gd_kappas h_rows h_cols h_at] in *.
      exists h. split; [exact E|]. split; [exact A1|]. split; [exact A2|]. intros c ip. specialize (A3 c ip).
      cbn [updated_eeqs]. rewrite (Nat.eqb_sym (v_cell v)), (Nat.eqb_sym (v_ip v)).
      destruct (Nat.eqb c (v_cell v) && Nat.eqb ip (v_ip v))%bool eqn:Eb; [|exact A3].
      apply andb_true_iff in Eb. destruct Eb as (E1 & E2). apply Nat.eqb_eq in E1, E2. subst c ip.
      rewrite std_max_spec in A3. apply maximum_cons. exact A3.
Qed.

(** whatever calls are made, in whatever order: the history value of an integration point is the largest of what it was
    and the nonlocal strains of its Update calls, and nothing else of the integrand changes *)
Theorem C81_history : forall d g rows cols ops, h_rows (gd_kappas g) = rows -> h_cols (gd_kappas g) = cols ->
  List.Forall (call_inside rows cols) ops ->
  exists h, gd_run d g ops = Ok {| gd_c := gd_c g; gd_elastic := gd_elastic g; gd_law := gd_law g; gd_norm := gd_norm g; gd_inter := gd_inter g; gd_kappas := h |} /\
    h_rows h = rows /\ h_cols h = cols /\
    forall c ip, maximum_from (h_at (gd_kappas g) c ip) (updated_eeqs c ip ops) (h_at h c ip).
Proof. intros d g rows cols ops <- <- H. apply gd_run_spec. exact H. Qed.
Print Assumptions C81_history.

(** so damage never heals, and calls without Update leave everything as it was *)
Theorem C81_irreversible : forall d g ops g', List.Forall (call_inside (h_rows (gd_kappas g)) (h_cols (gd_kappas g))) ops ->
  gd_run d g ops = Ok g' -> (forall k k', k <= k' -> Damage (gd_law g) k <= Damage (gd_law g) k') ->
  forall c ip, h_at (gd_kappas g) c ip <= h_at (gd_kappas g') c ip /\
    Damage (gd_law g) (h_at (gd_kappas g) c ip) <= Damage (gd_law g') (h_at (gd_kappas g') c ip).
Proof.
  intros d g ops g' H E Hm c ip. destruct (gd_run_spec d ops g H) as (h & E' & _ & _ & A). rewrite E' in E. injection E as <-.
  cbn [gd_kappas gd_law]. destruct (A c ip) as (L & _). split; [exact L|]. apply Hm. exact L.
Qed.
Print Assumptions C81_irreversible.
Theorem C81_evaluation_is_pure : forall d g ops, List.Forall (call_inside (h_rows (gd_kappas g)) (h_cols (gd_kappas g))) ops ->
  (forall o, In o ops -> match o with GUpdate _ => False | _ => True end) -> gd_run d g ops = Ok g.
Proof.
  intros d g. induction ops as [|o ops IH]; intros H Hn; [reflexivity|]. apply Forall_cons_iff in H. destruct H as (Ho & H).
  pose proof (Hn o (or_introl eq_refl)) as N. destruct o as [v|v|v]; [| |contradiction]; destruct Ho as (Hc & Hi); cbn [gd_run gd_step].
  - unfold gd_Gradient, gd_Kappa. rewrite read_ok by assumption. cbn [omap obind]. apply IH; auto. intros o' Ho'. apply Hn. right. exact Ho'.
  - unfold gd_Hessian0, gd_DkappaDeeq, gd_Kappa. rewrite read_ok by assumption. cbn [omap obind]. apply IH; auto. intros o' Ho'. apply Hn. right. exact Ho'.
Qed.
Print Assumptions C81_evaluation_is_pure.
(** what the next evaluation at this point uses: the largest strain of history and present state *)
Theorem C81_damage_used : forall d g v, (v_cell v < h_rows (gd_kappas g))%nat -> (v_ip v < h_cols (gd_kappas g))%nat ->
  exists k r, maximum_from (h_at (gd_kappas g) (v_cell v) (v_ip v)) [eeq_of v] k /\ gd_Gradient d g v = Ok r /\
    forall a, fst r a = rsum (Voigt_Dim d) (fun i => v_Bdisp v i a * led_Stress d (gd_elastic g) (disp_strain v) (Damage (gd_law g) k) i).
Proof.
  intros d g v Hc Hi. unfold gd_Gradient, gd_Kappa. rewrite read_ok by assumption. cbn [omap obind]. rewrite std_max_spec.
  eexists _, _. split; [|split; [reflexivity|intros a; reflexivity]].
  apply maximum_cons. split; [lra|]. split; [intros x []|]. left. reflexivity.
Qed.
Print Assumptions C81_damage_used.

(** a GradientDamage as constructed has a history without elements: every call reads outside of it *)
Theorem C81_unallocated_refuted : forall d c el law n i v,
  gd_Gradient d (gd_make c el law n i) v = UB /\ gd_Hessian0 d (gd_make c el law n i) v = UB /\ gd_Update (gd_make c el law n i) v = UB /\
  forall rows cols, (v_cell v < rows)%nat -> (v_ip v < cols)%nat -> exists r, gd_Gradient d (gd_resize (gd_make c el law n i) rows cols) v = Ok r.
Proof.
  intros. repeat split. intros rows cols Hc Hi. unfold gd_Gradient, gd_Kappa. rewrite read_ok by assumption. eexists. reflexivity.
Qed.
Print Assumptions C81_unallocated_refuted.
(** made from plane stress material parameters it measures strains with the plane strain norm *)
Theorem C81_plane_stress_refuted : exists m s, s_planeState m = PLANE_STRESS /\ uniaxial 2 (s_nu m) 1 s /\
  mm_Value 2 (mm_make_softening m PLANE_STRESS) s = 1 /\
  forall i, mm_Value 2 (gd_norm (gd_make_softening 2 m FULL i)) s <> 1.
Proof.
  destruct C44_softening_plane_stress_refuted as (m & s & A & B & _ & _ & C & D). exists m, s. split; [exact A|]. split; [exact B|]. split; [exact C|].
  intros i. exact D.
Qed.
Print Assumptions C81_plane_stress_refuted.
Example C81_case : List.Forall (call_inside 1 1) [GUpdate ex_view; GGradient ex_view; GHessian0 ex_view] /\
  updated_eeqs 0 0 [GUpdate ex_view; GGradient ex_view; GHessian0 ex_view] = [eeq_of ex_view] /\ eeq_of ex_view = 2.
Proof.
  split; [repeat (apply List.Forall_cons; [split; cbn; lia|]); apply List.Forall_nil|]. split; [reflexivity|].
  unfold eeq_of, ex_view. cbn [v_ecols v_Neeq v_eeq rsum]. lra.
Qed.

(** * C82 *)
(** the vector of the node values [w] (numbered node * dim + component) interpolated with the shape functions *)
Definition interpolated (n dim : nat) (sh : nat -> R) (w : nat -> R) (i : nat) : R := rsum n (fun k => sh k * w (k * dim + i)%nat).

Lemma transpose_work dim cols N f w :
  rsum cols (fun a => tmat_vec dim N f a * w a) = rsum dim (fun i => f i * mvmul cols N w i).
Proof.
  unfold mvmul. rewrite (rsum_mat dim cols f N w). apply rsum_ext. intros a Ha. f_equal. unfold tmat_vec. apply rsum_ext. intros. ring.
Qed.

(** the load does on any virtual displacement the work of the given traction on the interpolated displacement; where the
    shape functions sum to 1 the node forces of one direction sum to the traction, whatever the number of nodes *)
Theorem C82_load : forall garbage sh n dim factor,
  let load := nb_ExternalLoad dim factor (matrix_N garbage sh n dim) in
  (forall w, rsum (n * dim) (fun a => load a * w a) = rsum dim (fun i => factor i * interpolated n dim sh w i)) /\
  (rsum n sh = 1 -> forall i, (i < dim)%nat -> rsum n (fun k => load (k * dim + i)%nat) = factor i).
Proof.
  intros garbage sh n dim factor load.
  assert (W: forall w, rsum (n * dim) (fun a => load a * w a) = rsum dim (fun i => factor i * interpolated n dim sh w i)).
  { intros w. unfold load, nb_ExternalLoad. rewrite transpose_work. apply rsum_ext. intros i Hi. rewrite matrix_N_interpolates by exact Hi. reflexivity. }
  split; [exact W|]. intros H1 i Hi.
  specialize (W (fun a => if Nat.eqb (a mod dim) i then 1 else 0)). rewrite rsum_blocks in W.
  assert (M: forall k j, (j < dim)%nat -> ((k * dim + j) mod dim)%nat = j).
  { intros k j Hj. rewrite Nat.add_comm, Nat.mod_add by lia. apply Nat.mod_small. exact Hj. }
  transitivity (rsum n (fun k => rsum dim (fun j => load (k * dim + j)%nat * (if Nat.eqb ((k * dim + j) mod dim) i then 1 else 0)))).
  { apply rsum_ext. intros k Hk. rewrite (rsum_single dim i); [|exact Hi|].
    - rewrite M by exact Hi. rewrite Nat.eqb_refl. ring.
    - intros j Hj Hne. rewrite M by exact Hj. apply Nat.eqb_neq in Hne. rewrite Hne. ring. }
  rewrite W. rewrite (rsum_single dim i); [|exact Hi|].
  - unfold interpolated. rewrite (rsum_ext n _ sh); [rewrite H1; ring|]. intros k Hk. rewrite M by exact Hi. rewrite Nat.eqb_refl. ring.
  - intros j Hj Hne. unfold interpolated. rewrite rsum_zero; [ring|]. intros k Hk. rewrite M by exact Hj. apply Nat.eqb_neq in Hne. rewrite Hne. ring.
Qed.
Print Assumptions C82_load.

(** the mass matrix is symmetric and its quadratic form is the density times the product of the interpolated velocities; so
    the kinetic energy is never negative, and a rigid translation [c] has rho |c|^2 where the shape functions sum to 1 *)
Theorem C82_mass : forall garbage sh n dim rho,
  let M := dm_Hessian2 dim rho (matrix_N garbage sh n dim) in
  (forall a b, M a b = M b a) /\
  (forall v w, rsum (n * dim) (fun a => v a * rsum (n * dim) (fun b => M a b * w b)) =
     rho * rsum dim (fun i => interpolated n dim sh v i * interpolated n dim sh w i)) /\
  (0 <= rho -> forall v, 0 <= rsum (n * dim) (fun a => v a * rsum (n * dim) (fun b => M a b * v b))) /\
  (rsum n sh = 1 -> forall c v, (forall k i, (k < n)%nat -> (i < dim)%nat -> v (k * dim + i)%nat = c i) ->
     rsum (n * dim) (fun a => v a * rsum (n * dim) (fun b => M a b * v b)) = rho * rsum dim (fun i => c i * c i)).
Proof.
  intros garbage sh n dim rho M. set (N := matrix_N garbage sh n dim).
  assert (Q: forall v w, rsum (n * dim) (fun a => v a * rsum (n * dim) (fun b => M a b * w b)) =
     rho * rsum dim (fun i => interpolated n dim sh v i * interpolated n dim sh w i)).
  { intros v w.
    rewrite (rsum_ext (n * dim) _ (fun a => rho * (tmat_vec dim N (mvmul (n * dim) N w) a * v a))).
    - rewrite rsum_scal, transpose_work. f_equal. apply rsum_ext. intros i Hi. unfold N. rewrite !matrix_N_interpolates by exact Hi. 
      unfold interpolated. ring.
    - intros a Ha. unfold tmat_vec, mvmul. rewrite rsum_mat. rewrite Rmult_comm, <- (Rmult_assoc rho), <- rsum_scal. f_equal.
      apply rsum_ext. intros b Hb. unfold M, dm_Hessian2, tmat_mat. fold N. ring. }
  split; [|split; [exact Q|split]].
  - intros a b. unfold M, dm_Hessian2, tmat_mat. f_equal. apply rsum_ext. intros. ring.
  - intros Hr v. rewrite Q. apply Rmult_le_pos; [exact Hr|]. apply rsum_nonneg. intros i Hi. apply Rle_0_sqr.
  - intros H1 c v Hv. rewrite Q. f_equal. apply rsum_ext. intros i Hi.
    assert (I: interpolated n dim sh v i = c i).
    { unfold interpolated. rewrite (rsum_ext n _ (fun k => sh k * c i)) by (intros k Hk; rewrite Hv; auto). rewrite rsum_scal_r, H1. ring. }
    rewrite I. reflexivity.
Qed.
Print Assumptions C82_mass.
Example C82_case : rsum 2 (fun k => match k with 0%nat => 1/4 | _ => 3/4 end) = 1 /\
  rsum 2 (fun k => nb_ExternalLoad 2 (fun i => match i with 0%nat => 5 | _ => 7 end) (matrix_N (fun _ _ => 9) (fun k => match k with 0%nat => 1/4 | _ => 3/4 end) 2 2) (k * 2 + 1)%nat) = 7.
Proof.
  split; [cbn; lra|]. rewrite (proj2 (C82_load (fun _ _ => 9) (fun k => match k with 0%nat => 1/4 | _ => 3/4 end) 2 2 (fun i => match i with 0%nat => 5 | _ => 7 end))); [reflexivity|cbn; lra|lia].
Qed.
