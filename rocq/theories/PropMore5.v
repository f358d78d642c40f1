(** C41: the default concrete *)
From Coq Require Import List Arith Bool Reals Lra Lia Psatz.
From Verif Require Import RSum Outcome AdaptiveModel AdaptiveProofs ElasticModel ElasticSpec ElasticProofs DamageProofs PropElastic.
Import ListNotations.
Local Open Scope R_scope.

Lemma default_stress k : 4 / 30000 <= k ->
  (1 - Damage (DamageLawExponential_softening DefaultConcrete) k) * 30000 * k = 0.04 + 3.96 * exp (40 * (4 / 30000 - k)).
Proof.
  intros H. unfold DamageLawExponential_softening, DefaultConcrete. cbn [Damage DamageLawExponential s_ft s_E s_gf s_fMin]. unfold exp_Damage.
  destruct (rltb_spec k (4 / 30000)) as [(_ & H')|(-> & _)]; [lra|].
  replace (4 / 0.1) with 40 by lra. replace (0.01 * 4 / 4) with 0.01 by lra.
  generalize (exp (40 * (4 / 30000 - k))). intros e. assert (k <> 0) by lra.
  transitivity (30000 * (4 / 30000) * (1 - (1 - 0.01) + (1 - 0.01) * e)); [field; assumption|lra].
Qed.
(** The default concrete under the exponential law (one dimension, Young's modulus 30000): no strain gives more than the tensile
    strength of 4, which is reached at the strain 4 / 30000, and beyond it the stress stays above the residual strength of 0.04 and
    tends to it *)
Theorem C41_default_concrete :
  s_E DefaultConcrete = 30000 /\
  let stress := fun k => (1 - Damage (DamageLawExponential_softening DefaultConcrete) k) * s_E DefaultConcrete * k in
  (forall k, 0 <= k -> stress k <= 4) /\ stress (4 / 30000) = 4 /\ (forall k, 4 / 30000 <= k -> 0.04 < stress k) /\
  (forall eps, 0 < eps -> exists K, forall k, K <= k -> stress k < 0.04 + eps).
Proof.
  split; [reflexivity|]. change (s_E DefaultConcrete) with 30000. cbv zeta. split; [|split; [|split]].
  - intros k Hk. destruct (Rlt_dec k (4 / 30000)) as [H|H].
    + unfold DamageLawExponential_softening, DefaultConcrete. cbn [Damage DamageLawExponential s_ft s_E s_gf s_fMin]. unfold exp_Damage.
      destruct (rltb_spec k (4 / 30000)) as [(-> & _)|(_ & H')]; lra.
    + rewrite default_stress by lra. assert (exp (40 * (4 / 30000 - k)) <= 1); [|lra].
      rewrite <- exp_0. destruct (Req_dec (40 * (4 / 30000 - k)) 0) as [->|]; [lra|]. left. apply exp_increasing. lra.
  - rewrite default_stress by lra. replace (40 * (4 / 30000 - 4 / 30000)) with 0 by lra. rewrite exp_0. lra.
  - intros k Hk. rewrite default_stress by lra. pose proof (exp_pos (40 * (4 / 30000 - k))). lra.
  - intros eps He. exists (1 + 4 / eps). intros k Hk. assert (P : 0 < 4 / eps) by (apply Rdiv_lt_0_compat; lra).
    rewrite default_stress by lra. set (x := 40 * (k - 4 / 30000)).
    replace (40 * (4 / 30000 - k)) with (- x) by (unfold x; ring). rewrite exp_Ropp.
    assert (Hx : 4 / eps < x) by (unfold x; lra). pose proof (exp_ineq1 x ltac:(lra)) as Hexp.
    assert (L : / exp x < / (4 / eps)) by (apply Rinv_lt_contravar; [apply Rmult_lt_0_compat; [exact P|apply exp_pos]|lra]).
    replace (/ (4 / eps)) with (eps / 4) in L by (field; lra). lra.
Qed.
Print Assumptions C41_default_concrete.
