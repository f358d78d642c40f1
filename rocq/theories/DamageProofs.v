(** * Proofs for the damage laws and for the history variable *)
From Coq Require Import List Arith Bool Reals Lra Lia Psatz.
From Coquelicot Require Import Coquelicot.
From Verif Require Import RSum Outcome AdaptiveModel AdaptiveProofs SplineProofs ElasticModel ElasticSpec ElasticProofs NormProofs.
Import ListNotations.
Local Open Scope R_scope.

(** ** gluing *)
Lemma right_of_branch (f g : R -> R) x l d : 0 < d -> (forall y, x <= y < x + d -> f y = g y) -> is_derive g x l -> right_derivative f x l.
Proof.
  intros Hd He Hg eps Heps. apply is_derive_Reals in Hg. destruct (Hg eps Heps) as (del & Hdel).
  exists (Rmin d del). split; [apply Rmin_pos; [auto|apply cond_pos]|]. intros h (Hh & Hm).
  assert (h < d) by (eapply Rlt_le_trans; [exact Hm|apply Rmin_l]). assert (h < del) by (eapply Rlt_le_trans; [exact Hm|apply Rmin_r]).
  rewrite !He by lra. apply Hdel; [lra|]. rewrite Rabs_pos_eq; lra.
Qed.
Lemma derive_branch (f g : R -> R) x l d : 0 < d -> (forall y, x - d < y < x + d -> f y = g y) -> is_derive g x l -> is_derive f x l.
Proof.
  intros Hd He Hg. apply (glue_derive f g g x l d Hd); [intros; apply He; lra|intros; apply He; lra|exact Hg|exact Hg].
Qed.
Lemma const_derive (c x : R) : is_derive (fun _ : R => c) x 0.
Proof. auto_derive; trivial. Qed.

(** a law that is zero below kappa0 and smooth, increasing, below one from kappa0 on *)
Section Branch.
Variables (k0 : R) (g dg : R -> R).
Hypothesis Hk0 : 0 < k0.
Hypothesis Hg0 : g k0 = 0.
Hypothesis Hmono : forall a b, k0 <= a <= b -> g a <= g b.
Hypothesis Hlt : forall a, k0 <= a -> g a < 1.
Hypothesis Hder : forall a, k0 <= a -> is_derive g a (dg a).
Let w := fun k => if rltb k k0 then 0 else g k.
Let dw := fun k => if rltb k k0 then 0 else dg k.

Lemma w_below k : k < k0 -> w k = 0. Proof. intros H. unfold w. destruct (rltb_spec k k0) as [(-> & _)|(_ & H')]; [reflexivity|lra]. Qed.
Lemma w_above k : k0 <= k -> w k = g k. Proof. intros H. unfold w. destruct (rltb_spec k k0) as [(_ & H')|(-> & _)]; [lra|reflexivity]. Qed.
Lemma dw_below k : k < k0 -> dw k = 0. Proof. intros H. unfold dw. destruct (rltb_spec k k0) as [(-> & _)|(_ & H')]; [reflexivity|lra]. Qed.
Lemma dw_above k : k0 <= k -> dw k = dg k. Proof. intros H. unfold dw. destruct (rltb_spec k k0) as [(_ & H')|(-> & _)]; [lra|reflexivity]. Qed.
Lemma w_upto k : k <= k0 -> w k = 0.
Proof. intros [H|H]; [apply w_below; auto|]. subst. rewrite w_above by lra. exact Hg0. Qed.
Lemma g_nonneg k : k0 <= k -> 0 <= g k. Proof. intros H. rewrite <- Hg0. apply Hmono. lra. Qed.

Lemma w_derive k : k <> k0 -> is_derive w k (dw k).
Proof.
  intros H. destruct (Rlt_dec k k0) as [Hl|Hl].
  - rewrite dw_below by exact Hl. apply (derive_branch w (fun _ => 0) k 0 (k0 - k)); [lra| |apply const_derive]. intros y Hy. apply w_below. lra.
  - rewrite dw_above by lra. apply (derive_branch w g k (dg k) (k - k0)); [lra| |apply Hder; lra]. intros y Hy. apply w_above. lra.
Qed.
Lemma w_right k : right_derivative w k (dw k).
Proof.
  destruct (Rlt_dec k k0) as [Hl|Hl].
  - rewrite dw_below by exact Hl. apply (right_of_branch w (fun _ => 0) k 0 (k0 - k)); [lra| |apply const_derive]. intros y Hy. apply w_below. lra.
  - rewrite dw_above by lra. apply (right_of_branch w g k (dg k) 1); [lra| |apply Hder; lra]. intros y Hy. apply w_above. lra.
Qed.
Lemma w_continuous k : continuous w k.
Proof.
  destruct (Req_dec k k0) as [->|H].
  - apply (glue_continuous w (fun _ => 0) g k0 1); [lra| | |apply continuous_const|].
    + intros x Hx. apply w_upto. lra.
    + intros x Hx. apply w_above. lra.
    + apply (ex_derive_continuous (V := R_NormedModule)). exists (dg k0). apply Hder. lra.
  - apply (ex_derive_continuous (V := R_NormedModule)). exists (dw k). apply w_derive. exact H.
Qed.
Lemma w_mono k k' : k <= k' -> w k <= w k'.
Proof.
  intros H. destruct (Rlt_dec k' k0) as [H'|H']; [rewrite !w_below by lra; lra|]. rewrite (w_above k') by lra.
  destruct (Rlt_dec k k0) as [H1|H1]; [rewrite w_below by lra; apply g_nonneg; lra|]. rewrite w_above by lra. apply Hmono. lra.
Qed.
Lemma w_range k : 0 <= w k < 1.
Proof.
  destruct (Rlt_dec k k0) as [H|H]; [rewrite w_below by exact H; lra|]. rewrite w_above by lra. split; [apply g_nonneg|apply Hlt]; lra.
Qed.
Lemma branch_ok : damage_law_ok k0 (fun k => k = k0) w dw.
Proof.
  split; [intros; apply w_range|]. split; [|split; [|split; [|split]]].
  - apply w_upto.
  - intros k k' H. apply w_mono. lra.
  - apply w_continuous.
  - intros k H. apply w_derive. exact H.
  - apply w_right.
Qed.

(** capping such a law at [m] with 0 <= m < 1 (the linear law; here [g] may exceed one) *)
End Branch.

(** ** exponential *)
Lemma exp_branch k0 b a k : 0 < k0 -> 0 < k ->
  is_derive (fun x => 1 - k0 / x * (1 - a + a * exp (b * (k0 - x)))) k (k0 / k * ((1 / k + b) * a * exp (b * (k0 - k)) + (1 - a) / k)).
Proof. intros H0 Hk. auto_derive; [lra|]. unfold Rminus. field. lra. Qed.

Lemma exponential_ok k0 b a : 0 < k0 -> 0 <= b -> 0 <= a <= 1 ->
  damage_law_ok k0 (fun k => k = k0) (Damage (DamageLawExponential k0 b a)) (Derivative (DamageLawExponential k0 b a)).
Proof.
  intros H0 Hb Ha.
  assert (Hpos : forall k, 0 < 1 - a + a * exp (b * (k0 - k))).
  { intros k. pose proof (exp_pos (b * (k0 - k))). destruct (Req_dec a 0) as [->|]; [lra|].
    assert (0 < a * exp (b * (k0 - k))) by (apply Rmult_lt_0_compat; lra). lra. }
  apply (branch_ok k0 (fun x => 1 - k0 / x * (1 - a + a * exp (b * (k0 - x)))) (fun k => k0 / k * ((1 / k + b) * a * exp (b * (k0 - k)) + (1 - a) / k))).
  - replace (b * (k0 - k0)) with 0 by ring. rewrite exp_0. field. lra.
  - intros x y Hxy.
    assert (He : exp (b * (k0 - y)) <= exp (b * (k0 - x))).
    { destruct (Req_dec (b * (k0 - y)) (b * (k0 - x))) as [->|Hne]; [lra|]. left. apply exp_increasing. nra. }
    assert (Hi : k0 / y <= k0 / x) by (apply Rmult_le_compat_l; [lra|apply Rinv_le_contravar; lra]).
    assert (0 < k0 / y) by (apply Rdiv_lt_0_compat; lra).
    apply Rplus_le_compat_l, Ropp_le_contravar. apply Rmult_le_compat; try lra; [left; apply Hpos|].
    apply Rplus_le_compat_l, Rmult_le_compat_l; lra.
  - intros x Hx. assert (0 < k0 / x) by (apply Rdiv_lt_0_compat; lra). pose proof (Hpos x).
    assert (0 < k0 / x * (1 - a + a * exp (b * (k0 - x)))) by (apply Rmult_lt_0_compat; lra). lra.
  - intros x Hx. apply exp_branch; lra.
Qed.

(** ** no softening *)
Lemma nosoftening_ok k0 : 0 < k0 ->
  damage_law_ok k0 (fun k => k = k0) (Damage (DamageLawNoSoftening k0)) (Derivative (DamageLawNoSoftening k0)).
Proof.
  intros H0. apply (branch_ok k0 (fun x => 1 - k0 / x) (fun k => k0 / (k * k))).
  - field. lra.
  - intros x y Hxy. assert (k0 / y <= k0 / x) by (apply Rmult_le_compat_l; [lra|apply Rinv_le_contravar; lra]). lra.
  - intros x Hx. assert (0 < k0 / x) by (apply Rdiv_lt_0_compat; lra). lra.
  - intros x Hx. auto_derive; [lra|]. field. lra.
Qed.

(** ** linear *)
Section Linear.
Variables (k0 kC m : R).
Hypothesis H0 : 0 < k0.
Hypothesis HC : k0 < kC.
Hypothesis Hm : 0 <= m < 1.
Let g := fun k => kC / k * (k - k0) / (kC - k0).
Let w := Damage (DamageLawLinear k0 kC m).
Let dw := Derivative (DamageLawLinear k0 kC m).
(** the strain at which the cap is reached *)
Definition cap_strain : R := kC * k0 / (kC - m * (kC - k0)).

Lemma cap_den : 0 < kC - m * (kC - k0). Proof. nra. Qed.
Lemma cap_ge : k0 <= cap_strain.
Proof. unfold cap_strain. pose proof cap_den. apply (Rmult_le_reg_r (kC - m * (kC - k0))); [lra|]. replace (kC * k0 / (kC - m * (kC - k0)) * (kC - m * (kC - k0))) with (kC * k0) by (field; lra). assert (0 <= m * (k0 * (kC - k0))) by (apply Rmult_le_pos; [lra|]; apply Rmult_le_pos; lra). lra. Qed.
Lemma g_cap k : 0 < k -> g k - m = (kC - m * (kC - k0)) / (k * (kC - k0)) * (k - cap_strain).
Proof. intros Hk. unfold g, cap_strain. pose proof cap_den. field. lra. Qed.
Lemma g_lt k : 0 < k -> (g k < m <-> k < cap_strain).
Proof.
  intros Hk. pose proof (g_cap k Hk) as E. pose proof cap_den.
  assert (0 < (kC - m * (kC - k0)) / (k * (kC - k0))) by (apply Rdiv_lt_0_compat; [lra|apply Rmult_lt_0_compat; lra]).
  split; intros; nra.
Qed.
Lemma g_cap_eq : g cap_strain = m.
Proof. pose proof cap_ge. pose proof (g_cap cap_strain ltac:(lra)) as E. replace (cap_strain - cap_strain) with 0 in E by ring. rewrite Rmult_0_r in E. lra. Qed.
Lemma lin_below k : k < k0 -> w k = 0.
Proof. intros H. unfold w; simpl; unfold lin_Damage. destruct (rltb_spec k k0) as [(-> & _)|(_ & H')]; [reflexivity|lra]. Qed.
Lemma lin_mid k : k0 <= k <= cap_strain -> w k = g k.
Proof.
  intros H. unfold w; simpl; unfold lin_Damage. destruct (rltb_spec k k0) as [(_ & H')|(-> & _)]; [lra|]. cbv zeta. fold (g k).
  destruct (rltb_spec m (g k)) as [(-> & H')|(-> & _)]; [|reflexivity]. destruct H as (Ha & [Hb|Hb]).
  - apply g_lt in Hb; lra.
  - subst. rewrite g_cap_eq in *. lra.
Qed.
Lemma lin_top k : cap_strain <= k -> w k = m.
Proof.
  intros H. pose proof cap_ge. unfold w; simpl; unfold lin_Damage. destruct (rltb_spec k k0) as [(_ & H')|(-> & _)]; [lra|]. cbv zeta. fold (g k).
  destruct (rltb_spec m (g k)) as [(-> & H')|(-> & H')]; [reflexivity|]. destruct H' as [H'|H']; [|exact H']. apply g_lt in H'; lra.
Qed.
Lemma dlin_below k : k < k0 -> dw k = 0.
Proof. intros H. unfold dw; simpl; unfold lin_Derivative. destruct (rltb_spec k k0) as [(-> & _)|(_ & H')]; [reflexivity|lra]. Qed.
Lemma dlin_mid k : k0 <= k < cap_strain -> dw k = kC * k0 / (k * k * (kC - k0)).
Proof.
  intros H. unfold dw; simpl; unfold lin_Derivative. destruct (rltb_spec k k0) as [(_ & H')|(-> & _)]; [lra|]. fold (w k). change (lin_Damage k0 kC m k) with (w k).
  rewrite lin_mid by lra. destruct (rltb_spec (g k) m) as [(-> & H')|(_ & H')]; [reflexivity|]. assert (g k < m) by (apply g_lt; lra). lra.
Qed.
Lemma dlin_top k : cap_strain <= k -> dw k = 0.
Proof.
  intros H. pose proof cap_ge. unfold dw; simpl; unfold lin_Derivative. destruct (rltb_spec k k0) as [(_ & H')|(-> & _)]; [lra|]. change (lin_Damage k0 kC m k) with (w k).
  rewrite lin_top by lra. destruct (rltb_spec m m) as [(_ & H')|(-> & H')]; [lra|reflexivity].
Qed.
Lemma g_derive k : 0 < k -> is_derive g k (kC * k0 / (k * k * (kC - k0))).
Proof. intros Hk. unfold g. auto_derive; [lra|]. field. lra. Qed.
Lemma g_mono a b : 0 < a <= b -> g a <= g b.
Proof.
  intros H. unfold g. replace (kC / a * (a - k0) / (kC - k0)) with (kC / (kC - k0) * (1 - k0 / a)) by (field; lra).
  replace (kC / b * (b - k0) / (kC - k0)) with (kC / (kC - k0) * (1 - k0 / b)) by (field; lra).
  apply Rmult_le_compat_l; [left; apply Rdiv_lt_0_compat; lra|].
  assert (k0 / b <= k0 / a) by (apply Rmult_le_compat_l; [lra|apply Rinv_le_contravar; lra]). lra.
Qed.
Lemma g_k0 : g k0 = 0. Proof. unfold g. field. lra. Qed.
Lemma lin_upto k : k <= k0 -> w k = 0.
Proof. intros [H|H]; [apply lin_below; auto|]. subst k. rewrite lin_mid by (pose proof cap_ge; lra). apply g_k0. Qed.
Lemma lin_mono a b : a <= b -> w a <= w b.
Proof.
  intros H. pose proof cap_ge.
  destruct (Rle_dec b k0) as [B1|B1]; [rewrite !lin_upto by lra; lra|].
  destruct (Rle_dec b cap_strain) as [B2|B2].
  - rewrite (lin_mid b) by lra. destruct (Rle_dec a k0) as [A1|A1].
    + rewrite lin_upto by lra. rewrite <- g_k0. apply g_mono. lra.
    + rewrite lin_mid by lra. apply g_mono. lra.
  - rewrite (lin_top b) by lra. destruct (Rle_dec a k0) as [A1|A1]; [rewrite lin_upto by lra; lra|].
    destruct (Rle_dec a cap_strain) as [A2|A2]; [|rewrite lin_top by lra; lra]. rewrite lin_mid by lra. rewrite <- g_cap_eq. apply g_mono. lra.
Qed.
Lemma lin_range k : 0 <= w k < 1.
Proof.
  pose proof cap_ge. split.
  - destruct (Rle_dec k k0); [rewrite lin_upto by lra; lra|]. rewrite <- (lin_upto k0) by lra. apply lin_mono. lra.
  - destruct (Rle_dec k cap_strain) as [H'|H']; [|rewrite lin_top by lra; lra].
    apply Rle_lt_trans with (w cap_strain); [apply lin_mono; exact H'|]. rewrite lin_top by lra. lra.
Qed.
Lemma lin_derive k : k <> k0 -> k <> cap_strain -> is_derive w k (dw k).
Proof.
  intros H1 H2. pose proof cap_ge. destruct (Rlt_dec k k0) as [Hl|Hl].
  { rewrite dlin_below by exact Hl. apply (derive_branch w (fun _ => 0) k 0 (k0 - k)); [lra| |apply const_derive]. intros y Hy. apply lin_below. lra. }
  destruct (Rlt_dec k cap_strain) as [Hc|Hc].
  - rewrite dlin_mid by lra. apply (derive_branch w g k _ (Rmin (k - k0) (cap_strain - k))); [apply Rmin_pos; lra| |apply g_derive; lra].
    intros y Hy. apply lin_mid. pose proof (Rmin_l (k - k0) (cap_strain - k)). pose proof (Rmin_r (k - k0) (cap_strain - k)). lra.
  - rewrite dlin_top by lra. apply (derive_branch w (fun _ => m) k 0 (k - cap_strain)); [lra| |apply const_derive]. intros y Hy. apply lin_top. lra.
Qed.
Lemma lin_right k : right_derivative w k (dw k).
Proof.
  pose proof cap_ge. destruct (Rlt_dec k k0) as [Hl|Hl].
  { rewrite dlin_below by exact Hl. apply (right_of_branch w (fun _ => 0) k 0 (k0 - k)); [lra| |apply const_derive]. intros y Hy. apply lin_below. lra. }
  destruct (Rlt_dec k cap_strain) as [Hc|Hc].
  - rewrite dlin_mid by lra. apply (right_of_branch w g k _ (cap_strain - k)); [lra| |apply g_derive; lra]. intros y Hy. apply lin_mid. lra.
  - rewrite dlin_top by lra. apply (right_of_branch w (fun _ => m) k 0 1); [lra| |apply const_derive]. intros y Hy. apply lin_top. lra.
Qed.
Lemma lin_continuous k : continuous w k.
Proof.
  pose proof cap_ge as Hge.
  assert (Hg : forall x, 0 < x -> continuous g x) by (intros x Hx; apply (ex_derive_continuous (V := R_NormedModule)); eexists; apply g_derive; exact Hx).
  destruct (Req_dec k cap_strain) as [E|Hc].
  - subst k. destruct (Req_dec k0 cap_strain) as [E|Hne].
    + apply (glue_continuous w (fun _ => 0) (fun _ => m) cap_strain 1); [lra| | |apply continuous_const|apply continuous_const].
      * intros x Hx. apply lin_upto. lra.
      * intros x Hx. apply lin_top. lra.
    + apply (glue_continuous w g (fun _ => m) cap_strain (cap_strain - k0)); [lra| | |apply Hg; lra|apply continuous_const].
      * intros x Hx. apply lin_mid. lra.
      * intros x Hx. apply lin_top. lra.
  - destruct (Req_dec k k0) as [E|Hk].
    + subst k. apply (glue_continuous w (fun _ => 0) g k0 (cap_strain - k0)); [lra| | |apply continuous_const|apply Hg; lra].
      * intros x Hx. apply lin_upto. lra.
      * intros x Hx. apply lin_mid. lra.
    + apply (ex_derive_continuous (V := R_NormedModule)). eexists. apply lin_derive; auto.
Qed.
Lemma linear_ok :
  damage_law_ok k0 (fun k => k = k0 \/ (w k = m /\ forall k', k' < k -> w k' < m)) w dw.
Proof.
  split; [intros; apply lin_range|]. split; [|split; [|split; [|split]]].
  - apply lin_upto.
  - intros k k' H. apply lin_mono. lra.
  - apply lin_continuous.
  - intros k H. pose proof cap_ge as Hge. assert (k <> k0) by tauto.
    destruct (Req_dec k cap_strain) as [E|Hc]; [|apply lin_derive; auto]. exfalso. apply H. right. split; [apply lin_top; lra|].
    intros k' Hk'. destruct (Rle_dec k0 k') as [Hl|Hl].
    + rewrite lin_mid by lra. apply g_lt; lra.
    + rewrite lin_upto by lra. assert (k0 < cap_strain) by lra. assert (Hlt : g k0 < m) by (apply g_lt; lra). rewrite g_k0 in Hlt. exact Hlt.
  - apply lin_right.
Qed.
Lemma lin_stress k E : k0 <= k <= cap_strain -> (1 - w k) * E * k = E * k0 * (kC - k) / (kC - k0).
Proof. intros H. rewrite lin_mid by lra. unfold g. field. lra. Qed.
End Linear.

(** ** history *)
Lemma std_max_spec a b : std_max a b = Rmax a b.
Proof. unfold std_max, Rmax. destruct (rltb_spec a b) as [(-> & H)|(-> & H)]; destruct (Rle_dec a b); lra. Qed.

Definition in_range (h : history) (o : li_op) : Prop :=
  match o with OpStress _ c ip | OpTangent _ c ip | OpUpdate _ c ip => (c < h_rows h)%nat /\ (ip < h_cols h)%nat end.
(** the strain norms of the updates made at one integration point *)
Definition updates_at (d : nat) (n : ModifiedMises) (c ip : nat) (ops : list li_op) : list R :=
  flat_map (fun o => match o with
                     | OpUpdate s c' ip' => if (Nat.eqb c c' && Nat.eqb ip ip')%bool then [mm_Value d n s] else []
                     | _ => []
                     end) ops.

Lemma read_ok h c ip : (c < h_rows h)%nat -> (ip < h_cols h)%nat -> h_read h c ip = Ok (h_at h c ip).
Proof. intros A B. unfold h_read. apply Nat.ltb_lt in A, B. rewrite A, B. reflexivity. Qed.

Lemma step_spec d l o : let h := ev_kappas (li_evolution l) in in_range h o ->
  exists l', li_step d l o = Ok l' /\ li_elastic l' = li_elastic l /\ li_law l' = li_law l /\
    ev_norm (li_evolution l') = ev_norm (li_evolution l) /\
    h_rows (ev_kappas (li_evolution l')) = h_rows h /\ h_cols (ev_kappas (li_evolution l')) = h_cols h /\
    forall c ip, h_at (ev_kappas (li_evolution l')) c ip = fold_left Rmax (updates_at d (ev_norm (li_evolution l)) c ip [o]) (h_at h c ip).
Proof.
  intros h H. destruct o as [s c0 ip0|s c0 ip0|s c0 ip0]; destruct H as [Hc Hip].
  - exists l. unfold li_step, li_Stress, ev_Kappa. fold h. rewrite read_ok by assumption. simpl. repeat split; auto.
  - exists l. unfold li_step, li_Tangent, ev_Kappa, ev_DkappaDstrain. fold h. rewrite read_ok by assumption. simpl. repeat split; auto.
  - unfold li_step, li_Update, ev_Update, ev_Kappa. fold h. rewrite read_ok by assumption. simpl.
    unfold h_write. pose proof Hc as Hc'. pose proof Hip as Hip'. apply Nat.ltb_lt in Hc', Hip'. rewrite Hc', Hip'. simpl.
    eexists. split; [reflexivity|]. simpl. repeat split; auto. intros c ip.
    destruct (Nat.eqb_spec c c0) as [->|Hne]; destruct (Nat.eqb_spec ip ip0) as [->|Hne']; simpl; try reflexivity.
    rewrite std_max_spec. apply Rmax_comm.
Qed.

Lemma updates_cons d n c ip o ops : updates_at d n c ip (o :: ops) = updates_at d n c ip [o] ++ updates_at d n c ip ops.
Proof. unfold updates_at. simpl. rewrite app_nil_r. reflexivity. Qed.

Lemma run_spec d ops : forall l, let h := ev_kappas (li_evolution l) in List.Forall (in_range h) ops ->
  exists l', li_run d l ops = Ok l' /\ li_elastic l' = li_elastic l /\ li_law l' = li_law l /\
    ev_norm (li_evolution l') = ev_norm (li_evolution l) /\
    h_rows (ev_kappas (li_evolution l')) = h_rows h /\ h_cols (ev_kappas (li_evolution l')) = h_cols h /\
    forall c ip, h_at (ev_kappas (li_evolution l')) c ip = fold_left Rmax (updates_at d (ev_norm (li_evolution l)) c ip ops) (h_at h c ip).
Proof.
  induction ops as [|o ops IH]; intros l h H.
  - exists l. simpl. repeat split; auto.
  - inversion H as [|o' ops' Ho Hops]; subst.
    destruct (step_spec d l o Ho) as (l1 & E1 & A1 & A2 & A3 & A4 & A5 & A6).
    destruct (IH l1) as (l2 & E2 & B1 & B2 & B3 & B4 & B5 & B6).
    { eapply List.Forall_impl; [|exact Hops]. intros o'' Ho''. destruct o''; unfold in_range in *; rewrite A4, A5; exact Ho''. }
    exists l2. cbn [li_run]. rewrite E1. cbn [obind]. rewrite E2. split; [reflexivity|]. split; [congruence|]. split; [congruence|]. split; [congruence|].
    split; [rewrite B4; exact A4|]. split; [rewrite B5; exact A5|].
    intros c ip. rewrite B6, A6, A3, (updates_cons _ _ _ _ o ops), fold_left_app. reflexivity.
Qed.

Lemma fold_max_spec l : forall k, 0 <= k -> 
  let m := fold_left Rmax l k in k <= m /\ (forall x, In x l -> x <= m) /\ (m = k \/ In m l).
Proof.
  induction l as [|x l IH]; intros k Hk; simpl; [split; [lra|split; [tauto|auto]]|].
  destruct (IH (Rmax k x)) as (A & B & C). { pose proof (Rmax_l k x). lra. }
  pose proof (Rmax_l k x). pose proof (Rmax_r k x). split; [|split].
  - lra.
  - intros y [->|Hy]; [lra|auto].
  - destruct C as [C|C]; [|auto]. rewrite C. unfold Rmax. destruct (Rle_dec k x); auto.
Qed.
Lemma fold_max_zero l : maximum_from_zero l (fold_left Rmax l 0).
Proof. destruct (fold_max_spec l 0 ltac:(lra)) as (A & B & C). split; [lra|]. auto. Qed.

Lemma run_app d a b l : li_run d l (a ++ b) = obind (li_run d l a) (fun l' => li_run d l' b).
Proof. revert l. induction a as [|o a IH]; intros l; simpl; [reflexivity|]. destruct (li_step d l o); simpl; auto. Qed.

(** ** the tangent of the damage model *)
Lemma locally_lt (f : R -> R) a x : continuous f x -> f x < a -> locally x (fun t => f t < a).
Proof. intros Hc H. apply (Hc (fun y => y < a)). apply open_lt. exact H. Qed.
Lemma locally_gt (f : R -> R) a x : continuous f x -> a < f x -> locally x (fun t => a < f t).
Proof. intros Hc H. apply (Hc (fun y => a < y)). apply open_gt. exact H. Qed.

Section Tangent.
Variables (d : nat) (E nu k : R) (app : eDamageApplication) (ps psn : ePlaneState) (law : DamageLaw) (h : history) (c ip : nat).
Hypothesis Hd : (1 <= d <= 3)%nat.
Hypothesis Hnu : -1 < nu < 1/2.
Hypothesis Hk : 1 <= k.
Hypothesis Hc : (c < h_rows h)%nat.
Hypothesis Hip : (ip < h_cols h)%nat.
Let l := led_make d E nu app ps.
Let n := mm_make nu k psn.
Let m := li_make l law {| ev_norm := n; ev_kappas := h |}.
Let kappa := h_at h c ip.

Lemma stress_eq s : li_Stress d m s c ip = Ok (led_Stress d l s (Damage law (Rmax (mm_Value d n s) kappa))).
Proof. unfold li_Stress, ev_Kappa. simpl. rewrite read_ok by assumption. simpl. rewrite std_max_spec. reflexivity. Qed.

Definition component (i : nat) (s : vec) : R := match li_Stress d m s c ip with Ok v => v i | _ => 0 end.

Lemma tangent_eq s : li_Tangent d m s c ip =
  Ok (fun i j => led_DstressDstrain d l s (Damage law (Rmax (mm_Value d n s) kappa)) i j +
                 led_DstressDomega d l s (Damage law (Rmax (mm_Value d n s) kappa)) i * Derivative law (Rmax (mm_Value d n s) kappa) *
                 (if rleb kappa (mm_Value d n s) then mm_Derivative d n s j else 0)).
Proof.
  unfold li_Tangent, ev_Kappa, ev_DkappaDstrain. simpl. rewrite read_ok by assumption. simpl. rewrite std_max_spec.
  fold kappa n l. destruct (rleb kappa (mm_Value d n s)); reflexivity.
Qed.

Lemma tangent_unloading x i : (i < Voigt_Dim d)%nat -> app = FULL \/ led_eV d l x <> 0 -> mm_Value d n x < kappa ->
  exists T, li_Tangent d m x c ip = Ok T /\ differential (Voigt_Dim d) (component i) x (T i).
Proof.
  intros Hi Hs Hu. eexists. split; [apply tangent_eq|]. intros v. unfold component.
  rewrite (rsum_ext _ _ (fun j => led_DstressDstrain d l x (Damage law kappa) i j * v j)).
  2:{ intros j Hj. rewrite Rmax_right by lra. destruct (rleb_spec kappa (mm_Value d n x)) as [(_ & H')|(-> & _)]; [lra|]. ring. }
  apply (is_derive_ext_loc (fun t => led_Stress d l (fun j => x j + t * v j) (Damage law kappa) i)).
  - pose proof (Value_continuous_line nu k psn Hnu Hk d x v) as Hcont.
    assert (Hloc : locally 0 (fun t => mm_Value d n (fun i0 => x i0 + t * v i0) < kappa)).
    { apply (locally_lt (fun t => mm_Value d n (fun i0 => x i0 + t * v i0))); [exact Hcont|].
      replace (mm_Value d n (fun i0 => x i0 + 0 * v i0)) with (mm_Value d n x); [exact Hu|].
      unfold mm_Value. rewrite I1_move, !mm_A_Q, mm_Q_move. rewrite !Rmult_0_l, !Rplus_0_r. reflexivity. }
    apply (filter_imp (F := locally 0) (fun t => mm_Value d n (fun i0 => x i0 + t * v i0) < kappa)); [|exact Hloc].
    intros t Ht. rewrite stress_eq, Rmax_right by lra. reflexivity.
  - apply led_dstrain; assumption.
Qed.

Lemma Damage_line_derive x v a : kappa < mm_Value d n x -> 0 < mm_Value d n x + mm_Value d n (fun i => - x i) ->
  is_derive (Damage law) (mm_Value d n x) a ->
  is_derive (fun t => Damage law (mm_Value d n (fun i => x i + t * v i))) 0 (a * rsum (Voigt_Dim d) (fun j => mm_Derivative d n x j * v j)).
Proof.
  intros Hl Hp Ha. rewrite Rmult_comm.
  apply (is_derive_comp (K := R_AbsRing) (V := R_NormedModule) (Damage law) (fun t => mm_Value d n (fun i => x i + t * v i))).
  - replace (mm_Value d n (fun i0 => x i0 + 0 * v i0)) with (mm_Value d n x); [exact Ha|].
    unfold mm_Value. rewrite I1_move, !mm_A_Q, mm_Q_move. rewrite !Rmult_0_l, !Rplus_0_r. reflexivity.
  - apply (gradient nu k psn Hnu Hk d x Hd Hp v).
Qed.

Lemma tangent_loading x i : (i < Voigt_Dim d)%nat -> app = FULL \/ led_eV d l x <> 0 -> kappa < mm_Value d n x ->
  0 < mm_Value d n x + mm_Value d n (fun i => - x i) ->
  is_derive (Damage law) (mm_Value d n x) (Derivative law (mm_Value d n x)) ->
  exists T, li_Tangent d m x c ip = Ok T /\ differential (Voigt_Dim d) (component i) x (T i).
Proof.
  intros Hi Hs Hu Hp Ha. eexists. split; [apply tangent_eq|]. intros v. unfold component.
  pose proof (Damage_line_derive x v _ Hu Hp Ha) as Hw.
  set (G := rsum (Voigt_Dim d) (fun j => mm_Derivative d n x j * v j)) in *.
  set (W := fun t => Damage law (mm_Value d n (fun i => x i + t * v i))) in *.
  assert (HW0 : W 0 = Damage law (mm_Value d n x)).
  { unfold W. f_equal. unfold mm_Value. rewrite I1_move, !mm_A_Q, mm_Q_move. rewrite !Rmult_0_l, !Rplus_0_r. reflexivity. }
  rewrite (rsum_ext _ _ (fun j => led_DstressDstrain d l x (W 0) i j * v j + led_DstressDomega d l x (W 0) i * Derivative law (mm_Value d n x) * (mm_Derivative d n x j * v j))).
  2:{ intros j Hj. rewrite HW0, Rmax_left by lra. destruct (rleb_spec kappa (mm_Value d n x)) as [(-> & _)|(_ & H')]; [|lra]. ring. }
  rewrite rsum_plus, rsum_scal. fold G.
  pose proof (led_dstrain d E nu app ps x (W 0) i Hi Hs v) as D1. fold l in D1. set (S1 := rsum (Voigt_Dim d) (fun j => led_DstressDstrain d l x (W 0) i j * v j)) in *.
  set (h0 := led_H l (led_eV d l x)).
  assert (Haff : forall s w w', led_Stress d l s w i = led_Stress d l s w' i + (w - w') * led_DstressDomega d l s w' i).
  { intros s w w'. unfold led_Stress, led_DstressDomega; cbv zeta. ring. }
  apply (is_derive_ext_loc (fun t => led_Stress d l (fun j => x j + t * v j) (W 0) i + (W t - W 0) * (mD l i * (- m3K l * (led_eV d l x + t * led_eV d l v) * h0) - m2G l * mPinvDiag l i * (x i + t * v i - mD l i * (led_eV d l x + t * led_eV d l v))))).
  - pose proof (Value_continuous_line nu k psn Hnu Hk d x v) as Hcont.
    assert (Hloc : locally 0 (fun t => kappa < mm_Value d n (fun i0 => x i0 + t * v i0))).
    { apply (locally_gt (fun t => mm_Value d n (fun i0 => x i0 + t * v i0))); [exact Hcont|].
      replace (mm_Value d n (fun i0 => x i0 + 0 * v i0)) with (mm_Value d n x); [exact Hu|].
      unfold mm_Value. rewrite I1_move, !mm_A_Q, mm_Q_move. rewrite !Rmult_0_l, !Rplus_0_r. reflexivity. }
    pose proof (sign_stable l (led_eV d l x) (led_eV d l v) Hs) as Hsig.
    apply (filter_imp (F := locally 0) (fun t => kappa < mm_Value d n (fun i0 => x i0 + t * v i0) /\ led_H l (led_eV d l x + t * led_eV d l v) = h0)); [|apply filter_and; [exact Hloc|exact Hsig]].
    intros t [Ht Ht']. rewrite stress_eq, Rmax_left by lra. change (Damage law (mm_Value d n (fun j => x j + t * v j))) with (W t).
    rewrite (Haff _ (W t) (W 0)). f_equal. f_equal. unfold led_DstressDomega; cbv zeta. rewrite led_eV_move, Ht'. reflexivity.
  - apply (is_derive_plus (V := R_NormedModule)); [exact D1|].
    unfold led_DstressDomega; cbv zeta. fold h0.
    generalize dependent (Derivative law (mm_Value d n x)). intros a Ha Hw.
    generalize (mD l i) (m3K l) (m2G l) (mPinvDiag l i) (led_eV d l x) (led_eV d l v) (x i) (v i). intros a1 a2 a3 a4 a5 a6 a7 a8.
    change (is_derive W 0 (a * G)) in Hw. clear - Hw. clearbody W G h0.
    assert (Hq : is_derive (fun t => W t - W 0) 0 (a * G)).
    { replace (a * G) with (minus (a * G) zero) by (unfold minus, plus, opp, zero; simpl; ring).
      apply (is_derive_minus (V := R_NormedModule)); [exact Hw|apply (is_derive_const (V := R_NormedModule))]. }
    set (U := fun t => W t - W 0) in *. assert (HU : U 0 = 0) by (unfold U; ring). change (is_derive U 0 (a * G)) in Hq.
    match goal with |- is_derive (fun t => (W t - W 0) * _) _ ?r => change (is_derive (fun t => U t * (a1 * (- a2 * (a5 + t * a6) * h0) - a3 * a4 * (a7 + t * a8 - a1 * (a5 + t * a6)))) 0 r) end. clearbody U.
    assert (Hex : ex_derive U 0) by (eexists; exact Hq). apply is_derive_unique in Hq.
    auto_derive; [exact Hex|]. change (Derive (fun x => U x) 0) with (Derive U 0). rewrite Hq, HU. ring.
Qed.
End Tangent.
