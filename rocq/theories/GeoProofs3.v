(** * Proofs for property C96: two dimensions, and how far written numbers are from the given ones *)
From Coq Require Import String List ZArith Bool Reals Permutation Lia Lra.
From Flocq Require Import Core Relative.
From Verif Require Import Outcome Vec3 GeoModel GeoSpec GeoProofs GeoProofs2.
From Verif Require SerializeModel.
Import ListNotations.
Local Open Scope Z_scope.

Definition listed2 (s : state) : Prop := Permutation (map fst (surfaces (geo s))) (theAggregates s ++ theInterfaces s).
Definition good2 (n i : nat) (s : state) : Prop := invariant s /\ counts n i s /\ listed2 s.
Definition layers2 (h : R) : nat := if Req_EM_T h 0 then 0%nat else 4%nat.
Definition step_2d (h : R) (i : nat) (s : state) (a : agg) : outcome state :=
  call (sphere_params (vx (fst a)) (vy (fst a)) 0 (snd a)) i s (if Req_EM_T h 0 then aggregate_2d else aggregate_2d_with_interface).
Ltac nodup := repeat (constructor; [cbn [In]; lia|]); constructor.
Ltac on_circle C := cbn [snd]; eexists; split; [apply (in_points _ _ _ _ C); inT|]; split; [unfold dot, vsub; cbn [vx vy vz]; ring|reflexivity].
Lemma step_2d_ok h i s a : good2 (layers2 h) i s ->
  exists s' v o ifs, step_2d h i s a = Ok s' /\ good2 (layers2 h) (S i) s' /\ grows (geo s) (geo s')
    /\ theAggregates s' = theAggregates s ++ [v] /\ theOuter s' = theOuter s ++ [o] /\ theInterfaces s' = theInterfaces s ++ ifs
    /\ (h <> 0 -> snd a <> 0 -> all_arcs_proper (geo s) -> all_arcs_proper (geo s'))%R
    /\ (h = 0%R -> forall m, grows (geo s') m -> consistent m -> ~ all_arcs_proper m)
    /\ forall m, grows (geo s') m -> disk_ok h m a v o ifs.
Proof.
  intros (HI & HC & HL). unfold step_2d, layers2, disk_ok in *. pose proof HC as (C1 & C2 & C3). set (P := sphere_params _ _ _ _).
  assert (EZ : in_plane (fst a) = V3 (xC P) (yC P) 0) by reflexivity.
  assert (ER : written (snd a) = Rad P) by reflexivity.
  destruct (Req_EM_T h 0) as [E|E].
  - rewrite (call_T 0 aggregate_2d P (T_plain2 P) s i (run_plain2 P) eq_refl HC).
    eexists _, _, _, _. split; [reflexivity|]. split; [|split; [apply grows_embed|split; [reflexivity|split; [reflexivity|split; [reflexivity|split; [|split]]]]]].
    + split; [|split].
      * apply invariant_embed; try assumption; try reflexivity; discriminate.
      * unfold counts. cbn [embed_state theAggregates theOuter theInterfaces T_plain2 sh_list map]. rewrite !app_length, C1, C2, C3. cbn. lia.
      * unfold listed2. eapply surfaces_embed; [exact HL|apply Permutation_refl|reflexivity].
    + intros N. contradiction.
    + intros _ m Hm HCm. assert (HT : contains (nextp s) (nextr s) (geo (T_plain2 P)) m)
        by (eapply contains_grows; [apply contains_embed|exact Hm]).
      apply (half_circle m (0 + nextr s) (1 + nextp s) (0 + nextp s) (2 + nextp s) (V3 (xC P) (yC P) 0) (V3 (xC P + Rad P) (yC P) 0) (V3 (xC P - Rad P) (yC P) 0) HCm).
      * exact (in_curves _ _ _ _ HT 0%Z (CCircle 1 0 2) ltac:(inT)).
      * apply (in_points _ _ _ _ HT). inT.
      * apply (in_points _ _ _ _ HT). inT.
      * apply (in_points _ _ _ _ HT). inT.
      * unfold vadd, smul, vsub. cbn [vx vy vz]. f_equal; ring.
    + intros m Hm. assert (HT : contains (nextp s) (nextr s) (geo (T_plain2 P)) m)
        by (eapply contains_grows; [apply contains_embed|exact Hm]).
      split; [reflexivity|]. split; [exact (in_surfaces _ _ _ _ HT 3 (SLoops [2]) ltac:(inT))|].
      exists (map (sh_signed (nextr s)) [(true, 0); (true, 1)]). split; [apply (in_loops _ _ _ _ HT); inT|]. rewrite EZ, ER.
      exists (0 + nextp s), [1 + nextp s; 2 + nextp s]. split; [apply (in_points _ _ _ _ HT); inT|].
      split; [nodup|]. split; [discriminate|]. split.
      * repeat apply Forall_cons; try constructor; on_circle HT.
      * cbn [map arcs_through hd]. repeat split.
        -- apply (arc_sh m _ _ _ (true, 0) 0 1 2 HT). unfold arc; cbn [fst snd]; inT.
        -- apply (arc_sh m _ _ _ (true, 1) 0 2 1 HT). unfold arc; cbn [fst snd]; inT.
  - rewrite (call_T 4 aggregate_2d_with_interface P (T_coated2 P) s i (run_coated2 P) eq_refl HC).
    eexists _, _, _, _. split; [reflexivity|]. split; [|split; [apply grows_embed|split; [reflexivity|split; [reflexivity|split; [reflexivity|split; [|split]]]]]].
    + split; [|split].
      * apply invariant_embed; try assumption; try reflexivity; discriminate.
      * unfold counts. cbn [embed_state theAggregates theOuter theInterfaces T_coated2 sh_list map]. rewrite !app_length, C1, C2, C3. cbn. lia.
      * unfold listed2. eapply surfaces_embed; [exact HL|apply Permutation_refl|reflexivity].
    + intros _ Hr HA. apply arcs_embed; [exact HA|]. apply arcs_coated2. unfold P, sphere_params. cbn [Rad].
      unfold written. apply round_neq_0_negligible_exp; [typeclasses eauto| |typeclasses eauto|exact Hr]. apply negligible_exp_FLX. reflexivity.
    + intros N. contradiction.
    + intros m Hm. assert (HT : contains (nextp s) (nextr s) (geo (T_coated2 P)) m)
        by (eapply contains_grows; [apply contains_embed|exact Hm]).
      exists (4 + nextr s), (map (sh_signed (nextr s)) [(true, 0); (true, 1); (true, 2); (true, 3)]), (map (sh_signed (nextr s)) [(true, 6); (true, 8); (true, 10); (true, 12)]).
      split; [exact (in_surfaces _ _ _ _ HT 5 (SLoops [4]) ltac:(inT))|].
      split; [apply (in_loops _ _ _ _ HT); inT|]. split; [|split; [apply (in_loops _ _ _ _ HT); inT|split]].
      * rewrite EZ, ER. exists (0 + nextp s), [1 + nextp s; 2 + nextp s; 3 + nextp s; 4 + nextp s]. split; [apply (in_points _ _ _ _ HT); inT|].
        split; [nodup|]. split; [discriminate|]. split.
        -- repeat apply Forall_cons; try constructor; on_circle HT.
        -- cbn [map arcs_through hd]. repeat split.
           ++ apply (arc_sh m _ _ _ (true, 0) 0 1 2 HT). unfold arc; cbn [fst snd]; inT.
           ++ apply (arc_sh m _ _ _ (true, 1) 0 2 3 HT). unfold arc; cbn [fst snd]; inT.
           ++ apply (arc_sh m _ _ _ (true, 2) 0 3 4 HT). unfold arc; cbn [fst snd]; inT.
           ++ apply (arc_sh m _ _ _ (true, 3) 0 4 1 HT). unfold arc; cbn [fst snd]; inT.
      * cbn [map]. repeat (apply Forall2_cons; [split; [reflexivity|]; split; [reflexivity|]; unfold sh_signed; cbn [fst snd];
          match goal with |- In (?x + _, COffset (?y + _)) _ => exact (in_curves _ _ _ _ HT x (COffset y) ltac:(inT)) end|]). constructor.
      * unfold sh_list. cbn [T_coated2 theInterfaces map sh_signed fst snd].
        repeat (apply Forall2_cons; [unfold sh_signed; cbn [fst snd]; match goal with |- In (?x + _, SStrip (?y + _)) _ => exact (in_surfaces _ _ _ _ HT x (SStrip y) ltac:(inT)) end|]). constructor.
Qed.
Lemma aggregates_2d_ok h l : forall i s, good2 (layers2 h) i s ->
  exists s' As Os Is, aggregates_2d h i s l = Ok s' /\ good2 (layers2 h) (i + length l) s' /\ grows (geo s) (geo s')
    /\ theAggregates s' = theAggregates s ++ As /\ theOuter s' = theOuter s ++ Os /\ theInterfaces s' = theInterfaces s ++ concat Is
    /\ length As = length l /\ length Os = length l /\ length Is = length l
    /\ (h <> 0 -> Forall (fun a => snd a <> 0) l -> all_arcs_proper (geo s) -> all_arcs_proper (geo s'))%R
    /\ (h = 0%R -> l <> [] -> forall m, grows (geo s') m -> consistent m -> ~ all_arcs_proper m)
    /\ forall m, grows (geo s') m -> Forall2 (fun a '(v, (o, ifs)) => disk_ok h m a v o ifs) l (combine As (combine Os Is)).
Proof.
  induction l as [|a l IH]; intros i s HG.
  - exists s, [], [], []. cbn. rewrite Nat.add_0_r, !app_nil_r. split; [reflexivity|]. split; [exact HG|]. split; [apply grows_refl|].
    repeat (split; [reflexivity|]). split; [auto|]. split; [intros _ N; contradiction|]. intros. constructor.
  - destruct (step_2d_ok h i s a HG) as (s1 & v & o & ifs & E & HG1 & Gr & EA & EO & EI & AR & HF0 & HA).
    destruct (IH (S i) s1 HG1) as (s2 & As & Os & Is & E2 & HG2 & Gr2 & EA2 & EO2 & EI2 & L1 & L2 & L3 & AR2 & HF2 & HA2).
    exists s2, (v :: As), (o :: Os), (ifs :: Is). destruct a as [c r]. unfold step_2d in E. cbn [fst snd] in E.
    cbn [aggregates_2d]. rewrite E. cbn [obind]. split; [exact E2|].
    split; [cbn [length]; rewrite <- plus_n_Sm; exact HG2|].
    split; [eapply grows_trans; eassumption|]. rewrite EA2, EO2, EI2, EA, EO, EI, <- !app_assoc. cbn [length concat].
    do 6 (split; [f_equal; assumption|]). split; [intros Hh HF; inversion HF; subst; auto|].
    split; [intros Hh _ m Hm; apply HF0; [exact Hh|eapply grows_trans; eassumption]|]. intros m Hm. cbn [combine]. constructor; [|exact (HA2 m Hm)].
    apply HA. eapply grows_trans; eassumption.
Qed.
Lemma good_start2 n : good2 n 0 start.
Proof. destruct (good_start n) as (H1 & H2 & _). split; [exact H1|split; [exact H2|]]. unfold listed2. cbn. constructor. Qed.
Lemma combine_outer2 h m : forall l As Os Is, length As = length l -> length Os = length l -> length Is = length l ->
  Forall2 (fun a '(v, (o, ifs)) => disk_ok h m a v o ifs) l (combine As (combine Os Is)) -> forall o, In o Os -> defined o (loops m).
Proof.
  induction l as [|a l IH]; intros [|v As] [|o Os] [|ifs Is]; cbn [length]; try discriminate; intros H1 H2 H3 HF o' Ho; [destruct Ho|].
  cbn [combine] in HF. inversion HF; subst. destruct Ho as [Ho|Ho].
  - subst o'. unfold disk_ok in *. destruct (Req_EM_T h 0).
    + match goal with X : plain_disk _ _ _ _ _ |- _ => destruct X as (_ & _ & fs & X & _) end. eapply in_fst; eassumption.
    + match goal with X : coated_disk _ _ _ _ _ |- _ => destruct X as (? & ? & ? & _ & _ & _ & X & _) end. eapply in_fst; eassumption.
  - apply (IH As Os Is); auto.
Qed.
Lemma finish_2d h l lo hi : l <> [] ->
  exists r fs, write_box_2d lo hi l h = Ok r /\ consistent (r_model r) /\ right_surfaces l h r
    /\ In (r_box r, fs) (loops (r_model r)) /\ rectangle_2d (r_model r) (written3 lo) (written3 hi) fs
    /\ (h <> 0 -> Forall (fun a => snd a <> 0) l -> all_arcs_proper (r_model r))%R /\ (h = 0%R -> ~ all_arcs_proper (r_model r)).
Proof.
  intros Hne. unfold write_box_2d. set (P := mkParams _ _ _ _ _ _ _ _ _ _ _ _).
  destruct (aggregates_2d_ok h l 0 start (good_start2 _)) as (s & As & Os & Is & E & (HI & HC & HL) & Gr & EA & EO & EI & L1 & L2 & L3 & AR & HF0 & HA).
  rewrite E. cbn [obind]. cbn [start theAggregates theOuter theInterfaces app] in EA, EO, EI.
  assert (EC : call P 0 s box_2d = call P (0 + length l) s box_2d) by (apply exec_all_index; reflexivity).
  assert (K : forallb (kinded (layers2 h)) box_2d = true) by reflexivity.
  rewrite EC, (call_T _ box_2d P (T_box2 P) s _ (run_box2 P) K HC). cbn [obind].
  set (s' := embed_state (nextp s) (nextr s) (geo s) (theAggregates s) (theOuter s) (theInterfaces s) (T_box2 P)).
  assert (EA' : theAggregates s' = As) by (unfold s'; cbn [embed_state theAggregates T_box2 sh_list map]; rewrite EA; apply app_nil_r).
  assert (EO' : theOuter s' = Os) by (unfold s'; cbn [embed_state theOuter T_box2 sh_list map]; rewrite EO; apply app_nil_r).
  assert (EI' : theInterfaces s' = concat Is) by (unfold s'; cbn [embed_state theInterfaces T_box2 sh_list map]; rewrite EI; apply app_nil_r).
  assert (EB : lookup "theBox" (vars s') = Ok (4 + nextr s)) by (unfold s'; cbn [embed_state vars]; rewrite lookup_sh; reflexivity).
  assert (HI' : invariant s') by (apply invariant_embed; try assumption; try reflexivity; discriminate).
  assert (Gr' : grows (geo s) (geo s')) by apply grows_embed.
  assert (HCt : contains (nextp s) (nextr s) (geo (T_box2 P)) (geo s')) by apply contains_embed.
  unfold footer_2d. rewrite EA', EO', EI', EB.
  destruct As as [|v As], Os as [|o Os]; cbn [length] in L1, L2; try (exfalso; apply Hne; destruct l; [reflexivity|discriminate]).
  cbn [assigned obind omap]. eexists _, (map (sh_signed (nextr s)) [(true, 0); (true, 1); (true, 2); (true, 3)]). split; [reflexivity|].
  cbn [r_model r_matrix r_box r_aggregates r_outer r_interfaces].
  assert (Gf : grows (geo s') (geo (add_surface s' (nextr s') (SLoops (4 + nextr s :: o :: Os))))) by apply grows_add_surface.
  pose proof (contains_grows _ _ _ _ _ HCt Gf) as HT.
  assert (HCf : consistent (geo (add_surface s' (nextr s') (SLoops (4 + nextr s :: o :: Os))))).
  { apply consistent_surface; [exact HI'|]. intros t [<-|Ho].
    + eapply in_fst. exact (in_loops _ _ _ _ HCt 4 _ ltac:(inT)).
    + eapply (combine_outer2 h (geo s') l (v :: As) (o :: Os) Is); try assumption. apply HA. exact Gr'. }
  split; [exact HCf|]. split; [|split; [|split; [|split]]].
  - unfold right_surfaces. cbn [r_model r_matrix r_box r_aggregates r_outer r_interfaces]. split; [|split].
    + exists Is. split; [reflexivity|]. split; [apply HA; eapply grows_trans; eassumption|]. repeat split; assumption.
    + cbn [add_surface with_object geo surfaces]. apply in_app_iff. right. left. reflexivity.
    + cbn [add_surface with_object geo surfaces]. rewrite map_app. cbn [map fst].
      eapply perm_trans; [|apply Permutation_cons_append]. apply perm_skip. apply Permutation_sym.
      unfold s'. cbn [embed_state geo embed surfaces T_box2 map]. rewrite app_nil_r. unfold listed2 in HL. rewrite EA, EI in HL. exact HL.
  - exact (in_loops _ _ _ _ HT 4 [(true, 0); (true, 1); (true, 2); (true, 3)] ltac:(inT)).
  - exists (sh_signed (nextr s) (true, 0)), (sh_signed (nextr s) (true, 1)), (sh_signed (nextr s) (true, 2)), (sh_signed (nextr s) (true, 3)),
      (0 + nextp s), (1 + nextp s), (2 + nextp s), (3 + nextp s). split; [reflexivity|].
    do 4 (split; [eapply line_sh; [exact HT|unfold line; cbn [fst snd]; inT]|]).
    do 3 (split; [apply (in_points _ _ _ _ HT); inT|]). apply (in_points _ _ _ _ HT); inT.
  - intros Hh HF t p z q H. eapply proper_grows; [exact Gf|]. revert t p z q H. apply arcs_embed.
    + apply AR; try assumption. apply no_arcs. intros ? ? ? ? [].
    + apply no_arcs. intros t p z q H. cbn [T_box2 geo curves In] in H. repeat (destruct H as [H|H]; [discriminate H|]). destruct H.
  - intros Hh. apply HF0; [exact Hh|exact Hne|eapply grows_trans; eassumption|exact HCf].
Qed.

(** ** Written numbers *)
Local Open Scope R_scope.
Definition u6 : R := 5 / 1000000.
Lemma written_error x : Rabs (written x - x) <= u6 * Rabs x.
Proof.
  unfold written. pose proof (relative_error_N_FLX SerializeModel.radix10 6 eq_refl (fun x => negb (Z.even x)) x) as H.
  eapply Rle_trans; [exact H|]. apply Rmult_le_compat_r; [apply Rabs_pos|]. unfold u6. cbn. lra.
Qed.
Lemma written_digits m e : (Z.abs m < 1000000)%Z -> written (IZR m * bpow SerializeModel.radix10 e) = IZR m * bpow SerializeModel.radix10 e.
Proof.
  intros H. unfold written. apply round_generic; [typeclasses eauto|]. apply generic_format_FLX.
  exists (Float SerializeModel.radix10 m e); [reflexivity|exact H].
Qed.
Lemma written_near x m e : (100000 <= m < 1000000)%Z -> Rabs (x - IZR m * bpow SerializeModel.radix10 e) < / 2 * bpow SerializeModel.radix10 e ->
  100000 * bpow SerializeModel.radix10 e <= x ->
  x < 1000000 * bpow SerializeModel.radix10 e -> written x = IZR m * bpow SerializeModel.radix10 e.
Proof.
  intros Hm H1 H2 H3. set (B := bpow SerializeModel.radix10 e) in *. assert (HB : 0 < B) by apply bpow_gt_0.
  assert (HM : mag SerializeModel.radix10 x = (e + 6)%Z :> Z).
  { apply mag_unique. replace (e + 6 - 1)%Z with (5 + e)%Z by ring. replace (e + 6)%Z with (6 + e)%Z by ring. rewrite !bpow_plus.
    fold B. rewrite Rabs_pos_eq by nra. cbn. split; lra. }
  unfold written, round, F2R, scaled_mantissa, cexp. rewrite HM. unfold FLX_exp. replace (e + 6 - 6)%Z with e by ring. cbn [Fnum Fexp]. fold B. f_equal. f_equal.
  apply Znearest_imp. rewrite bpow_opp. fold B. replace (x * / B - IZR m) with ((x - IZR m * B) * / B) by (field; lra).
  rewrite Rabs_mult, (Rabs_pos_eq (/ B)) by (left; apply Rinv_0_lt_compat; exact HB).
  apply Rmult_lt_reg_r with B; [exact HB|]. rewrite Rmult_assoc, Rinv_l, Rmult_1_r by lra. exact H1.
Qed.
(** norms *)
Lemma dot_sq a : 0 <= dot a a.
Proof. unfold dot. nra. Qed.
Lemma cauchy a b : dot a b <= vnorm a * vnorm b.
Proof.
  unfold vnorm. rewrite <- sqrt_mult by apply dot_sq. destruct (Rle_lt_dec (dot a b) 0) as [H|H]; [eapply Rle_trans; [exact H|apply sqrt_pos]|].
  rewrite <- (sqrt_Rsqr (dot a b)) by lra. apply sqrt_le_1_alt. unfold Rsqr, dot.
  assert (0 <= (vx a * vy b - vy a * vx b)² + (vx a * vz b - vz a * vx b)² + (vy a * vz b - vz a * vy b)²).
  { pose proof (Rle_0_sqr (vx a * vy b - vy a * vx b)). pose proof (Rle_0_sqr (vx a * vz b - vz a * vx b)). pose proof (Rle_0_sqr (vy a * vz b - vz a * vy b)). lra. }
  unfold Rsqr in *. nra.
Qed.
Lemma triangle_norm a b : vnorm (vadd a b) <= vnorm a + vnorm b.
Proof.
  assert (0 <= vnorm a) by apply sqrt_pos. assert (0 <= vnorm b) by apply sqrt_pos.
  unfold vnorm at 1. rewrite <- (sqrt_Rsqr (vnorm a + vnorm b)) by lra. apply sqrt_le_1_alt.
  replace (dot (vadd a b) (vadd a b)) with (dot a a + 2 * dot a b + dot b b) by (unfold dot, vadd; cbn; ring).
  pose proof (cauchy a b). unfold Rsqr. assert (vnorm a * vnorm a = dot a a) by (apply sqrt_sqrt, dot_sq). assert (vnorm b * vnorm b = dot b b) by (apply sqrt_sqrt, dot_sq). nra.
Qed.
Lemma norm_sym a b : vnorm (vsub a b) = vnorm (vsub b a).
Proof. unfold vnorm. f_equal. unfold dot, vsub. cbn. ring. Qed.
Lemma written3_error p : vnorm (vsub (written3 p) p) <= u6 * vnorm p.
Proof.
  assert (Hu : 0 <= u6) by (unfold u6; lra).
  unfold vnorm. rewrite <- (sqrt_Rsqr u6 Hu). rewrite <- sqrt_mult; [|apply Rle_0_sqr|apply dot_sq]. apply sqrt_le_1_alt.
  assert (S : forall x, (written x - x) * (written x - x) <= u6 * u6 * (x * x)).
  { intros x. pose proof (written_error x) as H. pose proof (Rabs_pos (written x - x)). pose proof (Rabs_pos x).
    replace ((written x - x) * (written x - x)) with (Rabs (written x - x) * Rabs (written x - x)) by (rewrite <- Rabs_mult; apply Rabs_pos_eq; apply Rle_0_sqr).
    replace (u6 * u6 * (x * x)) with ((u6 * Rabs x) * (u6 * Rabs x)).
    - apply Rmult_le_compat; assumption.
    - replace (x * x) with (Rabs x * Rabs x) by (rewrite <- Rabs_mult; apply Rabs_pos_eq; apply Rle_0_sqr). ring. }
  unfold dot, vsub, written3, Rsqr. cbn [vx vy vz]. pose proof (S (vx p)). pose proof (S (vy p)). pose proof (S (vz p)). lra.
Qed.
