(** * Proofs for property C96: the written model as a whole *)
From Coq Require Import String List ZArith Bool Reals Permutation Lia Lra.
From Flocq Require Import Core.
From Verif Require Import Outcome Vec3 GeoModel GeoSpec GeoProofs.
From Verif Require SerializeModel.
Import ListNotations.
Local Open Scope Z_scope.

(** ** Written numbers *)
Local Open Scope R_scope.
Global Instance prec_6 : Prec_gt_0 6 := eq_refl.
Lemma written_le x y : x <= y -> written x <= written y.
Proof. unfold written. apply round_le; typeclasses eauto. Qed.
Lemma written_0 : written 0 = 0.
Proof. unfold written. apply round_0. typeclasses eauto. Qed.
Lemma written_pos x : 0 < x -> 0 < written x.
Proof.
  intros H. assert (0 <= written x) by (rewrite <- written_0; apply written_le; lra).
  assert (written x <> 0); [|lra]. unfold written. apply round_neq_0_negligible_exp; [typeclasses eauto| |typeclasses eauto|lra].
  apply negligible_exp_FLX. reflexivity.
Qed.
Local Open Scope Z_scope.

(** ** One call *)
Definition counts (n i : nat) (s : state) : Prop :=
  length (theAggregates s) = i /\ length (theOuter s) = i /\ length (theInterfaces s) = (n * i)%nat.
Definition sh_tag (dr t : Z) : Z := t + dr.
Lemma call_T n f P T s i : exec_all P 0 zero f = Ok T -> forallb (kinded n) f = true -> counts n i s ->
  call P i s f = Ok (embed_state (nextp s) (nextr s) (geo s) (theAggregates s) (theOuter s) (theInterfaces s) T).
Proof.
  intros HT K (H1 & H2 & H3). rewrite <- H1. rewrite (call_embed n) by (try assumption; lia). rewrite HT. reflexivity.
Qed.
Lemma volumes_embed dp dr G T A I vs : Permutation (map fst (volumes G)) (A ++ I) -> Permutation (map fst (volumes (geo T))) vs ->
  forall a i, vs = a ++ i -> Permutation (map fst (volumes (embed dp dr G (geo T)))) ((A ++ sh_list dr a) ++ (I ++ sh_list dr i)).
Proof.
  intros HG HT a i ->. cbn [embed volumes]. rewrite map_app, map_fst_shp.
  eapply perm_trans; [apply Permutation_app; [exact HG|apply Permutation_map; exact HT]|].
  unfold sh_list. rewrite map_app, <- !app_assoc. apply Permutation_app_head. rewrite !app_assoc. apply Permutation_app_tail, Permutation_app_comm.
Qed.
Lemma surfaces_embed dp dr G T A I vs : Permutation (map fst (surfaces G)) (A ++ I) -> Permutation (map fst (surfaces (geo T))) vs ->
  forall a i, vs = a ++ i -> Permutation (map fst (surfaces (embed dp dr G (geo T)))) ((A ++ sh_list dr a) ++ (I ++ sh_list dr i)).
Proof.
  intros HG HT a i ->. cbn [embed surfaces]. rewrite map_app, map_fst_shp.
  eapply perm_trans; [apply Permutation_app; [exact HG|apply Permutation_map; exact HT]|].
  unfold sh_list. rewrite map_app, <- !app_assoc. apply Permutation_app_head. rewrite !app_assoc. apply Permutation_app_tail, Permutation_app_comm.
Qed.
Lemma contains_sphere_plain dp dr P m : contains dp dr (geo (T_plain P)) m -> contains dp dr (geo (T_sphere P)) m.
Proof. intros []. constructor; intros t c H; auto. Qed.
Lemma contains_sphere_coated dp dr P m : contains dp dr (geo (T_coated P)) m -> contains dp dr (geo (T_sphere P)) m.
Proof.
  intros [H1 H2 H3 H4 H5 H6]. constructor; intros t c H; auto.
  - apply H4. cbn [T_coated T_sphere geo surfaces In] in *. tauto.
  - apply H5. cbn [T_coated T_sphere geo shells In] in *. tauto.
  - apply H6. cbn [T_coated T_sphere geo volumes In] in *. tauto.
Qed.

(** ** Arcs *)
Lemma proper_contains dp dr T m z p q : contains dp dr T m -> proper_arc T z p q -> proper_arc m (z + dp) (p + dp) (q + dp).
Proof.
  intros C (Z0 & P & Q & H1 & H2 & H3 & H4). exists Z0, P, Q.
  split; [exact (in_points _ _ _ _ C _ _ H1)|]. split; [exact (in_points _ _ _ _ C _ _ H2)|]. split; [exact (in_points _ _ _ _ C _ _ H3)|exact H4].
Qed.
Lemma proper_grows m m' z p q : grows m m' -> proper_arc m z p q -> proper_arc m' z p q.
Proof.
  intros G (Z0 & P & Q & H1 & H2 & H3 & H4). exists Z0, P, Q.
  split; [exact (g_points _ _ G _ H1)|]. split; [exact (g_points _ _ G _ H2)|]. split; [exact (g_points _ _ G _ H3)|exact H4].
Qed.
Lemma arcs_embed dp dr G T : all_arcs_proper G -> all_arcs_proper T -> all_arcs_proper (embed dp dr G T).
Proof.
  intros HG HT t p z q H. cbn [embed curves] in H. apply in_app_iff in H. destruct H as [H|H].
  - eapply proper_grows; [apply grows_embed|]. eapply HG; eassumption.
  - apply in_map_iff in H. destruct H as ((t' & c) & E & H). unfold shp in E. cbn [fst snd] in E. destruct c as [? ?|a c b|?]; cbn in E; try discriminate.
    inversion E; subst. eapply proper_contains; [apply contains_embed|]. eapply HT; eassumption.
Qed.
Lemma no_arcs T : (forall t p z q, ~ In (t, CCircle p z q) (curves T)) -> all_arcs_proper T.
Proof. intros H t p z q Hi. exfalso. eapply H; eassumption. Qed.
Ltac proper r Hr :=
  eexists _, _, _; split; [inT|]; split; [inT|]; split; [inT|]; split;
  [ unfold dot, vsub; cbn [vx vy vz]; ring
  | intros (a & b & N & E); unfold vadd, smul, vsub in E; cbn [vx vy vz] in E;
    assert (E1 := f_equal vx E); assert (E2 := f_equal vy E); assert (E3 := f_equal vz E); cbn [vx vy vz] in E1, E2, E3;
    assert (Ha : (a * r = 0)%R) by lra; assert (Hb : (b * r = 0)%R) by lra;
    apply Rmult_integral in Ha; apply Rmult_integral in Hb; destruct N as [N|N]; [destruct Ha as [Ha|Ha]|destruct Hb as [Hb|Hb]];
    first [exact (N Ha) | exact (N Hb) | exact (Hr Ha) | exact (Hr Hb)] ].
Lemma arcs_sphere P : (Rad P <> 0)%R -> all_arcs_proper (geo (T_sphere P)).
Proof.
  intros Hr t p z q H. cbn [T_sphere geo curves In] in H.
  repeat (destruct H as [H|H]; [inversion H; subst; clear H; proper (Rad P) Hr|]). destruct H.
Qed.
Lemma arcs_plain P : (Rad P <> 0)%R -> all_arcs_proper (geo (T_plain P)).
Proof. exact (arcs_sphere P). Qed.
Lemma arcs_coated P : (Rad P <> 0)%R -> all_arcs_proper (geo (T_coated P)).
Proof. exact (arcs_sphere P). Qed.
Lemma arcs_coated2 P : (Rad P <> 0)%R -> all_arcs_proper (geo (T_coated2 P)).
Proof.
  intros Hr t p z q H. cbn [T_coated2 geo curves In] in H.
  repeat (destruct H as [H|H]; [try discriminate H; inversion H; subst; clear H; proper (Rad P) Hr|]). destruct H.
Qed.

(** a function that writes no list does the same for every index *)
Definition no_set (c : stmt) : bool := match c with SetAggregate _ | SetOuter _ | SetInterface _ _ _ => false | _ => true end.
Lemma exec_all_index P f i j : forall s, forallb no_set f = true -> exec_all P i s f = exec_all P j s f.
Proof.
  induction f as [|c f IH]; intros s H; [reflexivity|]. cbn [forallb] in H. apply andb_prop in H. destruct H as [H1 H2]. cbn [exec_all].
  replace (exec P j s c) with (exec P i s c) by (destruct c; try reflexivity; discriminate).
  destruct (exec P i s c); cbn [obind]; try reflexivity. apply IH, H2.
Qed.
(** volumes of a model that is being written are those of the lists *)
Definition listed (s : state) : Prop := Permutation (map fst (volumes (geo s))) (theAggregates s ++ theInterfaces s).
Definition good (n i : nat) (s : state) : Prop := invariant s /\ counts n i s /\ listed s.
Definition layers (h : R) : nat := if Req_EM_T h 0 then 0%nat else 8%nat.
Definition step_3d (h : R) (i : nat) (s : state) (a : agg) : outcome state :=
  let P := sphere_params (vx (fst a)) (vy (fst a)) (vz (fst a)) (snd a) in
  if Req_EM_T h 0 then call P i s aggregate else call (shrunk P (written h)) i s aggregate_with_interface.
Lemma step_3d_ok h i s a : (0 <= h <= snd a)%R -> (0 < snd a)%R -> good (layers h) i s ->
  exists s' v o ifs, step_3d h i s a = Ok s' /\ good (layers h) (S i) s' /\ grows (geo s) (geo s')
    /\ theAggregates s' = theAggregates s ++ [v] /\ theOuter s' = theOuter s ++ [o] /\ theInterfaces s' = theInterfaces s ++ ifs
    /\ (all_arcs_proper (geo s) -> all_arcs_proper (geo s'))
    /\ forall m, grows (geo s') m -> aggregate_ok h m a v o ifs.
Proof.
  intros Hh Hr (HI & HC & HL). unfold step_3d, layers, aggregate_ok in *. pose proof (written_pos _ Hr) as Hw. pose proof HC as (C1 & C2 & C3).
  destruct (Req_EM_T h 0) as [E|E].
  - set (P := sphere_params _ _ _ _). rewrite (call_T 0 aggregate P (T_plain P) s i (run_plain P) eq_refl HC).
    eexists _, _, _, _. split; [reflexivity|]. split; [|split; [apply grows_embed|split; [reflexivity|split; [reflexivity|split; [reflexivity|split]]]]].
    + split; [|split].
      * apply invariant_embed; try assumption; try reflexivity; discriminate.
      * unfold counts. cbn [embed_state theAggregates theOuter theInterfaces T_plain sh_list map]. rewrite !app_length, C1, C2, C3. cbn. lia.
      * unfold listed. eapply volumes_embed; [exact HL|apply Permutation_refl|reflexivity].
    + intros HA. apply arcs_embed; [exact HA|]. apply arcs_plain. apply Rgt_not_eq. exact Hw.
    + intros m Hm. assert (HT : contains (nextp s) (nextr s) (geo (T_plain P)) m)
        by (eapply contains_grows; [apply contains_embed|exact Hm]).
      split; [reflexivity|]. split; [exact (in_volumes _ _ _ _ HT 28 (VShells [28]) ltac:(inT))|].
      exists (sh_list (nextr s) [20; 21; 22; 23; 24; 25; 26; 27]). split; [apply (in_shells _ _ _ _ HT); inT|].
      exact (sphere_ok m (nextp s) (nextr s) P (contains_sphere_plain _ _ _ _ HT) Hw).
  - set (P := shrunk _ _).
    assert (HP : (0 < Rad P)%R).
    { unfold P, shrunk, sphere_params. cbn [Rad]. pose proof (written_le h (snd a) (proj2 Hh)). lra. }
    rewrite (call_T 8 aggregate_with_interface P (T_coated P) s i (run_coated P) eq_refl HC).
    eexists _, _, _, _. split; [reflexivity|]. split; [|split; [apply grows_embed|split; [reflexivity|split; [reflexivity|split; [reflexivity|split]]]]].
    + split; [|split].
      * apply invariant_embed; try assumption; try reflexivity; discriminate.
      * unfold counts. cbn [embed_state theAggregates theOuter theInterfaces T_coated sh_list map]. rewrite !app_length, C1, C2, C3. cbn. lia.
      * unfold listed. eapply volumes_embed; [exact HL|apply Permutation_refl|reflexivity].
    + intros HA. apply arcs_embed; [exact HA|]. apply arcs_coated. apply Rgt_not_eq. exact HP.
    + intros m Hm. assert (HT : contains (nextp s) (nextr s) (geo (T_coated P)) m)
        by (eapply contains_grows; [apply contains_embed|exact Hm]).
      pose proof (sphere_ok m (nextp s) (nextr s) P (contains_sphere_coated _ _ _ _ HT) HP) as HS.
      exists (28 + nextr s), (sh_list (nextr s) [20; 21; 22; 23; 24; 25; 26; 27]), (sh_list (nextr s) [29; 31; 33; 35; 37; 39; 41; 43]).
      split; [exact (in_volumes _ _ _ _ HT 28 (VShells [28]) ltac:(inT))|].
      split; [apply (in_shells _ _ _ _ HT); inT|].
      split.
      { replace (written (snd a) - written h / 2)%R with (Rad P) by (unfold P, shrunk, sphere_params; cbn [Rad]; lra). exact HS. }
      split; [apply (in_shells _ _ _ _ HT); inT|]. split.
      * unfold sh_list. cbn [map].
        repeat (apply Forall2_cons; [match goal with |- In (?x + _, SOffset (?y + _)) _ => exact (in_surfaces _ _ _ _ HT x (SOffset y) ltac:(inT)) end|]). constructor.
      * unfold sh_list. cbn [T_coated theInterfaces map].
        repeat (apply Forall2_cons; [match goal with |- In (?x + _, VLayer (?y + _)) _ => exact (in_volumes _ _ _ _ HT x (VLayer y) ltac:(inT)) end|]). constructor.
Qed.
Lemma aggregates_3d_ok h l : thin h l -> forall i s, good (layers h) i s ->
  exists s' As Os Is, aggregates_3d h i s l = Ok s' /\ good (layers h) (i + length l) s' /\ grows (geo s) (geo s')
    /\ theAggregates s' = theAggregates s ++ As /\ theOuter s' = theOuter s ++ Os /\ theInterfaces s' = theInterfaces s ++ concat Is
    /\ length As = length l /\ length Os = length l /\ length Is = length l
    /\ (all_arcs_proper (geo s) -> all_arcs_proper (geo s'))
    /\ forall m, grows (geo s') m -> Forall2 (fun a '(v, (o, ifs)) => aggregate_ok h m a v o ifs) l (combine As (combine Os Is)).
Proof.
  induction l as [|a l IH]; intros [Hh HT] i s HG.
  - exists s, [], [], []. cbn. rewrite Nat.add_0_r, !app_nil_r. split; [reflexivity|]. split; [exact HG|]. split; [apply grows_refl|].
    repeat (split; [reflexivity|]). split; [auto|]. intros. constructor.
  - inversion HT as [|? ? [Hr Hle] HT']; subst.
    destruct (step_3d_ok h i s a (conj Hh Hle) Hr HG) as (s1 & v & o & ifs & E & HG1 & Gr & EA & EO & EI & AR & HA).
    destruct (IH (conj Hh HT') (S i) s1 HG1) as (s2 & As & Os & Is & E2 & HG2 & Gr2 & EA2 & EO2 & EI2 & L1 & L2 & L3 & AR2 & HA2).
    exists s2, (v :: As), (o :: Os), (ifs :: Is). destruct a as [c r]. unfold step_3d in E. cbn [fst snd] in E.
    cbn [aggregates_3d]. cbv zeta. rewrite E. cbn [obind]. split; [exact E2|].
    split; [cbn [length]; rewrite <- plus_n_Sm; exact HG2|].
    split; [eapply grows_trans; eassumption|]. rewrite EA2, EO2, EI2, EA, EO, EI, <- !app_assoc. cbn [length concat].
    do 6 (split; [f_equal; assumption|]). split; [auto|]. intros m Hm. cbn [combine]. constructor; [|exact (HA2 m Hm)].
    apply HA. eapply grows_trans; eassumption.
Qed.
Lemma good_start n : good n 0 start.
Proof.
  split; [|split].
  - split; [apply checkb_ok; reflexivity|]. unfold bounded. cbn. repeat split; constructor.
  - unfold counts. cbn. lia.
  - unfold listed. cbn. constructor.
Qed.

(** ** The specimen and the matrix *)
Lemma consistent_volume s v : invariant s -> (forall t, In t v -> defined t (shells (geo s))) -> consistent (geo (add_volume s (nextr s) (VShells v))).
Proof.
  intros [[c1 c2 c3 c4 c5 c6 d1 d2 d3 d4 d5] (B1 & B2 & B3 & B4 & B5 & B6)] Hv. unfold add_volume, with_object. cbn [geo].
  constructor; cbn [points curves loops surfaces shells volumes]; try assumption.
  - rewrite map_app. cbn. apply NoDup_Add with (a := nextr s) (l := map fst (volumes (geo s))).
    + rewrite <- (app_nil_r (map fst (volumes (geo s)))) at 1. apply Add_app.
    + split; [assumption|]. unfold below in B6. rewrite Forall_forall in B6. intros H. specialize (B6 _ H). lia.
  - intros t f H. apply in_app_iff in H. destruct H as [H|[H|[]]]; [apply (d5 _ _ H)|]. inversion H; subst. exact Hv.
Qed.
Lemma consistent_surface s v : invariant s -> (forall t, In t v -> defined t (loops (geo s))) -> consistent (geo (add_surface s (nextr s) (SLoops v))).
Proof.
  intros [[c1 c2 c3 c4 c5 c6 d1 d2 d3 d4 d5] (B1 & B2 & B3 & B4 & B5 & B6)] Hv. unfold add_surface, with_object. cbn [geo].
  constructor; cbn [points curves loops surfaces shells volumes]; try assumption.
  - rewrite map_app. cbn. apply NoDup_Add with (a := nextr s) (l := map fst (surfaces (geo s))).
    + rewrite <- (app_nil_r (map fst (surfaces (geo s)))) at 1. apply Add_app.
    + split; [assumption|]. unfold below in B4. rewrite Forall_forall in B4. intros H. specialize (B4 _ H). lia.
  - intros t f H. apply in_app_iff in H. destruct H as [H|[H|[]]].
    + specialize (d3 _ _ H). destruct f; try assumption. apply defined_app_l. assumption.
    + inversion H; subst. exact Hv.
  - intros t l f H Hf. apply defined_app_l. eapply d4; eassumption.
  - intros t f H. specialize (d5 _ _ H). destruct f; [assumption|]. apply defined_app_l. assumption.
Qed.
Lemma grows_add_volume s t v : grows (geo s) (geo (add_volume s t v)).
Proof. constructor; cbn; try apply incl_refl. apply incl_appl, incl_refl. Qed.
Lemma grows_add_surface s t v : grows (geo s) (geo (add_surface s t v)).
Proof. constructor; cbn; try apply incl_refl. apply incl_appl, incl_refl. Qed.
Lemma in_fst {A} t (x : A) l : In (t, x) l -> defined t l.
Proof. intros H. apply in_map_iff. exists (t, x). auto. Qed.
Lemma combine_outer h m : forall l As Os Is, length As = length l -> length Os = length l -> length Is = length l ->
  Forall2 (fun a '(v, (o, ifs)) => aggregate_ok h m a v o ifs) l (combine As (combine Os Is)) -> forall o, In o Os -> defined o (shells m).
Proof.
  induction l as [|a l IH]; intros [|v As] [|o Os] [|ifs Is]; cbn [length]; try discriminate; intros H1 H2 H3 HF o' Ho; [destruct Ho|].
  cbn [combine] in HF. inversion HF; subst. destruct Ho as [Ho|Ho].
  - subst o'. unfold aggregate_ok in *. destruct (Req_EM_T h 0).
    + match goal with X : plain_aggregate _ _ _ _ _ |- _ => destruct X as (_ & _ & fs & X & _) end. eapply in_fst; eassumption.
    + match goal with X : coated_aggregate _ _ _ _ _ _ |- _ => destruct X as (? & ? & ? & _ & _ & _ & X & _) end. eapply in_fst; eassumption.
  - apply (IH As Os Is); auto.
Qed.
(** the footer, after the call of a function [f] that defines theBox and no volumes *)
Lemma finish_3d h l f P T k fs : thin h l -> l <> [] -> exec_all P 0 zero f = Ok T -> forallb (kinded (layers h)) f = true -> forallb no_set f = true ->
  checkb (geo T) = true -> rangesb T = true -> 0 <= nextp T -> 0 <= nextr T -> volumes (geo T) = [] ->
  theAggregates T = [] -> theOuter T = [] -> theInterfaces T = [] -> lookup "theBox" (vars T) = Ok k -> In (k, fs) (shells (geo T)) ->
  exists r dp dr, obind (aggregates_3d h 0 start l) (fun s => obind (call P 0 s f) footer_3d) = Ok r /\ consistent (r_model r) /\ right_volumes l h r
    /\ contains dp dr (geo T) (r_model r) /\ r_box r = k + dr /\ (all_arcs_proper (geo T) -> all_arcs_proper (r_model r)).
Proof.
  intros Ht Hne HT K Hns Hc Hrg Hp Hr HV H1 H2 H3 Hk Hfs.
  destruct (aggregates_3d_ok h l Ht 0 start (good_start _)) as (s & As & Os & Is & E & (HI & HC & HL) & Gr & EA & EO & EI & L1 & L2 & L3 & AR & HA).
  rewrite E. cbn [obind]. cbn [start theAggregates theOuter theInterfaces app] in EA, EO, EI.
  assert (EC : call P 0 s f = call P (0 + length l) s f) by (apply exec_all_index; exact Hns).
  rewrite EC, (call_T _ f P T s _ HT K HC). cbn [obind].
  set (s' := embed_state (nextp s) (nextr s) (geo s) (theAggregates s) (theOuter s) (theInterfaces s) T).
  assert (EA' : theAggregates s' = As) by (unfold s'; cbn [embed_state theAggregates]; rewrite H1, EA; apply app_nil_r).
  assert (EO' : theOuter s' = Os) by (unfold s'; cbn [embed_state theOuter]; rewrite H2, EO; apply app_nil_r).
  assert (EI' : theInterfaces s' = concat Is) by (unfold s'; cbn [embed_state theInterfaces]; rewrite H3, EI; apply app_nil_r).
  assert (EB : lookup "theBox" (vars s') = Ok (k + nextr s)) by (unfold s'; cbn [embed_state vars]; rewrite lookup_sh, Hk; reflexivity).
  assert (HI' : invariant s') by (apply invariant_embed; assumption).
  assert (Gr' : grows (geo s) (geo s')) by apply grows_embed.
  assert (HCt : contains (nextp s) (nextr s) (geo T) (geo s')) by apply contains_embed.
  unfold footer_3d. rewrite EA', EO', EI', EB.
  destruct As as [|v As], Os as [|o Os]; cbn [length] in L1, L2; try (exfalso; apply Hne; destruct l; [reflexivity|discriminate]).
  cbn [assigned obind omap]. eexists _, (nextp s), (nextr s). split; [reflexivity|].
  cbn [r_model r_matrix r_box r_aggregates r_outer r_interfaces].
  assert (Gf : grows (geo s') (geo (add_volume s' (nextr s') (VShells (k + nextr s :: o :: Os))))) by apply grows_add_volume.
  split; [|split; [|split; [|split; [reflexivity|]]]].
  - apply consistent_volume; [exact HI'|]. intros t [<-|Ho].
    + eapply in_fst. exact (in_shells _ _ _ _ HCt _ _ Hfs).
    + eapply (combine_outer h (geo s') l (v :: As) (o :: Os) Is); try assumption. apply HA. exact Gr'.
  - unfold right_volumes. cbn [r_model r_matrix r_box r_aggregates r_outer r_interfaces]. split; [|split].
    + exists Is. split; [reflexivity|]. split; [apply HA; eapply grows_trans; eassumption|]. repeat split; assumption.
    + cbn [add_volume with_object geo volumes]. apply in_app_iff. right. left. reflexivity.
    + cbn [add_volume with_object geo volumes]. rewrite map_app. cbn [map fst].
      eapply perm_trans; [|apply Permutation_cons_append]. apply perm_skip. apply Permutation_sym.
      unfold s'. cbn [embed_state geo embed volumes]. rewrite HV. cbn [map]. rewrite app_nil_r. unfold listed in HL. rewrite EA, EI in HL. exact HL.
  - eapply contains_grows; eassumption.
  - intros HAT t p z q H. eapply proper_grows; [exact Gf|]. revert t p z q H. apply arcs_embed; [|exact HAT]. apply AR. apply no_arcs. intros ? ? ? ? [].
Qed.

(** ** The cylinder *)
Lemma count_shift d l c : count_occ Z.eq_dec (map (fun t => t + d) l) (c + d) = count_occ Z.eq_dec l c.
Proof.
  induction l as [|x l IH]; [reflexivity|]. cbn [map count_occ]. destruct (Z.eq_dec (x + d) (c + d)), (Z.eq_dec x c); try lia; rewrite IH; reflexivity.
Qed.
Lemma unoriented_of m dr fs L : Forall2 (fun f l => bounded_by m (f + dr) (map (sh_signed dr) l)) fs L ->
  forallb (fun c => Nat.eqb (count_occ Z.eq_dec (map snd (concat L)) c) 2) (map snd (concat L)) = true -> closed_unoriented m (sh_list dr fs).
Proof.
  intros HF HN. exists (map (map (sh_signed dr)) L). rewrite <- concat_map. split.
  - clear HN. induction HF; cbn; constructor; auto.
  - assert (EM : map snd (map (sh_signed dr) (concat L)) = map (fun t => t + dr) (map snd (concat L))) by (rewrite !map_map; reflexivity).
    rewrite EM. intros c H. apply in_map_iff in H. destruct H as (t & <- & H). rewrite count_shift.
    rewrite forallb_forall in HN. apply Nat.eqb_eq, HN, H.
Qed.
Lemma bounded_unique m f l l' : consistent m -> bounded_by m f l -> bounded_by m f l' -> l = l'.
Proof.
  intros HC (t & H1 & H2) (t' & H1' & H2').
  assert (U : forall A (L : list (Z * A)) k x y, NoDup (map fst L) -> In (k, x) L -> In (k, y) L -> x = y).
  { intros A L k x y HN. induction L as [|[k0 z] L IH]; [intros []|]. cbn in HN. inversion HN; subst. intros [E|Hx] [E'|Hy].
    - congruence.
    - inversion E; subst. exfalso. match goal with X : ~ In _ _ |- _ => apply X end. apply in_map_iff. exists (k, y). auto.
    - inversion E'; subst. exfalso. match goal with X : ~ In _ _ |- _ => apply X end. apply in_map_iff. exists (k, x). auto.
    - auto. }
  pose proof (U _ _ _ _ _ (once_surfaces m HC) H1 H1') as E. inversion E; subst. exact (U _ _ _ _ _ (once_loops m HC) H2 H2').
Qed.
Lemma forall2_unique {A B} (R : A -> B -> Prop) (f : forall x y y', R x y -> R x y' -> y = y') l m m' : Forall2 R l m -> Forall2 R l m' -> m = m'.
Proof.
  intros H. revert m'. induction H; intros m' H'; inversion H'; subst; [reflexivity|]. f_equal; eauto.
Qed.

Lemma cylinder_ok m dp dr P : contains dp dr (geo (T_cylinder P)) m ->
  cylinder_surface m (radius P) (height P) (sh_list dr [12; 13; 3; 7]) /\ In (14 + dr, sh_list dr [12; 13; 3; 7]) (shells m).
Proof.
  intros C. split; [|apply (in_shells _ _ _ _ C); inT]. split.
  - eapply (unoriented_of m dr _ [_; _; _; _]).
    { apply Forall2_cons; [eapply (bounded_sh m dp dr _ 12 10 _ C); inT|].
      apply Forall2_cons; [eapply (bounded_sh m dp dr _ 13 11 _ C); inT|].
      apply Forall2_cons; [eapply (bounded_sh m dp dr _ 3 2 _ C); inT|].
      apply Forall2_cons; [eapply (bounded_sh m dp dr _ 7 6 _ C); inT|]. constructor. }
    { reflexivity. }
  - exists (3 + dr), (7 + dr), (12 + dr), (13 + dr), (map (sh_signed dr) [(true, 0); (true, 1)]), (map (sh_signed dr) [(true, 4); (true, 5)]).
    split; [|split; [|split; [|split; [|split; [|split]]]]].
    + exact (Permutation_app_comm [12 + dr; 13 + dr] [3 + dr; 7 + dr]).
    + eapply (bounded_sh m dp dr _ 3 2 _ C); inT.
    + exists (0 + dp), [1 + dp; 2 + dp]. split; [apply (in_points _ _ _ _ C); inT|]. split.
      { constructor; [cbn [In]; intros [H|[]]; lia|]. constructor; [intros []|constructor]. }
      split; [discriminate|]. split.
      * repeat apply Forall_cons; try constructor.
        -- eexists. split; [apply (in_points _ _ _ _ C); inT|]. split; [unfold dot, vsub; cbn [vx vy vz]; ring|reflexivity].
        -- eexists. split; [apply (in_points _ _ _ _ C); inT|]. split; [unfold dot, vsub; cbn [vx vy vz]; ring|reflexivity].
      * cbn [map arcs_through hd]. repeat split.
        -- apply (arc_sh m dp dr _ (true, 0) 0 1 2 C). unfold arc; cbn [fst snd]; inT.
        -- apply (arc_sh m dp dr _ (true, 1) 0 2 1 C). unfold arc; cbn [fst snd]; inT.
    + eapply (bounded_sh m dp dr _ 7 6 _ C); inT.
    + exists (3 + dp), [4 + dp; 5 + dp]. split; [apply (in_points _ _ _ _ C); inT|]. split.
      { constructor; [cbn [In]; intros [H|[]]; lia|]. constructor; [intros []|constructor]. }
      split; [discriminate|]. split.
      * repeat apply Forall_cons; try constructor.
        -- eexists. split; [apply (in_points _ _ _ _ C); inT|]. split; [unfold dot, vsub; cbn [vx vy vz]; ring|reflexivity].
        -- eexists. split; [apply (in_points _ _ _ _ C); inT|]. split; [unfold dot, vsub; cbn [vx vy vz]; ring|reflexivity].
      * cbn [map arcs_through hd]. repeat split.
        -- apply (arc_sh m dp dr _ (true, 4) 3 4 5 C). unfold arc; cbn [fst snd]; inT.
        -- apply (arc_sh m dp dr _ (true, 5) 3 5 4 C). unfold arc; cbn [fst snd]; inT.
    + exists (map (sh_signed dr) [(true, 0); (true, 8); (false, 4); (false, 9)]), (sh_signed dr (true, 0)), (sh_signed dr (true, 8)), (sh_signed dr (false, 4)), (sh_signed dr (false, 9)),
        (0 + dp), (3 + dp), (1 + dp), (2 + dp), (4 + dp), (5 + dp), (V3 0 (radius P) 0), (V3 0 (- radius P) 0).
      split; [eapply (bounded_sh m dp dr _ 12 10 _ C); inT|]. split; [reflexivity|].
      split; [eapply arc_sh; [exact C|unfold arc; cbn [fst snd]; inT]|]. split; [eapply line_sh; [exact C|unfold line; cbn [fst snd]; inT]|].
      split; [eapply arc_sh; [exact C|unfold arc; cbn [fst snd]; inT]|]. split; [eapply line_sh; [exact C|unfold line; cbn [fst snd]; inT]|].
      split; [left; reflexivity|]. split; [left; reflexivity|].
      split; [apply (in_points _ _ _ _ C); inT|]. split; [apply (in_points _ _ _ _ C); inT|].
      split.
      * replace (vadd (V3 0 (radius P) 0) (V3 0 0 (height P))) with (V3 0 (radius P) (height P)) by (unfold vadd; cbn [vx vy vz]; f_equal; ring).
        apply (in_points _ _ _ _ C); inT.
      * replace (vadd (V3 0 (- radius P) 0) (V3 0 0 (height P))) with (V3 0 (- radius P) (height P)) by (unfold vadd; cbn [vx vy vz]; f_equal; ring).
        apply (in_points _ _ _ _ C); inT.
    + exists (map (sh_signed dr) [(true, 1); (true, 9); (false, 5); (false, 8)]), (sh_signed dr (true, 1)), (sh_signed dr (true, 9)), (sh_signed dr (false, 5)), (sh_signed dr (false, 8)),
        (0 + dp), (3 + dp), (2 + dp), (1 + dp), (5 + dp), (4 + dp), (V3 0 (- radius P) 0), (V3 0 (radius P) 0).
      split; [eapply (bounded_sh m dp dr _ 13 11 _ C); inT|]. split; [reflexivity|].
      split; [eapply arc_sh; [exact C|unfold arc; cbn [fst snd]; inT]|]. split; [eapply line_sh; [exact C|unfold line; cbn [fst snd]; inT]|].
      split; [eapply arc_sh; [exact C|unfold arc; cbn [fst snd]; inT]|]. split; [eapply line_sh; [exact C|unfold line; cbn [fst snd]; inT]|].
      split; [right; left; reflexivity|]. split; [right; left; reflexivity|].
      split; [apply (in_points _ _ _ _ C); inT|]. split; [apply (in_points _ _ _ _ C); inT|].
      split.
      * replace (vadd (V3 0 (- radius P) 0) (V3 0 0 (height P))) with (V3 0 (- radius P) (height P)) by (unfold vadd; cbn [vx vy vz]; f_equal; ring).
        apply (in_points _ _ _ _ C); inT.
      * replace (vadd (V3 0 (radius P) 0) (V3 0 0 (height P))) with (V3 0 (radius P) (height P)) by (unfold vadd; cbn [vx vy vz]; f_equal; ring).
        apply (in_points _ _ _ _ C); inT.
Qed.
(** the base and a lateral part use a common arc in the same direction *)
Lemma cylinder_not_oriented m dp dr P : consistent m -> contains dp dr (geo (T_cylinder P)) m -> ~ closed_surface m (sh_list dr [12; 13; 3; 7]).
Proof.
  intros HC C (ls & HF & HN & _).
  assert (HF' : Forall2 (bounded_by m) (sh_list dr [12; 13; 3; 7])
    (map (map (sh_signed dr)) [[(true, 0); (true, 8); (false, 4); (false, 9)]; [(true, 1); (true, 9); (false, 5); (false, 8)]; [(true, 0); (true, 1)]; [(true, 4); (true, 5)]])).
  { apply Forall2_cons; [eapply (bounded_sh m dp dr _ 12 10 _ C); inT|].
    apply Forall2_cons; [eapply (bounded_sh m dp dr _ 13 11 _ C); inT|].
    apply Forall2_cons; [eapply (bounded_sh m dp dr _ 3 2 _ C); inT|].
    apply Forall2_cons; [eapply (bounded_sh m dp dr _ 7 6 _ C); inT|]. constructor. }
  pose proof (forall2_unique _ (fun x y y' => bounded_unique m x y y' HC) _ _ _ HF HF') as E. subst ls.
  cbn [map concat app sh_signed fst snd] in HN. inversion HN as [|? ? H _]. apply H. cbn [In]. tauto.
Qed.
(** half circles *)
Lemma point_unique m k x y : consistent m -> In (k, x) (points m) -> In (k, y) (points m) -> x = y.
Proof.
  intros HC. pose proof (once_points m HC) as HN. revert HN. generalize (points m). intros L HN.
  induction L as [|[k0 z] L IH]; [intros []|]. cbn in HN. inversion HN; subst. intros [E|Hx] [E'|Hy].
  - congruence.
  - inversion E; subst. exfalso. match goal with X : ~ In _ _ |- _ => apply X end. apply in_map_iff. exists (k, y). auto.
  - inversion E'; subst. exfalso. match goal with X : ~ In _ _ |- _ => apply X end. apply in_map_iff. exists (k, x). auto.
  - auto.
Qed.
Lemma half_circle m t p z q Z0 P Q : consistent m -> In (t, CCircle p z q) (curves m) -> In (z, Z0) (points m) -> In (p, P) (points m) -> In (q, Q) (points m) ->
  vadd (smul 1 (vsub P Z0)) (smul 1 (vsub Q Z0)) = V3 0 0 0 -> ~ all_arcs_proper m.
Proof.
  intros HC Ht Hz Hp Hq E HA. destruct (HA _ _ _ _ Ht) as (Z1 & P1 & Q1 & H1 & H2 & H3 & _ & N).
  rewrite <- (point_unique m z Z0 Z1 HC Hz H1), <- (point_unique m p P P1 HC Hp H2), <- (point_unique m q Q Q1 HC Hq H3) in N.
  apply N. exists 1%R, 1%R. split; [left; lra|exact E].
Qed.
