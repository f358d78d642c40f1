(** * Further statements of C42, C64, C81 and C96 *)
From Coq Require Import String Permutation Arith ZArith Bool Reals Lra Lia.
From Coq Require Import List.
From Verif Require Import RSum Outcome AdaptiveModel AdaptiveProofs Vec3 ElasticModel ElasticSpec PropElastic IntegrandModel PropIntegrand.
From Verif Require TakeModel GeoModel GeoSpec PropGeo.
Import ListNotations.
Local Open Scope R_scope.

(** ** C81: when the user has set the size of the history, it starts at zero for every integration point, so after any calls every
    entry is the largest of zero and the nonlocal strains of the Update calls of that point - whatever the history was before *)
Theorem C81_fresh_history : forall d g rows cols ops, List.Forall (call_inside rows cols) ops ->
  exists g', gd_run d (gd_resize g rows cols) ops = Ok g' /\ h_rows (gd_kappas g') = rows /\ h_cols (gd_kappas g') = cols
  /\ gd_c g' = gd_c g /\ gd_elastic g' = gd_elastic g /\ gd_law g' = gd_law g /\ gd_norm g' = gd_norm g /\ gd_inter g' = gd_inter g
  /\ forall c ip, maximum_from_zero (updated_eeqs c ip ops) (h_at (gd_kappas g') c ip).
Proof.
  intros d g rows cols ops H. destruct (C81_history d (gd_resize g rows cols) rows cols ops eq_refl eq_refl H) as (h & E & R & C & M).
  eexists. split; [exact E|]. cbn [gd_kappas gd_c gd_elastic gd_law gd_norm gd_inter gd_resize]. repeat (split; [first [exact R|exact C|reflexivity]|]).
  intros c ip. exact (M c ip).
Qed.
Print Assumptions C81_fresh_history.

(** ** C42: Resize forgets the history: afterwards the law behaves as one that was just made with the new sizes, whatever calls were
    made before *)
Theorem C42_resize : forall d rows cols elastic law e ops, List.Forall (addresses rows cols) ops ->
  exists l, li_run d (li_make elastic law (ev_Resize e rows cols)) ops = Ok l /\
  forall c ip, (c < rows)%nat -> (ip < cols)%nat ->
    maximum_from_zero (map (mm_Value d (ev_norm e)) (updated_strains c ip ops)) (kappa_of l c ip) /\
    (forall strain, exists k, maximum_from_zero (mm_Value d (ev_norm e) strain :: map (mm_Value d (ev_norm e)) (updated_strains c ip ops)) k /\
       li_Stress d l strain c ip = Ok (led_Stress d elastic strain (Damage law k))).
Proof. intros d rows cols elastic law e ops H. exact (C42_history d rows cols elastic law (ev_norm e) ops H). Qed.
Print Assumptions C42_resize.

(** ** C64: a grading curve without classes, with a class whose smallest diameter is above its largest or whose fraction is not between
    zero and one is refused before any random number is read; for every other curve a Throw comes from placing the particles *)
Definition sensible_curve (curve : list TakeModel.gclass) : Prop :=
  curve <> [] /\ forall c, In c curve -> TakeModel.cmin c <= TakeModel.cmax c /\ 0 <= TakeModel.cfrac c <= 1.
Theorem C64_curve_check : forall fuel u u' junk ty lo len volume shrinkage relVolume rel ab maxTries curve boundary,
  (~ sensible_curve curve -> TakeModel.create_spheres fuel u u' junk ty lo len volume shrinkage relVolume rel ab maxTries curve boundary = Throw) /\
  (sensible_curve curve -> TakeModel.take_phase fuel u junk volume shrinkage relVolume curve boundary = None ->
     TakeModel.create_spheres fuel u u' junk ty lo len volume shrinkage relVolume rel ab maxTries curve boundary = Ok None) /\
  (sensible_curve curve -> TakeModel.create_spheres fuel u u' junk ty lo len volume shrinkage relVolume rel ab maxTries curve boundary = Throw ->
     exists ps, TakeModel.take_phase fuel u junk volume shrinkage relVolume curve boundary = Some ps /\
       TakeModel.place_phase fuel ty lo len shrinkage rel ab maxTries u' (map snd ps) (fun i => nth i (map fst ps) (V3 0 0 0)) = Throw).
Proof.
  intros. 
  assert (K : TakeModel.check_curve curve = true <-> sensible_curve curve).
  { unfold TakeModel.check_curve, sensible_curve. rewrite andb_true_iff, forallb_forall.
    assert (P : forall c, TakeModel.class_ok c = true <-> TakeModel.cmin c <= TakeModel.cmax c /\ 0 <= TakeModel.cfrac c <= 1).
    { intros c. unfold TakeModel.class_ok.
      destruct (rltb_spec (TakeModel.cmax c) (TakeModel.cmin c)) as [(-> & L1)|(-> & L1)]; destruct (rltb_spec (TakeModel.cfrac c) 0) as [(-> & L2)|(-> & L2)];
      destruct (rltb_spec 1 (TakeModel.cfrac c)) as [(-> & L3)|(-> & L3)]; cbn [andb orb negb]; split; intros Q; try discriminate; try reflexivity; lra. }
    split.
    - intros (N & A). split; [destruct curve; [discriminate|discriminate]|]. intros c Hc. apply P, A, Hc.
    - intros (N & A). split; [destruct curve; [congruence|reflexivity]|]. intros c Hc. apply P, A, Hc. }
  unfold TakeModel.create_spheres. destruct (TakeModel.check_curve curve) eqn:E.
  - assert (S : sensible_curve curve) by (apply K; reflexivity). split; [contradiction|]. split; [intros _ ->; reflexivity|]. intros _.
    destruct (TakeModel.take_phase fuel u junk volume shrinkage relVolume curve boundary) as [ps|]; [|discriminate]. intros T. exists ps. split; [reflexivity|].
    destruct (TakeModel.place_phase _ _ _ _ _ _ _ _ _ _ _) as [[pos|]| |]; cbn [obind] in T; congruence.
  - split; [reflexivity|]. split; intros S; exfalso; apply K in S; discriminate.
Qed.
Print Assumptions C64_curve_check.
(** a class with a fraction above one *)
Example C64_bad_curve : ~ sensible_curve [TakeModel.mkClass 2 8 (3 / 2)] /\ sensible_curve [TakeModel.mkClass 2 8 (1 / 2)].
Proof.
  split; [intros (_ & H); specialize (H _ (or_introl eq_refl)); cbn in H; lra|]. split; [discriminate|]. intros c [<-|[]]. cbn. lra.
Qed.

(** ** C96 in two dimensions: the groups hold each surface of the script exactly once: the matrix is the specimen with the holes, the
    aggregates are surfaces inside closed loops, and the interfaces, entered with a minus sign, are the strips *)
Theorem C96_groups_2d : forall m a i lo hi l h r, l <> [] -> GeoModel.write_box_2d lo hi l h = Ok r ->
  exists v As Is, GeoModel.groups_2d m a i h r = ([(m, [v]); (a, As)] ++ (if Req_EM_T h 0 then [] else [(i, map Z.opp Is)]))%list
  /\ Permutation (v :: As ++ Is) (map fst (GeoModel.surfaces (GeoModel.r_model r))) /\ NoDup (v :: As ++ Is)
  /\ length As = length l /\ (h = 0 -> Is = [])
  /\ (exists holes, In (v, GeoModel.SLoops (GeoModel.r_box r :: holes)) (GeoModel.surfaces (GeoModel.r_model r)) /\ length holes = length l)
  /\ (forall s, In s As -> exists o, In (s, GeoModel.SLoops [o]) (GeoModel.surfaces (GeoModel.r_model r)))
  /\ (forall s, In s Is -> exists e, In (s, GeoModel.SStrip e) (GeoModel.surfaces (GeoModel.r_model r))).
Proof.
  intros m a i lo hi l h r Hne E. destruct (PropGeo.C96_disks_partial lo hi l h Hne) as (r' & fs & E' & HC & HS & _).
  rewrite E in E'. injection E' as <-. destruct HS as ((ifss & HI & HF & L1 & L2 & L3) & HM & HP).
  exists (GeoModel.r_matrix r), (GeoModel.r_aggregates r), (GeoModel.r_interfaces r).
  split; [reflexivity|]. split; [exact HP|].
  split; [apply (Permutation_NoDup (Permutation_sym HP)); exact (GeoSpec.once_surfaces _ HC)|]. split; [exact L1|].
  assert (X : (h = 0 -> GeoModel.r_interfaces r = [])
    /\ (forall s, In s (GeoModel.r_aggregates r) -> exists o, In (s, GeoModel.SLoops [o]) (GeoModel.surfaces (GeoModel.r_model r)))
    /\ (forall s, In s (GeoModel.r_interfaces r) -> exists e, In (s, GeoModel.SStrip e) (GeoModel.surfaces (GeoModel.r_model r)))).
  { rewrite HI. clear - HF L1 L2 L3. revert HF L1 L2 L3. generalize (GeoModel.r_aggregates r) (GeoModel.r_outer r). revert ifss.
    induction l as [|x l IH]; intros [|ifs Is] [|v As] [|o Os]; cbn [length]; try discriminate; intros HF L1 L2 L3;
      [split; [reflexivity|]; split; intros s []|].
    cbn [combine] in HF. inversion HF as [|? ? ? ? HD HF']; subst. destruct (IH Is As Os) as (I1 & I2 & I3); auto.
    unfold GeoSpec.disk_ok in HD. destruct (Req_EM_T h 0) as [Eh|Eh].
    - destruct HD as (-> & HD & _). cbn [concat app]. split; [exact I1|]. split; [|exact I3]. intros s [<-|Hs]; [exists o; exact HD|apply I2; exact Hs].
    - split; [contradiction|]. destruct HD as (inner & lp & outer & D1 & _ & _ & _ & _ & D2). split.
      + intros s [<-|Hs]; [exists inner; exact D1|apply I2; exact Hs].
      + intros s Hs. cbn [concat] in Hs. apply in_app_or in Hs. destruct Hs as [Hs|Hs]; [|apply I3; exact Hs].
        clear - D2 Hs. induction D2 as [|e s' lp ifs Hd D2 IH]; [contradiction|]. destruct Hs as [<-|Hs]; [exists (snd e); exact Hd|apply IH; exact Hs]. }
  destruct X as (X1 & X2 & X3). split; [exact X1|]. split; [exists (GeoModel.r_outer r); split; [exact HM|exact L2]|]. split; [exact X2|exact X3].
Qed.
Print Assumptions C96_groups_2d.
(** a script with an interface is written *)
Example C96_groups_2d_case : exists r, GeoModel.write_box_2d (V3 0 0 0) (V3 1 1 0) [(V3 (1 / 2) (1 / 2) 0, 1 / 4)] (1 / 10) = Ok r.
Proof. destruct (PropGeo.C96_disks_partial (V3 0 0 0) (V3 1 1 0) [(V3 (1 / 2) (1 / 2) 0, 1 / 4)] (1 / 10)) as (r & _ & E & _); [discriminate|]. exists r. exact E. Qed.
