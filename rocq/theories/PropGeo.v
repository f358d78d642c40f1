(** * C96: the gmsh geometry of a specimen *)
From Coq Require Import String List ZArith Bool Reals Permutation Lia Lra.
From Flocq Require Import Core.
From Verif Require Import Outcome Vec3 GeoModel GeoSpec GeoProofs GeoProofs2 GeoProofs3.
From Verif Require SerializeModel.
Import ListNotations.
Local Open Scope R_scope.

(** A box with aggregates, with interfaces (h > 0) or without (h = 0): gmsh reads the script without error, the model is
    consistent, every aggregate is the ball that was asked for, with an outward oriented closed surface of eight octants; the
    specimen surface is the closed surface of the box; and the matrix is the rest. *)
Theorem C96_box_partial : forall lo hi l h, l <> [] -> thin h l ->
  exists r fs, write_box_3d lo hi l h = Ok r /\ consistent (r_model r) /\ all_arcs_proper (r_model r) /\ right_volumes l h r
  /\ In (r_box r, fs) (shells (r_model r)) /\ box_surface (r_model r) (written3 lo) (written3 hi) fs.
Proof.
  intros lo hi l h Hne Ht. unfold write_box_3d. set (P := mkParams _ _ _ _ _ _ _ _ _ _ _ _).
  destruct (finish_3d h l box_3d P (T_box P) 24 [13; 17; 15; 19; 21; 23]%Z Ht Hne (run_box P) ltac:(unfold layers; destruct (Req_EM_T h 0); reflexivity)
    eq_refl eq_refl eq_refl ltac:(discriminate) ltac:(discriminate) eq_refl eq_refl eq_refl eq_refl eq_refl ltac:(inT)) as (r & dp & dr & E & HC & HV & HT & HB & HA).
  exists r, (sh_list dr [13; 17; 15; 19; 21; 23]%Z). split; [exact E|]. split; [exact HC|].
  split.
  { apply HA. apply no_arcs. intros t p z q H. cbn [T_box geo curves In] in H. repeat (destruct H as [H|H]; [discriminate H|]). destruct H. }
  split; [exact HV|]. rewrite HB. destruct (box_ok (r_model r) dp dr P HT) as [H1 H2]. split; [exact H2|exact H1].
Qed.
Print Assumptions C96_box_partial.

(** A cylinder; its surface is closed, but see C96_cylinder_orientation_refuted and C96_half_circles_refuted. *)
Theorem C96_cylinder_partial : forall rad hei l h, l <> [] -> thin h l ->
  exists r fs, write_cylinder rad hei l h = Ok r /\ consistent (r_model r) /\ right_volumes l h r
  /\ In (r_box r, fs) (shells (r_model r)) /\ cylinder_surface (r_model r) (written rad) (written hei) fs.
Proof.
  intros rad hei l h Hne Ht. unfold write_cylinder. set (P := mkParams _ _ _ _ _ _ _ _ _ _ _ _).
  destruct (finish_3d h l cylinder_3d P (T_cylinder P) 14 [12; 13; 3; 7]%Z Ht Hne (run_cylinder P) ltac:(unfold layers; destruct (Req_EM_T h 0); reflexivity)
    eq_refl eq_refl eq_refl ltac:(discriminate) ltac:(discriminate) eq_refl eq_refl eq_refl eq_refl eq_refl ltac:(inT)) as (r & dp & dr & E & HC & HV & HT & HB & HA).
  exists r, (sh_list dr [12; 13; 3; 7]%Z). split; [exact E|]. split; [exact HC|]. split; [exact HV|].
  rewrite HB. destruct (cylinder_ok (r_model r) dp dr P HT) as [H1 H2]. split; [exact H2|exact H1].
Qed.
Print Assumptions C96_cylinder_partial.

(** Two dimensions.  Without interfaces the arcs are half circles, see below; with interfaces every arc is proper. *)
Theorem C96_disks_partial : forall lo hi l h, l <> [] ->
  exists r e, write_box_2d lo hi l h = Ok r /\ consistent (r_model r) /\ right_surfaces l h r
  /\ In (r_box r, e) (loops (r_model r)) /\ rectangle_2d (r_model r) (written3 lo) (written3 hi) e
  /\ (h <> 0 -> Forall (fun a => snd a <> 0) l -> all_arcs_proper (r_model r)).
Proof.
  intros lo hi l h H. destruct (finish_2d h l lo hi H) as (r & e & H1 & H2 & H3 & H4 & H5 & H6 & _). exists r, e. auto 10.
Qed.
Print Assumptions C96_disks_partial.

(** Every volume is in exactly one physical group, exactly once. *)
Theorem C96_groups : forall m a i lo hi l h r, l <> [] -> thin h l -> write_box_3d lo hi l h = Ok r ->
  Permutation (concat (map snd (groups_3d m a i h r))) (map fst (volumes (r_model r)))
  /\ NoDup (concat (map snd (groups_3d m a i h r)))
  /\ map fst (groups_3d m a i h r) = if Req_EM_T h 0 then [m; a] else [m; a; i].
Proof.
  intros m a i lo hi l h r Hne Ht E. destruct (C96_box_partial lo hi l h Hne Ht) as (r' & fs & E' & HC & _ & HV & _).
  rewrite E in E'. inversion E'; subst r'. clear E'. destruct HV as ((ifss & HI & HF & L1 & L2 & L3) & _ & HP).
  assert (X : Permutation (concat (map snd (groups_3d m a i h r))) (map fst (volumes (r_model r)))).
  { unfold groups_3d. destruct (Req_EM_T h 0) as [Eh|Eh].
    - cbn [app map snd concat]. assert (Z : r_interfaces r = []).
      { rewrite HI. clear - HF L1 L2 L3 Eh. revert HF L1 L2 L3. generalize (r_aggregates r) (r_outer r). revert ifss. induction l as [|x l IH]; intros [|ifs Is] [|v As] [|o Os]; cbn [length]; try discriminate; intros HF L1 L2 L3; [reflexivity|].
        cbn [combine] in HF. inversion HF; subst. cbn [concat]. rewrite (IH Is As Os) by auto.
        match goal with H : aggregate_ok _ _ _ _ _ _ |- _ => unfold aggregate_ok in H; destruct (Req_EM_T 0 0) as [|N]; [destruct H as [-> _]; reflexivity|exfalso; apply N; reflexivity] end. }
      rewrite Z in HP. rewrite app_nil_r in HP. rewrite app_nil_r. exact HP.
    - cbn [app map snd concat]. rewrite app_nil_r. exact HP. }
  split; [exact X|]. split; [|unfold groups_3d; destruct (Req_EM_T h 0); reflexivity].
  apply (Permutation_NoDup (l := map fst (volumes (r_model r)))); [apply Permutation_sym; exact X|exact (once_volumes _ HC)].
Qed.
Print Assumptions C96_groups.

(** Numbers with at most six digits are written exactly; balls with some distance, relative to their coordinates and radii, do not
    overlap in the file either, with their interfaces (half of the thickness outside). *)
Theorem C96_digits : forall m e, (Z.abs m < 1000000)%Z -> written (IZR m * bpow SerializeModel.radix10 e) = IZR m * bpow SerializeModel.radix10 e.
Proof. exact written_digits. Qed.
Print Assumptions C96_digits.
Definition open_ball (c : v3) (r : R) (p : v3) : Prop := vnorm (vsub p c) < r.
Theorem C96_disjoint : forall h a b, 0 <= h -> 0 <= snd a -> 0 <= snd b ->
  snd a + snd b + h + 5 / 1000000 * (vnorm (fst a) + vnorm (fst b) + snd a + snd b + h) <= vnorm (vsub (fst a) (fst b)) ->
  forall p, ~ (open_ball (written3 (fst a)) (written (snd a) + written h / 2) p /\ open_ball (written3 (fst b)) (written (snd b) + written h / 2) p).
Proof.
  intros h [ca ra] [cb rb] Hh Ha Hb H p [Pa Pb]. cbn [fst snd] in *. unfold open_ball in *.
  pose proof (written3_error ca) as E1. pose proof (written3_error cb) as E2.
  pose proof (written_error ra) as E3. pose proof (written_error rb) as E4. pose proof (written_error h) as E5.
  rewrite (Rabs_pos_eq ra Ha) in E3. rewrite (Rabs_pos_eq rb Hb) in E4. rewrite (Rabs_pos_eq h Hh) in E5.
  apply Rabs_le_inv in E3, E4, E5. unfold u6 in *.
  assert (T : vnorm (vsub ca cb) <= vnorm (vsub (written3 ca) ca) + (vnorm (vsub p (written3 ca)) + (vnorm (vsub p (written3 cb)) + vnorm (vsub (written3 cb) cb)))).
  { rewrite (norm_sym (written3 ca) ca), (norm_sym p (written3 ca)).
    replace (vsub ca cb) with (vadd (vsub ca (written3 ca)) (vadd (vsub (written3 ca) p) (vadd (vsub p (written3 cb)) (vsub (written3 cb) cb))))
      by (destruct ca, cb, p; unfold vadd, vsub, written3; cbn; f_equal; ring).
    eapply Rle_trans; [apply triangle_norm|]. apply Rplus_le_compat_l. eapply Rle_trans; [apply triangle_norm|]. apply Rplus_le_compat_l. apply triangle_norm. }
  lra.
Qed.
Print Assumptions C96_disjoint.

(** Without aggregates the script reads lists that were never assigned. *)
Theorem C96_no_aggregates_refuted : forall lo hi rad hei h,
  write_box_3d lo hi [] h = Throw /\ write_cylinder rad hei [] h = Throw /\ write_box_2d lo hi [] h = Throw.
Proof. intros. repeat split; reflexivity. Qed.
Print Assumptions C96_no_aggregates_refuted.

(** The faces of a cylinder are never oriented compatibly. *)
Theorem C96_cylinder_orientation_refuted : forall rad hei l h, l <> [] -> thin h l ->
  exists r fs, write_cylinder rad hei l h = Ok r /\ In (r_box r, fs) (shells (r_model r)) /\ ~ closed_surface (r_model r) fs.
Proof.
  intros rad hei l h Hne Ht. unfold write_cylinder. set (P := mkParams _ _ _ _ _ _ _ _ _ _ _ _).
  destruct (finish_3d h l cylinder_3d P (T_cylinder P) 14 [12; 13; 3; 7]%Z Ht Hne (run_cylinder P) ltac:(unfold layers; destruct (Req_EM_T h 0); reflexivity)
    eq_refl eq_refl eq_refl ltac:(discriminate) ltac:(discriminate) eq_refl eq_refl eq_refl eq_refl eq_refl ltac:(inT)) as (r & dp & dr & E & HC & HV & HT & HB & HA).
  exists r, (sh_list dr [12; 13; 3; 7]%Z). split; [exact E|]. rewrite HB. split; [apply (in_shells _ _ _ _ HT); inT|].
  exact (cylinder_not_oriented _ dp dr P HC HT).
Qed.
Print Assumptions C96_cylinder_orientation_refuted.

(** The ends of the arcs of a cylinder, and of disks without interface, are on one line with the centre. *)
Theorem C96_half_circles_refuted :
  (forall rad hei l h, l <> [] -> thin h l -> exists r, write_cylinder rad hei l h = Ok r /\ ~ all_arcs_proper (r_model r))
  /\ (forall lo hi l, l <> [] -> exists r, write_box_2d lo hi l 0 = Ok r /\ ~ all_arcs_proper (r_model r)).
Proof.
  split.
  - intros rad hei l h Hne Ht. unfold write_cylinder. set (P := mkParams _ _ _ _ _ _ _ _ _ _ _ _).
    destruct (finish_3d h l cylinder_3d P (T_cylinder P) 14 [12; 13; 3; 7]%Z Ht Hne (run_cylinder P) ltac:(unfold layers; destruct (Req_EM_T h 0); reflexivity)
      eq_refl eq_refl eq_refl ltac:(discriminate) ltac:(discriminate) eq_refl eq_refl eq_refl eq_refl eq_refl ltac:(inT)) as (r & dp & dr & E & HC & HV & HT & HB & HA).
    exists r. split; [exact E|].
    apply (half_circle (r_model r) (0 + dr) (1 + dp) (0 + dp) (2 + dp) (V3 0 0 0) (V3 0 (radius P) 0) (V3 0 (- radius P) 0) HC).
    + exact (in_curves _ _ _ _ HT 0%Z (CCircle 1 0 2) ltac:(inT)).
    + apply (in_points _ _ _ _ HT). inT.
    + apply (in_points _ _ _ _ HT). inT.
    + apply (in_points _ _ _ _ HT). inT.
    + unfold vadd, smul, vsub. cbn [vx vy vz]. f_equal; ring.
  - intros lo hi l Hne. destruct (finish_2d 0 l lo hi Hne) as (r & e & E & _ & _ & _ & _ & _ & H).
    exists r. split; [exact E|exact (H eq_refl)].
Qed.
Print Assumptions C96_half_circles_refuted.

(** Six digits are not enough: two balls that do not overlap do so in the file. *)
Theorem C96_overlap_refuted : exists a b : agg,
  (forall p, ~ (open_ball (fst a) (snd a) p /\ open_ball (fst b) (snd b) p))
  /\ exists p, open_ball (written3 (fst a)) (written (snd a)) p /\ open_ball (written3 (fst b)) (written (snd b)) p.
Proof.
  set (r := 1000006 / 1000000). set (d := 20000121 / 10000000).
  assert (B5 : bpow SerializeModel.radix10 (-5) = / 100000) by reflexivity.
  assert (Er : written r = 100001 / 100000).
  { rewrite (written_near r 100001 (-5)); rewrite ?B5; try lia; unfold r; try lra. apply Rabs_def1; lra. }
  assert (Ed : written d = 200001 / 100000).
  { rewrite (written_near d 200001 (-5)); rewrite ?B5; try lia; unfold d; try lra. apply Rabs_def1; lra. }
  exists (V3 0 0 0, r), (V3 d 0 0, r). cbn [fst snd]. split.
  - intros p [H1 H2]. unfold open_ball in *.
    assert (T : vnorm (vsub (V3 d 0 0) (V3 0 0 0)) <= vnorm (vsub p (V3 d 0 0)) + vnorm (vsub p (V3 0 0 0))).
    { rewrite (norm_sym p (V3 d 0 0)). eapply Rle_trans; [|apply triangle_norm]. right. f_equal. unfold vadd, vsub. cbn [vx vy vz]. f_equal; ring. }
    assert (N : vnorm (vsub (V3 d 0 0) (V3 0 0 0)) = d).
    { unfold vnorm, dot, vsub. cbn [vx vy vz]. replace ((d - 0) * (d - 0) + (0 - 0) * (0 - 0) + (0 - 0) * (0 - 0)) with (d * d) by ring. apply sqrt_square. unfold d. lra. }
    unfold r, d in *. lra.
  - exists (V3 (100000.5 / 100000) 0 0). unfold open_ball, written3. cbn [vx vy vz]. rewrite !written_0, Er, Ed.
    assert (N : forall x, vnorm (V3 x 0 0) = Rabs x).
    { intros x. unfold vnorm, dot. cbn [vx vy vz]. replace (x * x + 0 * 0 + 0 * 0) with (Rsqr x) by (unfold Rsqr; ring). apply sqrt_Rsqr_abs. }
    split.
    + replace (vsub (V3 (100000.5 / 100000) 0 0) (V3 0 0 0)) with (V3 (100000.5 / 100000) 0 0) by (unfold vsub; cbn [vx vy vz]; f_equal; lra).
      rewrite N. apply Rabs_def1; lra.
    + replace (vsub (V3 (100000.5 / 100000) 0 0) (V3 (200001 / 100000) 0 0)) with (V3 (- 100000.5 / 100000) 0 0) by (unfold vsub; cbn [vx vy vz]; f_equal; lra).
      rewrite N. apply Rabs_def1; lra.
Qed.
Print Assumptions C96_overlap_refuted.

(** In two dimensions the interface is put around the whole aggregate, so that interfaces of aggregates overlap whose distance is
    the thickness; in three dimensions C96_disjoint excludes this. *)
Theorem C96_interface_2d_refuted : exists lo hi a b h r, 0 < h /\ 0 < snd a /\ 0 < snd b /\ vz (fst a) = 0 /\ vz (fst b) = 0
  /\ written3 (fst a) = fst a /\ written3 (fst b) = fst b /\ written (snd a) = snd a /\ written (snd b) = snd b /\ written h = h
  /\ snd a + snd b + h <= vnorm (vsub (fst a) (fst b))
  /\ write_box_2d lo hi [a; b] h = Ok r /\ right_surfaces [a; b] h r
  /\ exists p, open_ball (fst a) (snd a + h) p /\ open_ball (fst b) (snd b + h) p.
Proof.
  assert (W : forall m, (Z.abs m < 1000000)%Z -> written (IZR m) = IZR m).
  { intros m Hm. pose proof (written_digits m 0 Hm) as H. change (bpow SerializeModel.radix10 0) with 1 in H. rewrite Rmult_1_r in H. exact H. }
  assert (N : forall x, vnorm (V3 x 0 0) = Rabs x).
  { intros x. unfold vnorm, dot. cbn [vx vy vz]. replace (x * x + 0 * 0 + 0 * 0) with (Rsqr x) by (unfold Rsqr; ring). apply sqrt_Rsqr_abs. }
  destruct (C96_disks_partial (V3 (-10) (-10) 0) (V3 10 10 0) [(V3 0 0 0, 2); (V3 5 0 0, 2)] 1 ltac:(discriminate)) as (r & e & E & _ & HS & _).
  exists (V3 (-10) (-10) 0), (V3 10 10 0), (V3 0 0 0, 2), (V3 5 0 0, 2), 1, r. cbn [fst snd vz].
  assert (W3 : forall m, (Z.abs m < 1000000)%Z -> written3 (V3 (IZR m) 0 0) = V3 (IZR m) 0 0).
  { intros m Hm. unfold written3. cbn [vx vy vz]. rewrite written_0, (W m Hm). reflexivity. }
  repeat (split; [first [lra | reflexivity | apply W3; lia | apply W; lia | exact E | exact HS
    | replace (vsub (V3 0 0 0) (V3 5 0 0)) with (V3 (-5) 0 0) by (unfold vsub; cbn [vx vy vz]; f_equal; lra); rewrite N, Rabs_left by lra; lra]|]).
  exists (V3 2.5 0 0). unfold open_ball. split.
  - replace (vsub (V3 2.5 0 0) (V3 0 0 0)) with (V3 2.5 0 0) by (unfold vsub; cbn [vx vy vz]; f_equal; lra). rewrite N. apply Rabs_def1; lra.
  - replace (vsub (V3 2.5 0 0) (V3 5 0 0)) with (V3 (-2.5) 0 0) by (unfold vsub; cbn [vx vy vz]; f_equal; lra). rewrite N. apply Rabs_def1; lra.
Qed.
Print Assumptions C96_interface_2d_refuted.

(** Two aggregates with interfaces: the hypotheses of the theorems hold, and there are 1 + 2 + 16 volumes. *)
Lemma forall2_length {A B} (Q : A -> B -> Prop) l l' : Forall2 Q l l' -> length l = length l'.
Proof. induction 1; cbn [length]; congruence. Qed.
Lemma coated_layers h m a v o ifs : coated_aggregate h m a v o ifs -> length ifs = 8%nat.
Proof.
  intros (? & fs & ? & _ & _ & (_ & os & HP & HF) & _ & _ & HL).
  rewrite <- (forall2_length _ _ _ HL), <- (forall2_length _ _ _ HF), (Permutation_length HP). reflexivity.
Qed.
Example C96_case : let l := [(V3 1 1 1, 1 / 2); (V3 3 1 1, 1 / 2)] in
  thin (1 / 10) l /\ exists r, write_box_3d (V3 0 0 0) (V3 4 2 2) l (1 / 10) = Ok r /\ length (volumes (r_model r)) = 19%nat.
Proof.
  cbv zeta. assert (T : thin (1 / 10) [(V3 1 1 1, 1 / 2); (V3 3 1 1, 1 / 2)]).
  { split; [lra|]. repeat constructor; cbn [snd]; lra. }
  split; [exact T|]. destruct (C96_box_partial (V3 0 0 0) (V3 4 2 2) [(V3 1 1 1, 1 / 2); (V3 3 1 1, 1 / 2)] (1 / 10) ltac:(discriminate) T) as (r & fs & E & _ & _ & ((ifss & HI & HF & L1 & L2 & L3) & _ & HP) & _).
  exists r. split; [exact E|]. apply Permutation_length in HP. rewrite map_length in HP. rewrite <- HP. clear HP E. rewrite HI.
  cbn [length]. rewrite app_length, L1.
  destruct (r_aggregates r) as [|v1 [|v2 [|? ?]]]; try discriminate. destruct (r_outer r) as [|o1 [|o2 [|? ?]]]; try discriminate.
  destruct ifss as [|i1 [|i2 [|? ?]]]; try discriminate. cbn [combine] in HF. inversion HF as [|? ? ? ? H1 H2]; subst. inversion H2 as [|? ? ? ? H3 _]; subst.
  unfold aggregate_ok in H1, H3. destruct (Req_EM_T (1 / 10) 0) as [H|_]; [exfalso; lra|].
  cbn [concat]. rewrite app_nil_r, app_length, (coated_layers _ _ _ _ _ _ H1), (coated_layers _ _ _ _ _ _ H3). reflexivity.
Qed.
