(** The start of the simulation in a cylinder specimen. *)
From Coq Require Import Reals ZArith List Bool Lia Lra Psatz.
From Verif Require Import Outcome AdaptiveModel AdaptiveProofs Vec3 CollisionModel CollisionSpec CollisionProofs CollisionProofs2
  PropCollision EventModel EventSpec EventProofs SubBoxModel SubBoxSpec SubBoxProofs SubBoxProofs2 PropSubBox SimModel SimSpec SimProofs SimProofs2 SimProofs3
  SimProofs4 SimProofs5 SimProofs6 CylProofs1 CylProofs2 CylProofs3 CylProofs4.
Import ListNotations.
Local Open Scope R_scope.

Section CStart.
  Variables (n nz : Z) (org : v3) (D H : R) (what : Z -> object) (walls cylinders : boxes) (ids : list Z) (sph0 : Z -> sphere) (tlim : R) (b : boxes).
  Hypothesis CP : cylinder_packing n nz org D H what walls cylinders ids sph0 tlim.
  Let g := new_grid n n nz org (V3 D D H).
  Let p := V3 (vx org + D / 2) (vy org + D / 2) (vz org + H).
  Let r := D / 2.
  Hypothesis AD : add_spheres g (map sph0 ids) walls = Ok b.
  Let hascyl := gets_cylinder g r.

  Lemma cs_packing : packing g what walls ids sph0.
  Proof. exact (cp_packing _ _ _ _ _ _ _ _ _ _ _ CP). Qed.
  Lemma cs_grid : gridok g.
  Proof. exact (pk_grid _ _ _ _ _ cs_packing). Qed.
  Lemma cs_n : 2 <= IZR n.
  Proof. apply (IZR_le 2). apply (cp_divisions _ _ _ _ _ _ _ _ _ _ _ CP). Qed.
  Lemma cs_D : 0 < D.
  Proof. apply (cp_divisions _ _ _ _ _ _ _ _ _ _ _ CP). Qed.

  Lemma cs_X0 : plane g 0 0 = vx p - r.
  Proof. unfold plane, g, p, r. cbn [vnth new_grid gorg gh ghx vx]. lra. Qed.
  Lemma cs_X1 : plane g 0 (gn g 0) = vx p + r.
  Proof. pose proof cs_n. unfold plane, g, p, r. cbn [vnth new_grid gorg gh ghx gn gnx vx]. field. lra. Qed.
  Lemma cs_Y0 : plane g 1 0 = vy p - r.
  Proof. unfold plane, g, p, r. cbn [vnth new_grid gorg gh ghy vy]. lra. Qed.
  Lemma cs_Y1 : plane g 1 (gn g 1) = vy p + r.
  Proof. pose proof cs_n. unfold plane, g, p, r. cbn [vnth new_grid gorg gh ghy gn gny vy]. field. lra. Qed.
  Lemma cs_Z0 : plane g 2 0 = vz org.
  Proof. unfold plane, g. cbn [vnth new_grid gorg gh ghz vz]. lra. Qed.
  Lemma cs_Z1 : plane g 2 (gn g 2) = vz org + H.
  Proof.
    destruct cs_grid as (_ & _ & N & _). apply IZR_lt in N. unfold g in N. cbn [new_grid gnz] in N.
    unfold plane, g. cbn [vnth new_grid gorg gh ghz gn gnz vz]. field. lra.
  Qed.

  Lemma cs_ENC : forall x y qx qy, (0 <= x < gn g 0)%Z -> (0 <= y < gn g 1)%Z ->
    plane g 0 x < qx < plane g 0 (x + 1) -> plane g 1 y < qy < plane g 1 (y + 1) ->
    (qx - vx p) * (qx - vx p) + (qy - vy p) * (qy - vy p) = r * r -> hascyl x y = true.
  Proof.
    intros x y qx qy Hx Hy Qx Qy E. apply (C63_enclosed_partial n nz org D H x y (V3 qx qy 0)).
    - apply (cp_divisions _ _ _ _ _ _ _ _ _ _ _ CP).
    - apply cs_D.
    - exact Hx.
    - exact Hy.
    - unfold inside_cell. unfold plane in Qx. rewrite plus_IZR in Qx. unfold g in Qx. cbn [vnth gh new_grid gorg] in Qx. cbn [vx] in *. lra.
    - unfold inside_cell. unfold plane in Qy. rewrite plus_IZR in Qy. unfold g in Qy. cbn [vnth gh new_grid gorg] in Qy. cbn [vy] in *. lra.
    - unfold Rsqr. exact E.
  Qed.

  Lemma cs_inside s t : inside g p r s t <-> in_cylinder org D H s t.
  Proof.
    unfold inside, in_cylinder. unfold cgap at 1, cylinder_gap. rewrite axis_ez. fold r. change (vx org + r) with (vx p). change (vy org + r) with (vy p).
    split.
    - intros (A & B). pose proof (A 2%nat ltac:(lia)) as (A1 & A2). rewrite cs_Z0 in A1. rewrite cs_Z1 in A2. split; [lra|split; lra].
    - intros (A & B & C). split; [|lra]. intros a Ha. destruct (Nat.eq_dec a 2) as [->|Na].
      + rewrite cs_Z0, cs_Z1. split; lra.
      + apply (cgap_lateral g p r cs_X0 cs_X1 cs_Y0 cs_Y1); [|lia]. unfold cgap, cylinder_gap. rewrite axis_ez. lra.
  Qed.

  Lemma cs_cylinder d x y z : in_grid g x y z -> In d (cylinders (box_index g x y z)) ->
    hascyl x y = true /\ what d = OCylinder (new_cylinder p ez r) (box_index g x y z).
  Proof.
    intros (A & B & C) Hd. pose proof (cp_cylinders _ _ _ _ _ _ _ _ _ _ _ CP x y z A B C) as E. fold g r in E. cbv zeta in E.
    apply (in_map what) in Hd. rewrite E in Hd. change (gets_cylinder g r x y) with (hascyl x y) in Hd.
    destruct (hascyl x y); [|destruct Hd]. destruct Hd as [Hd|[]]. split; auto.
  Qed.
  Lemma cs_cylinder_in x y z : in_grid g x y z -> hascyl x y = true ->
    exists d, In d (cylinders (box_index g x y z)) /\ what d = OCylinder (new_cylinder p ez r) (box_index g x y z).
  Proof.
    intros (A & B & C) Hc. pose proof (cp_cylinders _ _ _ _ _ _ _ _ _ _ _ CP x y z A B C) as E. fold g r in E. cbv zeta in E.
    change (gets_cylinder g r x y) with (hascyl x y) in E. rewrite Hc in E.
    assert (F: In (OCylinder (new_cylinder p ez r) (box_index g x y z)) (map what (cylinders (box_index g x y z)))) by (rewrite E; left; reflexivity).
    apply in_map_iff in F. destruct F as (d & F & Hd). eauto.
  Qed.

  Definition cs_keeps (d : Z) : bool := match what d with
    | OSphere => true | OWall w => stays w | OCylinder w _ => negb (reqb (vz (wdir (cwall w))) 0) end.
  Lemma cs_content k d : In d (cylinder_boxes what cylinders b k) <-> (In d (b k) \/ In d (cylinders k)) /\ cs_keeps d = true.
  Proof. unfold cylinder_boxes. rewrite filter_In, in_app_iff. reflexivity. Qed.

  Lemma cs_phys : cphys g what ids p r hascyl tlim (initial_sim (num_boxes g) sph0 (cylinder_boxes what cylinders b)) 0.
  Proof.
    pose proof (start_phys g what walls ids sph0 b cs_packing AD) as P0.
    pose proof (pk_sphere _ _ _ _ _ cs_packing) as SPH. pose proof cs_grid as OK.
    assert (T0: forall i, In i ids -> stime (sph0 i) = 0).
    { intros i Hi. pose proof (p_clock _ _ _ _ _ P0 i Hi) as X. cbn [initial_sim sph] in X. lra. }
    assert (KS: forall i, In i ids -> cs_keeps i = true) by (intros i Hi; unfold cs_keeps; rewrite SPH; auto).
    constructor; cbn [initial_sim sph content inboxes].
    - exact (p_sid _ _ _ _ _ P0).
    - exact (p_clock _ _ _ _ _ P0).
    - exact (p_proper _ _ _ _ _ P0).
    - exact (p_cons _ _ _ _ _ P0).
    - exact (cp_small _ _ _ _ _ _ _ _ _ _ _ CP).
    - intros i Hi. rewrite T0 by auto. apply cs_inside. apply (cp_inside _ _ _ _ _ _ _ _ _ _ _ CP i Hi).
    - intros i c Hi G Hp. apply cs_content. split; [left; apply (p_reg _ _ _ _ _ P0 i c Hi G Hp)|auto].
    - exact (p_no _ _ _ _ _ P0).
    - intros i c Hi G. unfold boxes_with. rewrite filter_In, existsb_exists, zrange_In. pose proof (idx_range g c G). split.
      + intros (_ & d & Hd & E). apply Z.eqb_eq in E. subst d. auto.
      + intros Hd. split; [lia|]. exists i. split; auto. apply Z.eqb_refl.
    - intros i k Hi Hk. unfold boxes_with in Hk. apply filter_In in Hk. destruct Hk as (Hk & _). apply (in_range g OK) in Hk. exact Hk.
    - intros c d G Hd. apply cs_content in Hd. destruct Hd as ([Hd|Hd] & _).
      + destruct (p_cont _ _ _ _ _ P0 c d G Hd) as [X|X]; auto.
      + right. right. destruct c as [[x y] z]. apply ingrid_in_grid in G. apply (cs_cylinder d x y z G Hd).
    - intros c a up G Ha Hn. destruct (p_walls _ _ _ _ _ P0 c (side a up) G (side_lt a up Ha)) as (d & Hd & W).
      exists d. split; auto. apply cs_content. split; [left; exact Hd|]. unfold cs_keeps. rewrite W. unfold stays.
      destruct Hn as [Hn| ->].
      + destruct (wall_links g c a up OK G Ha) as (_ & L & _). destruct (L Hn) as (-> & _). reflexivity.
      + destruct c as [[x y] z]. cbn [wallof]. assert (Vz: vz (wdir (bw_wall (build_wall g x y z (side 2 up)))) <> 0).
        { destruct up; cbn [side Nat.mul Nat.add build_wall neighbour bw_wall new_wall wdir]; rewrite normalize_of_unit by (unfold dot; cbn [vx vy vz Z.opp]; ring);
            cbn [vz Z.opp]; lra. }
        destruct (reqb_spec (vz (wdir (bw_wall (build_wall g x y z (side 2 up))))) 0) as [(_ & F)|(-> & _)]; [contradiction|]. rewrite andb_false_r. reflexivity.
    - intros c G Hc. destruct c as [[x y] z]. apply ingrid_in_grid in G. cbn [co] in Hc.
      destruct (cs_cylinder_in x y z G Hc) as (d & Hd & W). exists d. split; auto. apply cs_content. split; [right; exact Hd|].
      unfold cs_keeps. rewrite W. cbn [new_cylinder cwall new_wall wdir]. rewrite normalize_ez. cbn [ez vz].
      destruct (reqb_spec 1 0) as [(_ & F)|(-> & _)]; [lra|reflexivity].
    - intros c1 c2 t _ _. destruct (Rlt_or_le t 0); auto.
  Qed.

  Variable barrier0 : R.
  Lemma cs_start : exists L0, start what (num_boxes g) barrier0 (initial_sim (num_boxes g) sph0 (cylinder_boxes what cylinders b)) = Ok L0 /\
    clinv g what ids p r hascyl tlim sph0 L0 /\ sph (lsim L0) = sph0 /\ lglobal L0 = 0.
  Proof.
    destruct (cset_barrier_ok g what ids p r hascyl tlim cs_grid (pk_sphere _ _ _ _ _ cs_packing) _ 0 barrier0 cs_phys) as (s' & E & I & S1 & _ & _ & S2).
    unfold start. rewrite E. cbn [omap]. eexists. split; [reflexivity|]. cbn [lsim lglobal lold lreset]. split; [|auto].
    split; [exact I|]. split; [|cbn [lglobal]; pose proof (cp_divisions _ _ _ _ _ _ _ _ _ _ _ CP); lra]. intros i Hi. cbn [lsim]. rewrite S1. auto.
  Qed.
End CStart.
