(** * Proofs for C106: simplices that share a side move alike *)
From Coq Require Import List Arith ZArith Bool Reals Lra Lia.
From Verif Require Import Outcome RSum Algebra GroupModel GroupProofs DofModel DofSpec ConstraintModel ConstraintSpec AssemblerModel AssemblerSpec CellModel CellSpec ElasticModel IntegrandModel InterpolationModel EquilibriumModel
  EquilibriumSpec EquilibriumProofs EquilibriumProofs2 BodyModel BodySpec BodyProofs BodyProofs2 PropEquilibrium PropBody SupportSpec.
Import ListNotations.
Local Open Scope R_scope.

Lemma plane_side (x y s : nat -> R) w b0 b1 :
  w * x 1%nat + b0 = 0 -> w * y 1%nat + b0 = 0 -> - w * x 0%nat + b1 = 0 -> - w * y 0%nat + b1 = 0 ->
  w * ((y 0%nat - x 0%nat) * (s 1%nat - x 1%nat) - (s 0%nat - x 0%nat) * (y 1%nat - x 1%nat)) = 0.
Proof.
  intros H1 H2 H3 H4.
  replace (w * ((y 0%nat - x 0%nat) * (s 1%nat - x 1%nat) - (s 0%nat - x 0%nat) * (y 1%nat - x 1%nat)))
    with (((- w * x 0%nat + b1) - (- w * y 0%nat + b1)) * (s 1%nat - x 1%nat) - (s 0%nat - x 0%nat) * ((w * y 1%nat + b0) - (w * x 1%nat + b0))) by ring.
  rewrite H1, H2, H3, H4. ring.
Qed.

Definition triple (x y z s : nat -> R) : R :=
  let u i := y i - x i in let v i := z i - x i in let r i := s i - x i in
  (u 1%nat * v 2%nat - u 2%nat * v 1%nat) * r 0%nat + (u 2%nat * v 0%nat - u 0%nat * v 2%nat) * r 1%nat + (u 0%nat * v 1%nat - u 1%nat * v 0%nat) * r 2%nat.

(** the rotation D v = omega x v with D01 = -c, D02 = b, D12 = -a *)
Lemma parallel a b c u0 u1 u2 v0 v1 v2 :
  b * u2 - c * u1 = 0 -> c * u0 - a * u2 = 0 -> a * u1 - b * u0 = 0 ->
  b * v2 - c * v1 = 0 -> c * v0 - a * v2 = 0 -> a * v1 - b * v0 = 0 ->
  forall o n, In o [a; b; c] -> In n [u1 * v2 - u2 * v1; u2 * v0 - u0 * v2; u0 * v1 - u1 * v0] -> o * n = 0.
Proof.
  intros H1 H2 H3 H4 H5 H6 o n Ho Hn.
  assert (Q1 : b * u2 = c * u1) by lra. assert (Q2 : c * u0 = a * u2) by lra. assert (Q3 : a * u1 = b * u0) by lra.
  assert (Q4 : b * v2 = c * v1) by lra. assert (Q5 : c * v0 = a * v2) by lra. assert (Q6 : a * v1 = b * v0) by lra.
  cbn in Ho, Hn. destruct Ho as [<-|[<-|[<-|[]]]]; destruct Hn as [<-|[<-|[<-|[]]]].
  - replace (a * (u1 * v2 - u2 * v1)) with ((a * u1) * v2 - (a * u2) * v1) by ring. rewrite Q3, <- Q2. replace (b * u0 * v2 - c * u0 * v1) with (u0 * (b * v2 - c * v1)) by ring. rewrite H4. ring.
  - replace (a * (u2 * v0 - u0 * v2)) with ((a * u2) * v0 - u0 * (a * v2)) by ring. rewrite <- Q2, <- Q5. ring.
  - replace (a * (u0 * v1 - u1 * v0)) with (u0 * (a * v1) - (a * u1) * v0) by ring. rewrite Q6, Q3. ring.
  - replace (b * (u1 * v2 - u2 * v1)) with (u1 * (b * v2) - (b * u2) * v1) by ring. rewrite Q4, Q1. ring.
  - replace (b * (u2 * v0 - u0 * v2)) with ((b * u2) * v0 - (b * u0) * v2) by ring. rewrite Q1, <- Q3. replace (c * u1 * v0 - a * u1 * v2) with (u1 * (c * v0 - a * v2)) by ring. rewrite H5. ring.
  - replace (b * (u0 * v1 - u1 * v0)) with ((b * u0) * v1 - u1 * (b * v0)) by ring. rewrite <- Q3, <- Q6. ring.
  - replace (c * (u1 * v2 - u2 * v1)) with ((c * u1) * v2 - u2 * (c * v1)) by ring. rewrite <- Q1, <- Q4. ring.
  - replace (c * (u2 * v0 - u0 * v2)) with (u2 * (c * v0) - (c * u0) * v2) by ring. rewrite Q5, Q2. ring.
  - replace (c * (u0 * v1 - u1 * v0)) with ((c * u0) * v1 - (c * u1) * v0) by ring. rewrite Q2, <- Q1. replace (a * u2 * v1 - b * u2 * v0) with (u2 * (a * v1 - b * v0)) by ring. rewrite H6. ring.
Qed.

Lemma space_side (D : nat -> nat -> R) (beta : nat -> R) (x y z s : nat -> R) : skew 3 D ->
  (forall p, In p [x; y; z] -> forall i, (i < 3)%nat -> rsum 3 (fun j => D i j * p j) + beta i = 0) ->
  forall i j, (i < 3)%nat -> (j < 3)%nat -> D i j * triple x y z s = 0.
Proof.
  intros S H.
  assert (S00 := S 0%nat 0%nat ltac:(lia) ltac:(lia)). assert (S11 := S 1%nat 1%nat ltac:(lia) ltac:(lia)). assert (S22 := S 2%nat 2%nat ltac:(lia) ltac:(lia)).
  assert (S10 := S 1%nat 0%nat ltac:(lia) ltac:(lia)). assert (S20 := S 2%nat 0%nat ltac:(lia) ltac:(lia)). assert (S21 := S 2%nat 1%nat ltac:(lia) ltac:(lia)).
  assert (Z0 : D 0%nat 0%nat = 0) by lra. assert (Z1 : D 1%nat 1%nat = 0) by lra. assert (Z2 : D 2%nat 2%nat = 0) by lra.
  set (c := - D 0%nat 1%nat) in *. set (b := D 0%nat 2%nat) in *. set (a := - D 1%nat 2%nat) in *.
  assert (P : forall p, In p [x; y; z] -> b * p 2%nat - c * p 1%nat + beta 0%nat = 0 /\ c * p 0%nat - a * p 2%nat + beta 1%nat = 0 /\ a * p 1%nat - b * p 0%nat + beta 2%nat = 0).
  { intros p Hp. pose proof (H p Hp 0%nat ltac:(lia)) as E0. pose proof (H p Hp 1%nat ltac:(lia)) as E1. pose proof (H p Hp 2%nat ltac:(lia)) as E2.
    cbn [rsum] in E0, E1, E2. rewrite Z0 in E0. rewrite Z1, S10 in E1. rewrite Z2, S20, S21 in E2. unfold a, b, c in *. lra. }
  destruct (P x ltac:(cbn; auto)) as (X0 & X1 & X2). destruct (P y ltac:(cbn; auto)) as (Y0 & Y1 & Y2). destruct (P z ltac:(cbn; auto)) as (W0 & W1 & W2).
  assert (N : forall o, In o [a; b; c] -> o * triple x y z s = 0).
  { intros o Ho. unfold triple. cbv zeta.
    pose proof (parallel a b c (y 0%nat - x 0%nat) (y 1%nat - x 1%nat) (y 2%nat - x 2%nat) (z 0%nat - x 0%nat) (z 1%nat - x 1%nat) (z 2%nat - x 2%nat)
      ltac:(lra) ltac:(lra) ltac:(lra) ltac:(lra) ltac:(lra) ltac:(lra) o) as Q.
    pose proof (Q _ Ho (or_introl eq_refl)) as N0. pose proof (Q _ Ho (or_intror (or_introl eq_refl))) as N1. pose proof (Q _ Ho (or_intror (or_intror (or_introl eq_refl)))) as N2.
    rewrite !Rmult_plus_distr_l, <- !Rmult_assoc, N0, N1, N2. ring. }
  pose proof (N a ltac:(cbn; auto)) as Na. pose proof (N b ltac:(cbn; auto)) as Nb. pose proof (N c ltac:(cbn; auto)) as Nc.
  intros i j Hi Hj.
  destruct i as [|[|[|i]]]; [| | |lia]; (destruct j as [|[|[|j]]]; [| | |lia]); rewrite ?Z0, ?Z1, ?Z2, ?S10, ?S20, ?S21; unfold a, b, c in *; lra.
Qed.

(** a rigid motion that vanishes at [d] corners of a simplex vanishes *)
Lemma side_rigid d e X x D beta ks : In e [truss_linear; triangle_linear; tetrahedron_linear] -> e_dim e = d -> geometry_det e d X x <> 0 ->
  skew d D -> NoDup ks -> length ks = d ->
  (forall k, In k ks -> (k < length (e_nodes e))%nat /\ forall i, (i < d)%nat -> rsum d (fun j => D i j * X k j) + beta i = 0) ->
  (forall i j, (i < d)%nat -> (j < d)%nat -> D i j = 0) /\ (forall i, (i < d)%nat -> beta i = 0).
Proof.
  intros He Dm Hdet S ND L H.
  assert (Z : forall i j, (i < d)%nat -> (j < d)%nat -> D i j = 0).
  2:{ split; [exact Z|]. intros i Hi. destruct ks as [|k ks]; [cbn in L; lia|]. destruct (H k (or_introl eq_refl)) as (_ & Hk).
      rewrite <- (Hk i Hi), rsum_zero; [ring|]. intros j Hj. rewrite Z by assumption. ring. }
  cbn in He. destruct He as [<-|[<-|[<-|[]]]]; cbn in Dm; subst d.
  - intros i j Hi Hj. pose proof (S i j Hi Hj). replace i with 0%nat in * by lia. replace j with 0%nat in * by lia. lra.
  - change (length (e_nodes triangle_linear)) with 3%nat in H.
    assert (ED : geometry_det triangle_linear 2 X x = (X 1%nat 0%nat - X 0%nat 0%nat) * (X 2%nat 1%nat - X 0%nat 1%nat) - (X 2%nat 0%nat - X 0%nat 0%nat) * (X 1%nat 1%nat - X 0%nat 1%nat)).
    { unfold geometry_det, leibniz. change (length (e_nodes triangle_linear)) with 3%nat. cbn [e_deriv triangle_linear triangle_linear_deriv rsum nth]. ring. }
    rewrite ED in Hdet.
    destruct ks as [|p [|q [|? ?]]]; try discriminate L. destruct (H p ltac:(cbn; auto)) as (Bp & Ep). destruct (H q ltac:(cbn; auto)) as (Bq & Eq).
    assert (Npq : p <> q) by (inversion ND as [|? ? Hn _]; subst; intros ->; apply Hn; left; reflexivity).
    assert (S00 := S 0%nat 0%nat ltac:(lia) ltac:(lia)). assert (S11 := S 1%nat 1%nat ltac:(lia) ltac:(lia)). assert (S10 := S 1%nat 0%nat ltac:(lia) ltac:(lia)).
    assert (Z0 : D 0%nat 0%nat = 0) by lra. assert (Z1 : D 1%nat 1%nat = 0) by lra.
    pose proof (Ep 0%nat ltac:(lia)) as E1. pose proof (Ep 1%nat ltac:(lia)) as E2. pose proof (Eq 0%nat ltac:(lia)) as E3. pose proof (Eq 1%nat ltac:(lia)) as E4.
    cbn [rsum] in E1, E2, E3, E4. rewrite Z0 in E1, E3. rewrite Z1, S10 in E2, E4.
    set (w := D 0%nat 1%nat) in *.
    assert (P : forall r, w * ((X q 0%nat - X p 0%nat) * (X r 1%nat - X p 1%nat) - (X r 0%nat - X p 0%nat) * (X q 1%nat - X p 1%nat)) = 0).
    { intros r. apply (plane_side (X p) (X q) (X r) w (beta 0%nat) (beta 1%nat)); lra. }
    assert (W : w * ((X 1%nat 0%nat - X 0%nat 0%nat) * (X 2%nat 1%nat - X 0%nat 1%nat) - (X 2%nat 0%nat - X 0%nat 0%nat) * (X 1%nat 1%nat - X 0%nat 1%nat)) = 0).
    { pose proof (P 0%nat) as P0. pose proof (P 1%nat) as P1. pose proof (P 2%nat) as P2. clear - P0 P1 P2 Bp Bq Npq.
      destruct p as [|[|[|p]]]; [| | |lia]; (destruct q as [|[|[|q]]]; [| | |lia]); try congruence; lra. }
    apply Rmult_integral in W. destruct W as [W|W]; [|contradiction].
    intros i j Hi Hj. destruct i as [|[|i]]; [| |lia]; (destruct j as [|[|j]]; [| |lia]); try assumption. rewrite S10, W. ring.
  - change (length (e_nodes tetrahedron_linear)) with 4%nat in H.
    assert (ED : geometry_det tetrahedron_linear 3 X x = triple (X 0%nat) (X 1%nat) (X 2%nat) (X 3%nat)).
    { unfold geometry_det, leibniz, triple. change (length (e_nodes tetrahedron_linear)) with 4%nat. cbn [e_deriv tetrahedron_linear tetrahedron_linear_deriv rsum nth]. ring. }
    rewrite ED in Hdet.
    destruct ks as [|p [|q [|r [|? ?]]]]; try discriminate L. destruct (H p ltac:(cbn; auto)) as (Bp & Ep). destruct (H q ltac:(cbn; auto)) as (Bq & Eq). destruct (H r ltac:(cbn; auto)) as (Br & Er).
    assert (Npq : p <> q) by (inversion ND as [|? ? Hn _]; subst; intros ->; apply Hn; left; reflexivity).
    assert (Npr : p <> r) by (inversion ND as [|? ? Hn _]; subst; intros ->; apply Hn; right; left; reflexivity).
    assert (Nqr : q <> r) by (inversion ND as [|? ? _ Hn]; subst; inversion Hn as [|? ? Hm _]; subst; intros ->; apply Hm; left; reflexivity).
    intros i j Hi Hj.
    assert (P : forall s, D i j * triple (X p) (X q) (X r) (X s) = 0).
    { intros s. apply (space_side D beta (X p) (X q) (X r) (X s) S); [|exact Hi|exact Hj]. intros y [<-|[<-|[<-|[]]]]; assumption. }
    assert (W : D i j * triple (X 0%nat) (X 1%nat) (X 2%nat) (X 3%nat) = 0).
    { pose proof (P 0%nat) as P0. pose proof (P 1%nat) as P1. pose proof (P 2%nat) as P2. pose proof (P 3%nat) as P3. clear - P0 P1 P2 P3 Bp Bq Br Npq Npr Nqr.
      unfold triple in *. cbv zeta in *.
      destruct p as [|[|[|[|p]]]]; [| | | |lia]; (destruct q as [|[|[|[|q]]]]; [| | | |lia]); try congruence; (destruct r as [|[|[|[|r]]]]; [| | | |lia]); try congruence;
        solve [lra | clear P0; lra]. }
    apply Rmult_integral in W. destruct W as [W|W]; [exact W|contradiction].
Qed.

(** ** One piece *)
Lemma combine_zero {A B} (P : A -> B -> Prop) (f : A * B -> R) cells fs : Forall2 P cells fs ->
  (forall c b, In c cells -> P c b -> 0 <= f (c, b)) -> rlsum (map f (combine cells fs)) = 0 ->
  forall c, In c cells -> exists b, P c b /\ f (c, b) = 0.
Proof.
  induction 1 as [|c b cs bs Hcb Hr IH]; intros H Z c' Hc'; [destruct Hc'|]. cbn [combine map rlsum] in Z.
  pose proof (H c b (or_introl eq_refl) Hcb) as H0. pose proof (combine_nonneg P f cs bs Hr (fun c b Hc Hb => H c b (or_intror Hc) Hb)) as H1.
  destruct Hc' as [<-|Hc']; [exists b; split; [exact Hcb|lra]|]. apply IH; [|lra|exact Hc']. intros c2 b2 Hc2. apply H. right. exact Hc2.
Qed.

(** a cell moves as a rigid body *)
Definition moves (d : nat) (place : Z -> nat -> R) (w : Z -> nat -> R) (A : nat -> nat -> R) (b : nat -> R) (c : body_cell) : Prop :=
  forall a i, In a (bc_nodes c) -> (i < d)%nat -> w a i = affine_at d A b place a i.

Lemma indices (l : list Z) : forall side, NoDup side -> (forall a, In a side -> In a l) ->
  exists ks, NoDup ks /\ length ks = length side /\ forall k, In k ks -> (k < length l)%nat /\ In (nth k l 0%Z) side.
Proof.
  induction side as [|a side IH]; intros ND H; [exists []; split; [constructor|split; [reflexivity|intros k []]]|].
  inversion ND as [|? ? Hn ND']; subst. destruct (IH ND' (fun x Hx => H x (or_intror Hx))) as (ks & N & L & Q).
  destruct (In_nth l a 0%Z (H a (or_introl eq_refl))) as (k & Hk & Ek). exists (k :: ks). split; [|split; [cbn; congruence|]].
  - constructor; [|exact N]. intros Hin. destruct (Q k Hin) as (_ & Hs). rewrite Ek in Hs. contradiction.
  - intros m [<-|Hm]; [split; [exact Hk|left; congruence]|]. destruct (Q m Hm) as (Q1 & Q2). split; [exact Q1|right; exact Q2].
Qed.

Lemma same_motion d l coordinate place w c c' A b A' b' : elastic_cell d l coordinate place c -> length (bc_nodes c) = length (e_nodes (bc_element c)) ->
  common_side d c c' -> skew d A -> skew d A' -> moves d place w A b c -> moves d place w A' b' c' ->
  (forall i j, (i < d)%nat -> (j < d)%nat -> A' i j = A i j) /\ (forall i, (i < d)%nat -> b' i = b i).
Proof.
  intros ((_ & _ & Dm & _) & _ & (Ee & Ip) & (_ & He) & Hn & Hw) L (side & NDs & Ls & Hs) SA SA' M M'.
  destruct (indices (bc_nodes c) side NDs (fun a Ha => proj1 (Hs a Ha))) as (ks & NDk & Lk & Hk).
  rewrite Ee in L. set (X := fun k => coordinate (nth k (bc_coordinateNodes c) 0%Z)).
  assert (Hdet : geometry_det (bc_geometry c) d X (bc_ipCoord c 0%nat) <> 0).
  { intros Z. pose proof (Hw 0%nat Hn) as P. unfold det_at in P. fold X in P. rewrite Z in P. lra. }
  destruct (side_rigid d (bc_geometry c) X (bc_ipCoord c 0%nat) (fun i j => A' i j - A i j) (fun i => b' i - b i) ks He Dm Hdet) as (Z1 & Z2).
  - intros i j Hi Hj. rewrite (SA i j Hi Hj), (SA' i j Hi Hj). ring.
  - exact NDk.
  - congruence.
  - intros k Ik. destruct (Hk k Ik) as (Bk & Sk). rewrite L in Bk. split; [exact Bk|]. intros i Hi.
    destruct (Hs _ Sk) as (S1 & S2). pose proof (M _ i S1 Hi) as E1. pose proof (M' _ i S2 Hi) as E2. rewrite E1 in E2. unfold affine_at in E2.
    unfold X. rewrite <- (Ip k Bk). rewrite (rsum_ext d _ (fun j => A' i j * place (nth k (bc_nodes c) 0%Z) j - A i j * place (nth k (bc_nodes c) 0%Z) j)) by (intros; ring).
    rewrite rsum_minus. lra.
  - split; [intros i j Hi Hj; pose proof (Z1 i j Hi Hj); lra|intros i Hi; pose proof (Z2 i Hi); lra].
Qed.

Lemma piece_moves d l coordinate place w cells : (forall c, In c cells -> elastic_cell d l coordinate place c /\ length (bc_nodes c) = length (e_nodes (bc_element c))) ->
  (forall c, In c cells -> exists A b, skew d A /\ moves d place w A b c) ->
  forall c c' A b, In c cells -> skew d A -> moves d place w A b c -> side_path d cells c c' -> In c' cells /\ moves d place w A b c'.
Proof.
  intros Hc Hm c c' A b Ic SA M P. induction P as [Ic'|c1 c2 P (I1 & M1) I2 S12]; [split; assumption|]. split; [exact I2|].
  destruct (Hm c2 I2) as (A' & b' & SA' & M2). destruct (Hc c1 I1) as (H1 & L1).
  destruct (same_motion d l coordinate place w c1 c2 A b A' b' H1 L1 S12 SA SA' M1 M2) as (EA & Eb).
  intros a i Ha Hi. rewrite (M2 a i Ha Hi). unfold affine_at. rewrite (Eb i Hi). f_equal. apply rsum_ext. intros j Hj. rewrite EA by assumption. reflexivity.
Qed.

(** ** The energy of a body *)
Lemma cell_energy d E nu ps l coordinate place value c : elastic_cell d l coordinate place c -> 0 < E -> -1 < nu < 1/2 -> length (bc_nodes c) = length (e_nodes (bc_element c)) ->
  let n := length (e_nodes (bc_element c)) in let v := fun (z : Z -> nat -> R) k => z (nth k (bc_nodes c) 0%Z) in
  forall K, cell_Stiffness d coordinate value (fun _ s => Ok (le_Tangent (le_make d E nu ps) s)) c = Ok K ->
    (forall a b, K a b = K b a) /\
    (forall A b, skew d A -> forall a, apply_stiffness d n K (v (affine_at d A b place)) a = 0) /\
    forall w, 0 <= nodal_work d n (apply_stiffness d n K (v w)) (v w) /\
      (nodal_work d n (apply_stiffness d n K (v w)) (v w) = 0 -> exists A b, skew d A /\ moves d place w A b c).
Proof.
  intros (Sc & _ & Ic & (_ & He) & Hn & Hw) HE Hnu L n v K EK.
  assert (Rg : regular d coordinate c). { intros q Hq Z. specialize (Hw q Hq). rewrite Z in Hw. lra. }
  assert (Ef : exists f, cell_Forces d coordinate value (fun _ s => Ok (le_Stress d (le_make d E nu ps) s)) c = Ok f).
  { destruct Sc as (Ux & Uu & Dx & Du). destruct Ic as (Ie & _).
    destruct (C99_stiffness d E nu ps (bc_geometry c) (fun k => coordinate (nth k (bc_coordinateNodes c) 0%Z)) (cell_values value c) (bc_id c) (bc_numIps c) (bc_ipCoord c) (bc_ipWeight c) Ux Dx HE Hnu Rg)
      as (f & _ & E1 & _). exists f. unfold cell_Forces. rewrite Ie. exact E1. }
  destruct Ef as (f & Ef). destruct (cell_stiffness d E nu ps coordinate place value c Sc Ic Rg HE Hnu f K Ef EK) as (_ & H2 & H3 & H4).
  split; [exact H2|]. split; [exact H3|]. intros w. split; [exact (H4 Hw w)|]. intros Z.
  destruct Sc as (_ & _ & Dx & _). destruct Ic as (Ie & Ip). unfold cell_Stiffness in EK. unfold n in Z. rewrite Ie in EK, Z, L.
  destruct (C99_no_spurious_modes d E nu ps (bc_geometry c) (fun k => coordinate (nth k (bc_coordinateNodes c) 0%Z)) (cell_values value c) (bc_id c) (bc_numIps c) (bc_ipCoord c) (bc_ipWeight c) K (v w)
    He Dx HE Hnu Hn Hw EK Z) as (A & b & SA & HA).
  exists A, b. split; [exact SA|]. intros a i Ha Hi. destruct (In_nth _ _ 0%Z Ha) as (k & Hk & <-). rewrite L in Hk.
  etransitivity; [exact (HA k i Hk Hi)|]. unfold affine, affine_at. rewrite <- (Ip k Hk). reflexivity.
Qed.

Lemma body_energy d t h g cons h' numInd numDep coordinate place value E nu ps cells mcs threads r :
  group_ok g -> (forall a, In a (mData g) -> length (h a) = d) -> build_numbering h g t cons = Ok (h', numInd, numDep) ->
  (forall c, In c cells -> elastic_cell d (mData g) coordinate place c) -> one_piece d cells -> cells <> [] ->
  0 < E -> -1 < nu < 1/2 ->
  local_matrices d t h' (cell_Stiffness d coordinate value (fun _ s => Ok (le_Tangent (le_make d E nu ps) s))) cells = Ok mcs -> (0 < threads)%nat ->
  build_matrix (mkInfo [(t, numInd)] [(t, numDep)]) threads mcs [t] r ->
  exists K, r = Ok K /\
    (exists m, mat_at K t t = Some m /\ srows m = length (cell_keys d (mData g)) /\ scols m = length (cell_keys d (mData g)) /\ in_range m) /\
    (forall u w, total_work d (mData g) (stiffness_force d (mData g) (at_nodes h' t K) u) w = total_work d (mData g) (stiffness_force d (mData g) (at_nodes h' t K) w) u) /\
    forall w, let work := total_work d (mData g) (stiffness_force d (mData g) (at_nodes h' t K) w) w in
      0 <= work /\
      (work = 0 <-> exists A b, skew d A /\ forall a i, node_of_cells cells a -> (i < d)%nat -> w a i = affine_at d A b place a i).
Proof.
  intros Og Sz Nb Hc One Ne HE Hnu Em Ht B.
  destruct (assembled_matrix d t h g cons h' numInd numDep Og Sz Nb _ cells mcs threads r Ht (fun c H => proj1 (proj2 (Hc c H))) Em B) as (K & ks & -> & Hk & Hm & W).
  exists K. split; [reflexivity|]. split; [exact Hm|]. split.
  { intros u w. rewrite !W. clear - Hk Hc HE Hnu. induction Hk as [|c k cs ks (Ek & L) Hr IH]; [reflexivity|]. cbn [combine map rlsum]. f_equal.
    - cbn [fst snd]. cbv zeta. apply nodal_symmetric. apply (cell_energy d E nu ps _ coordinate place value c (Hc c (or_introl eq_refl)) HE Hnu L k Ek).
    - apply IH. intros c' Hc'. apply Hc. right. exact Hc'. }
  intros w work. unfold work. rewrite W.
  assert (NN : forall c k, In c cells -> cell_Stiffness d coordinate value (fun _ s => Ok (le_Tangent (le_make d E nu ps) s)) c = Ok k /\ length (bc_nodes c) = length (e_nodes (bc_element c)) ->
     0 <= (let v := fun (z : Z -> nat -> R) k => z (nth k (bc_nodes (fst (c, k))) 0%Z) in
          nodal_work d (length (e_nodes (bc_element (fst (c, k))))) (apply_stiffness d (length (e_nodes (bc_element (fst (c, k))))) (snd (c, k)) (v w)) (v w))).
  { intros c k Ic (Ek & L). destruct (cell_energy d E nu ps _ coordinate place value c (Hc c Ic) HE Hnu L k Ek) as (_ & _ & Q). exact (proj1 (Q w)). }
  split; [exact (combine_nonneg _ _ _ _ Hk NN)|]. split.
  - intros Z. pose proof (combine_zero _ _ _ _ Hk NN Z) as CZ.
    assert (Hc' : forall c, In c cells -> elastic_cell d (mData g) coordinate place c /\ length (bc_nodes c) = length (e_nodes (bc_element c))).
    { intros c Ic. split; [exact (Hc c Ic)|]. destruct (CZ c Ic) as (k & (_ & L) & _). exact L. }
    assert (Mv : forall c, In c cells -> exists A b, skew d A /\ moves d place w A b c).
    { intros c Ic. destruct (CZ c Ic) as (k & (Ek & L) & Z0). destruct (cell_energy d E nu ps _ coordinate place value c (Hc c Ic) HE Hnu L k Ek) as (_ & _ & Q). exact (proj2 (Q w) Z0). }
    destruct cells as [|c0 cs]; [congruence|]. destruct (Mv c0 (or_introl eq_refl)) as (A & b & SA & M0). exists A, b. split; [exact SA|].
    intros a i (c & Ic & Ia) Hi. destruct (piece_moves d (mData g) coordinate place w (c0 :: cs) Hc' Mv c0 c A b (or_introl eq_refl) SA M0 (One c0 c (or_introl eq_refl) Ic)) as (_ & M).
    exact (M a i Ia Hi).
  - intros (A & b & SA & HA). transitivity (rlsum (map (fun _ : body_cell * mat => 0) (combine cells ks))); [|apply rlsum_zero; reflexivity].
    clear - Hk Hc HE Hnu HA SA.
    assert (G : forall c k, In c cells -> cell_Stiffness d coordinate value (fun _ s => Ok (le_Tangent (le_make d E nu ps) s)) c = Ok k /\ length (bc_nodes c) = length (e_nodes (bc_element c)) ->
       (let v := fun (z : Z -> nat -> R) k => z (nth k (bc_nodes (fst (c, k))) 0%Z) in
          nodal_work d (length (e_nodes (bc_element (fst (c, k))))) (apply_stiffness d (length (e_nodes (bc_element (fst (c, k))))) (snd (c, k)) (v w)) (v w)) = 0).
    { intros c k Ic (Ek & L). cbn [fst snd]. cbv zeta. destruct (cell_energy d E nu ps _ coordinate place value c (Hc c Ic) HE Hnu L k Ek) as (_ & Q & _).
      assert (Ex : forall j i, (j < length (e_nodes (bc_element c)))%nat -> (i < d)%nat -> w (nth j (bc_nodes c) 0%Z) i = affine_at d A b place (nth j (bc_nodes c) 0%Z) i).
      { intros j i Hj Hi. apply HA; [|exact Hi]. exists c. split; [exact Ic|]. apply nth_In. rewrite L. exact Hj. }
      rewrite (nodal_ext_f d _ _ (fun _ => 0)).
      - unfold nodal_work. apply rsum_zero. intros j Hj. apply rsum_zero. intros i Hi. ring.
      - intros a. etransitivity; [exact (apply_ext d _ k _ (fun j => affine_at d A b place (nth j (bc_nodes c) 0%Z)) a Ex)|]. apply Q. exact SA. }
    revert G. clear - Hk. induction Hk as [|c k cs ks Hck Hr IH]; intros G; [reflexivity|]. cbn [combine map rlsum]. f_equal.
    + exact (G c k (or_introl eq_refl) Hck).
    + apply IH. intros c' k' Hc'. apply G. right. exact Hc'.
Qed.
