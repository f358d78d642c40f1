(** * Proofs for C50, continued: what goes wrong outside the bounding box of the nodes and in narrow meshes *)
From Coq Require Import List ZArith Arith Reals Lra Lia.
From Flocq Require Import Core.Raux.
From Verif Require Import Outcome RSum AdaptiveModel AdaptiveProofs CellModel InterpolationModel MeshModel MeshSpec MeshProofs
  UnitMeshProofs DofMeshModel DofMeshProofs DofMeshProofs2 DofMeshProofs3.
Import ListNotations.
Local Open Scope R_scope.

Lemma find_first_none {A B} (l : list A) (f : A -> outcome (option B)) :
  (forall a, In a l -> f a = Ok None) -> find_first l f = Ok None.
Proof.
  induction l as [|a l IH]; intros H; [reflexivity|]. cbn [find_first]. rewrite (H a (or_introl eq_refl)). cbn [obind].
  apply IH. intros b Hb. apply H. right. exact Hb.
Qed.

(** the box coordinate of [p] is beyond the neighbours of the last box in some direction *)
Definition beyond (d : domain) (p : p3) : Prop :=
  let '(sx, sy, sz) := dsubs d in
  IZR sx + 1 <= (px p - px (dstart d)) / px (delta d)
  \/ IZR sy + 1 <= (py p - py (dstart d)) / py (delta d)
  \/ IZR sz + 1 <= (pz p - pz (dstart d)) / pz (delta d).

Lemma to_int_beyond x s i : IZR s + 1 <= x -> (0 <= s)%Z -> to_int x = Ok i -> (s + 1 <= i)%Z.
Proof.
  intros H Hs. unfold to_int. destruct (andb _ _); [|discriminate]. intros E. injection E as <-.
  assert (0 <= IZR s) by (apply IZR_le; exact Hs).
  rewrite Ztrunc_floor by lra. apply Zfloor_lub. rewrite plus_IZR. exact H.
Qed.

Lemma find_at_beyond d b p r : (let '(sx, sy, sz) := dsubs d in (0 <= sx /\ 0 <= sy /\ 0 <= sz)%Z) ->
  beyond d p -> find_at d b p = Ok r -> r = None.
Proof.
  unfold beyond, find_at. destruct (dsubs d) as ((sx & sy) & sz). intros (Hx & Hy & Hz) Hb. unfold box_of.
  destruct (to_int ((px p - px (dstart d)) / px (delta d))) as [i| |] eqn:Ei; [|discriminate|discriminate].
  destruct (to_int ((py p - py (dstart d)) / py (delta d))) as [j| |] eqn:Ej; [|discriminate|discriminate].
  destruct (to_int ((pz p - pz (dstart d)) / pz (delta d))) as [k| |] eqn:Ek; [|discriminate|discriminate].
  cbn [obind]. intros E.
  assert (H : (sx + 1 <= i \/ sy + 1 <= j \/ sz + 1 <= k)%Z).
  { destruct Hb as [H|[H|H]]; [left|right; left|right; right]; eapply to_int_beyond; eauto. }
  rewrite find_first_none in E; [congruence|]. intros kk Hkk. apply find_first_none. intros jj Hjj. apply find_first_none.
  intros ii Hii. simpl in Hkk, Hjj, Hii.
  destruct (orb (Z.ltb ii 0) (Z.leb sx ii)) eqn:E1; [reflexivity|].
  destruct (orb (Z.ltb jj 0) (Z.leb sy jj)) eqn:E2; [reflexivity|].
  destruct (orb (Z.ltb kk 0) (Z.leb sz kk)) eqn:E3; [reflexivity|].
  exfalso. apply Bool.orb_false_iff in E1, E2, E3. destruct E1 as (_ & E1), E2 as (_ & E2), E3 as (_ & E3).
  apply Z.leb_gt in E1, E2, E3. lia.
Qed.

(** [p] is beyond the bounding box of the nodes by more than 1/300 of its width *)
Definition outside_node_box (values : Z -> list R) (dim : nat) (elements : list collection) (eps : R) (p : nat -> R) : Prop :=
  exists i, (i < dim)%nat /\ forall n m, coordinate_node elements n -> coordinate_node elements m ->
    (comp (values n) i - comp (values m) i) / 300 + 2 * eps < p i - comp (values n) i.

Section Outside.
  Variables (garbage : mfun) (values : Z -> list R) (dim : nat) (elements : list collection).
  Hypothesis Hdim : (dim <= 3)%nat.
  Hypothesis Hne : elements <> [].
  Hypothesis Hmesh : mesh_ok values dim elements.
  Let eps := / 10 ^ 10.

  Lemma eps_pos : 0 < eps.
  Proof. unfold eps. apply Rinv_0_lt_compat, pow_lt. lra. Qed.

  Lemma narrow_throws next dof group optIp :
    (exists i, (i < dim)%nat /\ forall n m, coordinate_node elements n -> coordinate_node elements m ->
       comp (values n) i - comp (values m) i < 298 * eps) ->
    add_dof_interpolation garbage values elements next dof group optIp = Throw.
  Proof.
    intros (i & Hi & Hn). pose proof eps_pos as He.
    destruct (setup_domain_spec values dim elements Hdim Hmesh 300 eps Hne) as (s & e & E & (_ & _ & Hc & Ht)). cbn [fst snd] in *.
    unfold add_dof_interpolation. fold eps. rewrite E. cbn [obind].
    assert (W : forall j, (j < dim)%nat -> 0 <= comp e j - comp s j).
    { intros j Hj. destruct (Ht j Hj) as (a & b & Ha & Hb & E1 & E2). pose proof (Hc a j Ha Hj). lra. }
    assert (Wi : comp e i - comp s i < 298 * eps).
    { destruct (Ht i Hi) as (a & b & Ha & Hb & E1 & E2). rewrite E1, E2. apply Hn; assumption. }
    match goal with |- context [make_boxes ?d] => set (dd := d) end.
    assert (D : forall j, 0 < ((if Nat.ltb j dim then comp e j else 0) + eps - ((if Nat.ltb j dim then comp s j else 0) + - eps))
           / IZR (if Nat.ltb j dim then 300%Z else 1%Z)).
    { intros j. destruct (Nat.ltb_spec j dim) as [H|H]; [specialize (W j H)|]; unfold Rdiv; lra. }
    assert (Di : ((if Nat.ltb i dim then comp e i else 0) + eps - ((if Nat.ltb i dim then comp s i else 0) + - eps))
           / IZR (if Nat.ltb i dim then 300%Z else 1%Z) < eps).
    { apply Nat.ltb_lt in Hi. rewrite Hi. unfold Rdiv. lra. }
    unfold make_boxes. cbv zeta.
    match goal with |- context [rltb (?m * ?m) ?r] => set (mm := m); assert (Er : r = eps * eps) by reflexivity; rewrite Er end.
    assert (M : 0 < mm < eps).
    { unfold mm, delta, dd, add_const, pad; cbn [dsubs dstart dend px py pz fst snd]. unfold px, py, pz; cbn [fst snd].
      pose proof (D 0%nat). pose proof (D 1%nat). pose proof (D 2%nat). split; [repeat apply Rmin_glb_lt; assumption|].
      assert (H3 : (i = 0 \/ i = 1 \/ i = 2)%nat) by lia. destruct H3 as [-> |[-> | ->]].
      - eapply Rle_lt_trans; [apply Rmin_l|exact Di].
      - eapply Rle_lt_trans; [apply Rmin_r|]. eapply Rle_lt_trans; [apply Rmin_l|exact Di].
      - eapply Rle_lt_trans; [apply Rmin_r|]. eapply Rle_lt_trans; [apply Rmin_r|exact Di]. }
    match goal with |- context [rltb ?a ?b] => destruct (rltb_spec a b) as [(-> & H)|(-> & H)] end; [reflexivity|exfalso; nra].
  Qed.

  Lemma outside_beyond d p : setup_domain values elements 300 eps = Ok d -> outside_node_box values dim elements eps p ->
    beyond d (pad dim p) /\ (let '(sx, sy, sz) := dsubs d in (0 <= sx /\ 0 <= sy /\ 0 <= sz)%Z).
  Proof.
    intros E (i & Hi & Ho). pose proof eps_pos as He.
    destruct (setup_domain_spec values dim elements Hdim Hmesh 300 eps Hne) as (s & e & E' & (_ & _ & Hc & Ht)). cbn [fst snd] in *.
    rewrite E' in E. injection E as <-. cbn [dsubs].
    split; [|destruct (Nat.ltb 0 dim), (Nat.ltb 1 dim), (Nat.ltb 2 dim); lia].
    destruct (Ht i Hi) as (a & b & Ha & Hb & E1 & E2). pose proof (Hc a i Ha Hi) as W. specialize (Ho b a Hb Ha).
    rewrite <- E1, <- E2 in Ho. rewrite <- E1 in W.
    assert (B : IZR (if Nat.ltb i dim then 300%Z else 1%Z) + 1 <=
       ((if Nat.ltb i dim then p i else 0) - ((if Nat.ltb i dim then comp s i else 0) + - eps)) /
       (((if Nat.ltb i dim then comp e i else 0) + eps - ((if Nat.ltb i dim then comp s i else 0) + - eps))
           / IZR (if Nat.ltb i dim then 300%Z else 1%Z))).
    { apply Nat.ltb_lt in Hi. rewrite Hi.
      apply (Rmult_le_reg_r ((comp e i + eps - (comp s i + - eps)) / 300)); [unfold Rdiv; lra|].
      unfold Rdiv at 2. rewrite Rmult_assoc, Rinv_l by (unfold Rdiv; lra). unfold Rdiv. lra. }
    unfold beyond, delta, add_const, pad; cbn [dsubs dstart dend px py pz fst snd]. unfold px, py, pz; cbn [fst snd].
    assert (H3 : (i = 0 \/ i = 1 \/ i = 2)%nat) by lia. destruct H3 as [-> |[-> | ->]]; auto.
  Qed.

  (** a point outside always gets a new node *)
  Lemma points_fresh d ce ip : setup_domain values elements 300 eps = Ok d -> element_ok values dim ce ->
    forall b next b' next' nodes, for_each (seq 0 (inum ip)) (find_or_create garbage values d ce ip) (b, next, []) = Ok (b', next', nodes) ->
    (next <= next')%Z
    /\ forall k, (k < inum ip)%nat -> outside_node_box values dim elements eps (position values ce (ilocal ip k)) ->
         exists n, nth_error nodes k = Some n /\ (next <= n < next')%Z.
  Proof.
    intros Ed Hok b next.
    enough (G : forall m s0 st0 st', for_each (seq s0 m) (find_or_create garbage values d ce ip) st0 = Ok st' ->
      length (snd st0) = s0 -> (snd (fst st0) <= snd (fst st'))%Z /\ (exists tl, snd st' = snd st0 ++ tl)
      /\ forall k, (s0 <= k < s0 + m)%nat -> outside_node_box values dim elements eps (position values ce (ilocal ip k)) ->
         exists n, nth_error (snd st') k = Some n /\ (snd (fst st0) <= n < snd (fst st'))%Z).
    { intros b' next' nodes E. destruct (G _ _ _ _ E eq_refl) as (H1 & _ & H2). cbn [fst snd] in *. split; [exact H1|].
      intros k Hk. apply H2. lia. }
    induction m as [|m IH]; intros s0 ((b0 & n0) & nodes0) st' E Hl.
    - injection E as <-. cbn [fst snd]. split; [lia|]. split; [exists []; rewrite app_nil_r; reflexivity|]. intros; lia.
    - cbn [seq for_each] in E. cbn [fst snd] in Hl.
      unfold find_or_create at 1 in E. rewrite (interpolate_eq _ _ dim) in E by exact Hok. cbn [obind] in E.
      rewrite to3d_map in E by exact Hdim. cbn [obind] in E.
      set (pp := pad dim (position values ce (ilocal ip s0))) in *.
      destruct (find_at d b0 pp) as [r| |] eqn:Er; [|discriminate|discriminate]. cbn [obind] in E.
      assert (Step : exists b1 n1 x, for_each (seq (S s0) m) (find_or_create garbage values d ce ip) (b1, n1, nodes0 ++ [x]) = Ok st'
        /\ (n0 <= n1)%Z /\ (outside_node_box values dim elements eps (position values ce (ilocal ip s0)) -> (n0 <= x < n1)%Z)).
      { destruct r as [(q & n)|].
        - cbn [obind] in E. exists b0, n0, n. split; [exact E|]. split; [lia|]. intros Ho. exfalso.
          destruct (outside_beyond d _ Ed Ho) as (B1 & B2). pose proof (find_at_beyond d b0 pp _ B2 B1 Er). discriminate.
        - destruct (box_add d b0 (pp, n0)) as [b1| |]; [|discriminate|discriminate]. cbn [obind] in E.
          exists b1, (n0 + 1)%Z, n0. split; [exact E|]. split; [lia|]. intros; lia. }
      destruct Step as (b1 & n1 & x & E1 & Hle & Hx).
      destruct (IH (S s0) _ _ E1) as (G1 & (tl & G2) & G3); [cbn [snd]; rewrite app_length; cbn [length]; lia|].
      cbn [fst snd] in *. split; [lia|]. split; [exists (x :: tl); rewrite G2, <- app_assoc; reflexivity|].
      intros k Hk Ho. destruct (Nat.eq_dec k s0) as [-> |Hne0].
      + exists x. rewrite G2, <- app_assoc, nth_error_app2 by lia. rewrite Hl, Nat.sub_diag. split; [reflexivity|].
        specialize (Hx Ho). lia.
      + destruct (G3 k ltac:(lia) Ho) as (n & Hn & Hr). exists n. split; [exact Hn|lia].
  Qed.

  Lemma convert_fresh d dof optIp s idx s' c : setup_domain values elements 300 eps = Ok d ->
    nth_error (delems s) idx = Some c -> element_ok values dim (ecoord c) ->
    convert_element garbage values d dof optIp s idx = Ok s' ->
    (dnext s <= dnext s')%Z
    /\ (forall j, j <> idx -> nth_error (delems s') j = nth_error (delems s) j)
    /\ exists c' de, nth_error (delems s') idx = Some c' /\ ecoord c' = ecoord c /\ edof c' dof = Some de /\ einterp de = new_interp optIp c
         /\ forall k, (k < inum (new_interp optIp c))%nat ->
              outside_node_box values dim elements eps (position values (ecoord c) (ilocal (new_interp optIp c) k)) ->
              exists n, nth_error (enodes de) k = Some n /\ (dnext s <= n < dnext s')%Z.
  Proof.
    intros Ed Hc Hok. unfold convert_element. rewrite Hc. cbv zeta.
    change (match optIp with Some ip => ip | None => einterp (ecoord c) end) with (new_interp optIp c).
    destruct (negb _); [discriminate|].
    destruct (for_each _ _ _) as [((b' & next') & nodes)| |] eqn:E; [|discriminate|discriminate]. cbn [obind].
    unfold add_dof_element. destruct (edof c dof); [discriminate|]. cbn [obind]. intros Es. injection Es as <-. cbn [dnext delems].
    destruct (points_fresh d (ecoord c) (new_interp optIp c) Ed Hok _ _ _ _ _ E) as (H1 & H2).
    assert (Hi : (idx < length (delems s))%nat) by (apply nth_error_Some; rewrite Hc; discriminate).
    split; [exact H1|]. split; [intros j Hj; apply replace_nth_other; congruence|].
    eexists. exists (mkElement nodes (new_interp optIp c)). split; [apply replace_nth_same; exact Hi|].
    cbn [ecoord edof enodes einterp]. rewrite Z.eqb_refl. auto.
  Qed.

  (** two elements of the mesh with a common point outside the box, converted in one call, do not share a node there *)
  Lemma outside_not_shared next dof optIp i1 i2 c1 c2 k1 k2 s p : i1 <> i2 ->
    nth_error elements i1 = Some c1 -> nth_error elements i2 = Some c2 ->
    (k1 < inum (new_interp optIp c1))%nat -> (k2 < inum (new_interp optIp c2))%nat ->
    p = position values (ecoord c1) (ilocal (new_interp optIp c1) k1) ->
    p = position values (ecoord c2) (ilocal (new_interp optIp c2) k2) ->
    outside_node_box values dim elements eps p ->
    add_dof_interpolation garbage values elements next dof [i1; i2] optIp = Ok s ->
    exists n1 n2, dof_node_at values (delems s) dof n1 p /\ dof_node_at values (delems s) dof n2 p /\ n1 <> n2.
  Proof.
    intros Hne12 Hc1 Hc2 Hk1 Hk2 Hp1 Hp2 Ho. unfold add_dof_interpolation. fold eps.
    destruct (setup_domain values elements 300 eps) as [d| |] eqn:Ed; [|discriminate|discriminate]. cbn [obind].
    destruct (make_boxes d) as [b0| |]; [|discriminate|discriminate]. cbn [obind].
    destruct (node_points_total _ _ _ _) as [nps| |]; [|discriminate|discriminate]. cbn [obind].
    destruct (for_each nps _ _) as [b1| |]; [|discriminate|discriminate]. cbn [obind for_each].
    destruct (convert_element _ _ _ _ _ _ i1) as [s1| |] eqn:E1; [|discriminate|discriminate]. cbn [obind].
    destruct (convert_element _ _ _ _ _ s1 i2) as [s2| |] eqn:E2; [|discriminate|discriminate]. cbn [obind].
    intros Es. injection Es as <-.
    assert (Hok : forall i c, nth_error elements i = Some c -> element_ok values dim (ecoord c)).
    { intros i c H. apply (Hmesh c). eapply nth_error_In. exact H. }
    destruct (convert_fresh d dof optIp (mkDstate b1 next elements) i1 s1 c1 Ed Hc1 (Hok _ _ Hc1) E1) as (_ & O1 & (c1' & de1 & G1 & G2 & G3 & G4 & G5)).
    cbn [delems] in O1. rewrite <- (O1 i2) in Hc2 by congruence.
    assert (Hok2 : element_ok values dim (ecoord c2)) by (apply (Hok i2); rewrite <- (O1 i2) by congruence; exact Hc2).
    destruct (convert_fresh d dof optIp _ i2 s2 c2 Ed Hc2 Hok2 E2) as (_ & O2 & (c2' & de2 & F1 & F2 & F3 & F4 & F5)).
    rewrite Hp1 in Ho. destruct (G5 k1 Hk1 Ho) as (n1 & N1 & L1). rewrite <- Hp1, Hp2 in Ho. destruct (F5 k2 Hk2 Ho) as (n2 & N2 & L2).
    exists n1, n2. split; [|split; [|lia]].
    - exists c1', de1, k1. split; [eapply nth_error_In; rewrite (O2 i1 Hne12); exact G1|]. split; [exact G3|]. split; [exact N1|].
      rewrite G2, G4. exact Hp1.
    - exists c2', de2, k2. split; [eapply nth_error_In; exact F1|]. split; [exact F3|]. split; [exact N2|].
      rewrite F2, F4. exact Hp2.
  Qed.
End Outside.
