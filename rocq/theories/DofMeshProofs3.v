(** * Proofs for C50, continued: the invariant of AddDofInterpolation *)
From Coq Require Import List ZArith Arith Reals Lra Lia.
From Verif Require Import Outcome RSum AdaptiveModel AdaptiveProofs CellModel MeshModel MeshSpec MeshProofs UnitMeshProofs
  DofMeshModel DofMeshProofs DofMeshProofs2.
Import ListNotations.
Local Open Scope R_scope.

Lemma seq_split n : forall s done a rest, seq s n = done ++ a :: rest -> a = (s + length done)%nat /\ (length done < n)%nat.
Proof.
  induction n as [|n IH]; intros s [|x done] a rest E; simpl in E; try discriminate.
  - injection E as <- _. simpl. split; lia.
  - injection E as <- E. destruct (IH (S s) done a rest E) as (-> & H). simpl. split; lia.
Qed.

Lemma replace_nth_length {A} (l : list A) i a : (i < length l)%nat -> length (replace_nth l i a) = length l.
Proof. intros H. unfold replace_nth. rewrite app_length, firstn_length. cbn [length]. rewrite skipn_length. lia. Qed.
Lemma replace_nth_same {A} (l : list A) i a : (i < length l)%nat -> nth_error (replace_nth l i a) i = Some a.
Proof.
  intros H. unfold replace_nth. rewrite nth_error_app2 by (rewrite firstn_length; lia).
  rewrite firstn_length, Nat.min_l by lia. rewrite Nat.sub_diag. reflexivity.
Qed.
Lemma replace_nth_other {A} (l : list A) i j a : (i < length l)%nat -> i <> j -> nth_error (replace_nth l i a) j = nth_error l j.
Proof.
  intros H Hne. unfold replace_nth. destruct (lt_dec j i) as [L|L].
  - rewrite nth_error_app1 by (rewrite firstn_length; lia).
    rewrite <- (firstn_skipn i l) at 2. rewrite nth_error_app1 by (rewrite firstn_length; lia). reflexivity.
  - rewrite nth_error_app2 by (rewrite firstn_length; lia). rewrite firstn_length, Nat.min_l by lia.
    replace (j - i)%nat with (S (j - S i)) by lia. cbn [nth_error].
    rewrite <- (firstn_skipn (S i) l) at 2. rewrite nth_error_app2 by (rewrite firstn_length; lia).
    rewrite firstn_length, Nat.min_l by lia. reflexivity.
Qed.

Section Convert.
  Variables (garbage : mfun) (values : Z -> list R) (dim : nat) (eps : R) (d : domain).
  Hypothesis Hdim : (dim <= 3)%nat.
  Hypothesis Hd : domain_ok d eps.
  (** all points that occur *)
  Variable P : (nat -> R) -> Prop.
  Hypothesis Pin : forall p, P p -> in_domain d eps (pad dim p).
  Hypothesis Ptrans : forall p q r, P p -> P q -> P r -> distance dim p q < eps -> distance dim q r < eps -> distance dim p r < eps.

  Definition P3 (q : p3) : Prop := exists p, P p /\ q = pad dim p.
  Lemma close_trans p q r : P3 p -> P3 q -> P3 r -> close eps p q -> close eps q r -> close eps p r.
  Proof.
    intros (p' & Hp & ->) (q' & Hq & ->) (r' & Hr & ->) H1 H2. pose proof (dk_eps d eps Hd) as He.
    apply distance_close in H1; auto. apply distance_close in H2; auto. apply distance_close; eauto.
  Qed.

  (** [A]: all assigned (position, node) pairs; [L]: the entries in the boxes *)
  Definition Inv (A : list (p3 * Z)) (b : boxes) (next : Z) : Prop :=
    exists L, boxes_hold d b L /\ incl L A
      /\ (forall p n, In (p, n) A -> P3 p /\ (n < next)%Z /\ exists q, In (q, n) L /\ close eps p q)
      /\ (forall p n p' n', In (p, n) A -> In (p', n') A -> (n = n' <-> close eps p p')).

  Lemma find_or_create_spec A b next nodes ce ip i :
    Inv A b next -> element_ok values dim ce -> P (position values ce (ilocal ip i)) ->
    exists b' next' n, find_or_create garbage values d ce ip (b, next, nodes) i = Ok (b', next', nodes ++ [n])
      /\ Inv (A ++ [(pad dim (position values ce (ilocal ip i)), n)]) b' next' /\ (next <= next')%Z.
  Proof.
    intros (L & HL & Hincl & HA & Hsame) Hok Hp. set (pp := pad dim (position values ce (ilocal ip i))).
    pose proof (dk_eps d eps Hd) as He.
    unfold find_or_create. rewrite (interpolate_eq _ _ dim) by exact Hok. cbn [obind]. rewrite to3d_map by exact Hdim. cbn [obind]. fold pp.
    assert (HP : P3 pp) by (eexists; split; [exact Hp|reflexivity]).
    assert (HLd : forall e, In e L -> in_domain d eps (fst e)).
    { intros (q & n) Hq. destruct (HA q n (Hincl _ Hq)) as ((q' & Hq' & ->) & _). apply Pin. exact Hq'. }
    destruct (find_at_spec d eps b L pp Hd HL HLd (Pin _ Hp)) as (r & -> & Hr). cbn [obind]. destruct r as [(q & n)|].
    - destruct Hr as (Hq & Hc). cbn [fst] in Hc. exists b, next, n. split; [reflexivity|]. split; [|lia].
      destruct (HA q n (Hincl _ Hq)) as (HPq & Hn & _).
      exists L. split; [exact HL|]. split; [intros e He'; apply in_app_iff; left; auto|]. split.
      + intros p m Hm. apply in_app_iff in Hm. destruct Hm as [Hm|[Hm|[]]]; [auto|]. injection Hm as <- <-.
        split; [exact HP|]. split; [exact Hn|]. exists q. split; [exact Hq|]. apply close_sym. exact Hc.
      + assert (S1 : forall p m, In (p, m) A -> (m = n <-> close eps p pp)).
        { intros p m Hm. rewrite (Hsame p m q n Hm (Hincl _ Hq)). destruct (HA p m Hm) as (HPp & _).
          split; intros G; [exact (close_trans p q pp HPp HPq HP G Hc)|exact (close_trans p pp q HPp HP HPq G (close_sym _ _ _ Hc))]. }
        intros p m p' m' Hm Hm'. apply in_app_iff in Hm. apply in_app_iff in Hm'.
        destruct Hm as [Hm|[Hm|[]]], Hm' as [Hm'|[Hm'|[]]].
        * auto.
        * injection Hm' as <- <-. auto.
        * injection Hm as <- <-. split; intros G; [apply close_sym, (S1 p' m' Hm'); symmetry; exact G|symmetry; apply (S1 p' m' Hm'), close_sym, G].
        * injection Hm as <- <-. injection Hm' as <- <-. split; intros; [apply close_refl; exact He|reflexivity].
    - destruct (box_add_spec d eps b L (pp, next) Hd HL (Pin _ Hp)) as (b' & -> & HL'). cbn [obind].
      exists b', (next + 1)%Z, next. split; [reflexivity|]. split; [|lia].
      exists (L ++ [(pp, next)]). split; [exact HL'|].
      split; [intros e H; apply in_app_iff in H; apply in_app_iff; destruct H as [H|H]; [left; auto|right; exact H]|]. split.
      + intros p m Hm. apply in_app_iff in Hm. destruct Hm as [Hm|[Hm|[]]].
        * destruct (HA p m Hm) as (A1 & A2 & q & A3 & A4). split; [exact A1|]. split; [lia|]. exists q. split; [apply in_app_iff; auto|exact A4].
        * injection Hm as <- <-. split; [exact HP|]. split; [lia|]. exists pp.
          split; [apply in_app_iff; right; left; reflexivity|apply close_refl; exact He].
      + assert (S1 : forall p m, In (p, m) A -> m <> next /\ ~ close eps p pp).
        { intros p m Hm. destruct (HA p m Hm) as (A1 & A2 & q & A3 & A4). split; [lia|]. intros G.
          apply (Hr (q, m) A3). cbn [fst]. destruct (HA q m (Hincl _ A3)) as (A5 & _).
          apply (close_trans q p pp A5 A1 HP); [apply close_sym; exact A4|exact G]. }
        intros p m p' m' Hm Hm'. apply in_app_iff in Hm. apply in_app_iff in Hm'.
        destruct Hm as [Hm|[Hm|[]]], Hm' as [Hm'|[Hm'|[]]].
        * auto.
        * injection Hm' as <- <-. destruct (S1 p m Hm) as (X & Y). split; intros G; contradiction.
        * injection Hm as <- <-. destruct (S1 p' m' Hm') as (X & Y).
          split; intros G; [congruence|exfalso; apply Y, close_sym, G].
        * injection Hm as <- <-. injection Hm' as <- <-. split; intros; [apply close_refl; exact He|reflexivity].
  Qed.

  Lemma points_loop A b next ce ip : Inv A b next -> element_ok values dim ce ->
    (forall k, (k < inum ip)%nat -> P (position values ce (ilocal ip k))) ->
    exists b' next' nodes A', for_each (seq 0 (inum ip)) (find_or_create garbage values d ce ip) (b, next, []) = Ok (b', next', nodes)
      /\ length nodes = inum ip /\ Inv A' b' next' /\ incl A A' /\ (next <= next')%Z
      /\ forall k n, nth_error nodes k = Some n -> In (pad dim (position values ce (ilocal ip k)), n) A'.
  Proof.
    intros HI Hok HP.
    destruct (for_each_inv (fun done (st : boxes * Z * list Z) => let '(b', next', nodes) := st in
        length nodes = length done /\ exists A', Inv A' b' next' /\ incl A A' /\ (next <= next')%Z
          /\ forall k n, nth_error nodes k = Some n -> In (pad dim (position values ce (ilocal ip k)), n) A')
      (find_or_create garbage values d ce ip) (seq 0 (inum ip)) [] (b, next, [])) as (((b' & next') & nodes) & E & H).
    - split; [reflexivity|]. exists A. split; [exact HI|]. split; [apply incl_refl|]. split; [lia|].
      intros k n Hk. destruct k; discriminate.
    - intros done i rest ((b1 & next1) & nodes) E (Hlen & A1 & HI1 & Hincl & Hle & Hn). simpl in E.
      destruct (seq_split _ _ _ _ _ E) as (-> & Hlt). simpl in *.
      destruct (find_or_create_spec A1 b1 next1 nodes ce ip (length done) HI1 Hok (HP _ Hlt)) as (b2 & next2 & n & E2 & HI2 & Hle2).
      exists (b2, next2, nodes ++ [n]). split; [exact E2|]. split; [rewrite !app_length; simpl; lia|].
      eexists. split; [exact HI2|]. split; [intros e He; apply in_app_iff; left; auto|]. split; [lia|].
      intros k m Hk. apply in_app_iff. destruct (lt_dec k (length nodes)) as [L|L].
      + left. apply Hn. rewrite nth_error_app1 in Hk by exact L. exact Hk.
      + rewrite nth_error_app2 in Hk by lia. destruct (k - length nodes)%nat as [|q] eqn:Eq.
        * injection Hk as <-. right. left. replace k with (length done) by lia. reflexivity.
        * destruct q; discriminate.
    - destruct H as (Hlen & A' & H1 & H2 & H3 & H4). exists b', next', nodes, A'. split; [exact E|].
      split; [rewrite Hlen; simpl; apply seq_length|]. auto.
  Qed.

  Variables (elements : list collection) (dof : Z) (optIp : option interp) (next0 : Z).
  Hypothesis Hmesh : mesh_ok values dim elements.

  (** what the loop has done after the elements of [done] *)
  Definition Progress (done : list nat) (s : dstate) : Prop :=
    (exists A, Inv A (dboxes s) (dnext s)
       /\ forall n p, dof_node_at values (delems s) dof n p -> In (pad dim p, n) A)
    /\ (next0 <= dnext s)%Z
    /\ length (delems s) = length elements
    /\ forall idx c, nth_error elements idx = Some c -> exists c', nth_error (delems s) idx = Some c'
         /\ ecoord c' = ecoord c /\ (forall d', d' <> dof -> edof c' d' = edof c d')
         /\ (~ In idx done -> edof c' dof = edof c dof)
         /\ (In idx done -> exists de, edof c' dof = Some de /\ einterp de = new_interp optIp c
               /\ length (enodes de) = inum (new_interp optIp c)).

  Lemma convert_element_spec done idx c s : Progress done s -> nth_error elements idx = Some c -> ~ In idx done ->
    edof c dof = None -> itype (einterp (ecoord c)) = itype (new_interp optIp c) ->
    (forall k, (k < inum (new_interp optIp c))%nat -> P (position values (ecoord c) (ilocal (new_interp optIp c) k))) ->
    exists s', convert_element garbage values d dof optIp s idx = Ok s' /\ Progress (done ++ [idx]) s'.
  Proof.
    intros ((A & HI & HA) & Hnext & Hlen & Hel) Hc Hnd Hdof Htype HP.
    destruct (Hel idx c Hc) as (c' & Hc' & Ecoord & Eother & Enot & _). specialize (Enot Hnd).
    unfold convert_element. rewrite Hc'. cbv zeta. rewrite Ecoord.
    change (match optIp with Some ip => ip | None => einterp (ecoord c) end) with (new_interp optIp c).
    rewrite Htype, Nat.eqb_refl. cbn [negb].
    destruct (Hmesh c (nth_error_In _ _ Hc)) as (Hok & _).
    destruct (points_loop A (dboxes s) (dnext s) (ecoord c) (new_interp optIp c) HI Hok HP)
      as (b' & next' & nodes & A' & -> & Hnl & HI' & Hincl & Hle & Hnodes). cbn [obind].
    unfold add_dof_element. rewrite Enot, Hdof. cbn [obind].
    eexists. split; [reflexivity|]. set (cn := mkCollection _ _).
    assert (Hi : (idx < length (delems s))%nat) by (apply nth_error_Some; rewrite Hc'; discriminate).
    split; [|split; [|split]]; cbn [dboxes dnext delems].
    - exists A'. split; [exact HI'|]. intros n p (c1 & de & k & Hin & Hde & Hk & ->).
      apply In_nth_error in Hin. destruct Hin as (j & Hj). destruct (Nat.eq_dec idx j) as [<- |Hne].
      + rewrite replace_nth_same in Hj by exact Hi. injection Hj as <-. unfold cn in *. cbn [edof ecoord] in *.
        rewrite Z.eqb_refl in Hde. injection Hde as <-. cbn [enodes einterp] in *. rewrite Ecoord. apply Hnodes. exact Hk.
      + rewrite replace_nth_other in Hj by assumption. apply Hincl, HA. exists c1, de, k.
        split; [eapply nth_error_In; eauto|auto].
    - lia.
    - rewrite replace_nth_length by exact Hi. exact Hlen.
    - intros j cj Hj. destruct (Nat.eq_dec idx j) as [<- |Hne].
      + rewrite Hc in Hj. injection Hj as <-. exists cn. split; [apply replace_nth_same; exact Hi|].
        split; [exact Ecoord|]. split.
        { intros d' Hd'. unfold cn. cbn [edof]. destruct (Z.eqb_spec d' dof); [contradiction|]. apply Eother. exact Hd'. }
        split; [intros Hn; exfalso; apply Hn, in_app_iff; right; left; reflexivity|].
        intros _. exists (mkElement nodes (new_interp optIp c)). unfold cn. cbn [edof enodes einterp]. rewrite Z.eqb_refl. auto.
      + destruct (Hel j cj Hj) as (cj' & Hcj' & F1 & F2 & F3 & F4). exists cj'.
        split; [rewrite replace_nth_other by assumption; exact Hcj'|]. split; [exact F1|]. split; [exact F2|].
        rewrite in_app_iff. split; [intros Hn; apply F3; tauto|]. intros [Hn|[Hn|[]]]; [auto|contradiction].
  Qed.

  Lemma convert_all group s : Progress [] s -> NoDup group ->
    (forall idx, In idx group -> exists c, nth_error elements idx = Some c /\ edof c dof = None
       /\ itype (einterp (ecoord c)) = itype (new_interp optIp c)
       /\ forall k, (k < inum (new_interp optIp c))%nat -> P (position values (ecoord c) (ilocal (new_interp optIp c) k))) ->
    exists s', for_each group (convert_element garbage values d dof optIp) s = Ok s' /\ Progress group s'.
  Proof.
    intros H0 Hnd Hg. apply (for_each_inv Progress _ group [] s H0).
    intros done idx rest s1 E H1. simpl in E.
    destruct (Hg idx) as (c & Hc & Hdof & Ht & HP); [rewrite E; apply in_app_iff; right; left; reflexivity|].
    apply (convert_element_spec done idx c s1 H1 Hc); auto.
    rewrite E in Hnd. intros Hin. apply NoDup_remove_2 in Hnd. apply Hnd, in_app_iff. left. exact Hin.
  Qed.
End Convert.

Section Existing.
  Variables (garbage : mfun) (values : Z -> list R) (dim : nat) (elements : list collection) (dof : Z).
  Hypothesis Hdim : (dim <= 3)%nat.
  Hypothesis Hmesh : mesh_ok values dim elements.

  Lemma node_points_total_spec : exists nps, node_points_total garbage values elements dof = Ok nps
    /\ (forall q n, In (q, n) nps -> exists p, dof_node_at values elements dof n p /\ q = pad dim p)
    /\ (forall n p, dof_node_at values elements dof n p -> In (pad dim p, n) nps).
  Proof.
    unfold node_points_total.
    destruct (for_each_inv (fun done nps =>
        (forall q n, In (q, n) nps -> exists p, dof_node_at values done dof n p /\ q = pad dim p)
        /\ (forall n p, dof_node_at values done dof n p -> In (pad dim p, n) nps))
      (fun acc c => match edof c dof with
      | None => Ok acc
      | Some de =>
        for_each (seq 0 (length (enodes de))) (fun acc i =>
          obind (interpolate garbage values (ecoord c) (ilocal (einterp de) i)) (fun x =>
          obind (to3d x) (fun p =>
          obind (get_node de i) (fun n => Ok (acc ++ [(p, n)]))))) acc
      end) elements [] []) as (nps & E & H1 & H2).
    - split; [intros q n []|]. intros n p (c & de & k & [] & _).
    - intros done c rest acc E (H1 & H2). simpl in E.
      assert (Hin : In c elements) by (rewrite E; apply in_app_iff; right; left; reflexivity).
      destruct (Hmesh c Hin) as (Hok & Hde). destruct (edof c dof) as [de|] eqn:Ed.
      + destruct (for_each_inv (fun di acc' =>
            (forall q n, In (q, n) acc' -> In (q, n) acc \/ exists i, In i di /\ nth_error (enodes de) i = Some n
               /\ q = pad dim (position values (ecoord c) (ilocal (einterp de) i)))
            /\ (forall q n, In (q, n) acc -> In (q, n) acc')
            /\ (forall i n, In i di -> nth_error (enodes de) i = Some n ->
                 In (pad dim (position values (ecoord c) (ilocal (einterp de) i)), n) acc'))
          (fun acc i => obind (interpolate garbage values (ecoord c) (ilocal (einterp de) i)) (fun x =>
             obind (to3d x) (fun p => obind (get_node de i) (fun n => Ok (acc ++ [(p, n)])))))
          (seq 0 (length (enodes de))) [] acc) as (acc' & E' & G1 & G2 & G3).
        * split; [auto|]. split; [auto|]. intros i n [].
        * intros di i ri acc1 Ei (F1 & F2 & F3). simpl in Ei. destruct (seq_split _ _ _ _ _ Ei) as (Hi & Hlt). simpl in Hi.
          rewrite (interpolate_eq _ _ dim) by exact Hok. cbn [obind]. rewrite to3d_map by exact Hdim. cbn [obind].
          destruct (get_node_spec de i) as (n & -> & Hn & _); [lia|]. cbn [obind].
          eexists. split; [reflexivity|]. split; [|split].
          { intros q m Hq. apply in_app_iff in Hq. destruct Hq as [Hq|[Hq|[]]].
            - destruct (F1 q m Hq) as [|(i' & Hi' & X)]; [auto|]. right. exists i'. split; [apply in_app_iff; auto|exact X].
            - injection Hq as <- <-. right. exists i. split; [apply in_app_iff; right; left; reflexivity|auto]. }
          { intros q m Hq. apply in_app_iff. auto. }
          { intros i' m Hi' Hm. apply in_app_iff. apply in_app_iff in Hi'. destruct Hi' as [Hi'|[<- |[]]]; [left; auto|].
            right. left. rewrite Hn in Hm. injection Hm as <-. reflexivity. }
        * exists acc'. split; [exact E'|]. split.
          { intros q n Hq. destruct (G1 q n Hq) as [Ha|(i & Hi & Hn & ->)].
            - destruct (H1 q n Ha) as (p & (c1 & de1 & k & X1 & X2 & X3 & X4) & ->). exists p.
              split; [|reflexivity]. exists c1, de1, k. rewrite in_app_iff. auto.
            - eexists. split; [|reflexivity]. exists c, de, i. rewrite in_app_iff. split; [right; left; reflexivity|]. auto. }
          { intros n p (c1 & de1 & k & X1 & X2 & X3 & ->). apply in_app_iff in X1. destruct X1 as [X1|[<- |[]]].
            - apply G2, H2. exists c1, de1, k. auto.
            - rewrite Ed in X2. injection X2 as <-. apply G3; [|exact X3]. simpl. apply in_seq.
              split; [lia|]. simpl. apply nth_error_Some. rewrite X3. discriminate. }
      + exists acc. split; [reflexivity|]. split.
        { intros q n Hq. destruct (H1 q n Hq) as (p & (c1 & de1 & k & X1 & X2 & X3 & X4) & ->). exists p.
          split; [|reflexivity]. exists c1, de1, k. rewrite in_app_iff. auto. }
        { intros n p (c1 & de1 & k & X1 & X2 & X3 & ->). apply in_app_iff in X1. destruct X1 as [X1|[<- |[]]].
          - apply H2. exists c1, de1, k. auto.
          - rewrite Ed in X2. discriminate. }
    - exists nps. auto.
  Qed.
End Existing.

Lemma add_dof_interpolation_spec garbage values dim elements next dof group optIp :
  let eps := / 10 ^ 10 in
  let P := fun p => (exists n, dof_node_at values elements dof n p) \/ new_point values elements group optIp p in
  (dim <= 3)%nat -> elements <> [] -> mesh_ok values dim elements -> node_box_wide values dim elements (298 * eps) ->
  NoDup group ->
  (forall idx, In idx group -> exists c, nth_error elements idx = Some c /\ edof c dof = None
     /\ itype (einterp (ecoord c)) = itype (new_interp optIp c)) ->
  (forall p, P p -> in_node_box values dim elements p) ->
  (forall p q r, P p -> P q -> P r -> distance dim p q < eps -> distance dim q r < eps -> distance dim p r < eps) ->
  nodes_shared values dim elements dof eps ->
  (forall n p, dof_node_at values elements dof n p -> (n < next)%Z) ->
  exists s, add_dof_interpolation garbage values elements next dof group optIp = Ok s
    /\ nodes_shared values dim (delems s) dof eps
    /\ (next <= dnext s)%Z /\ (forall n p, dof_node_at values (delems s) dof n p -> (n < dnext s)%Z)
    /\ length (delems s) = length elements
    /\ forall idx c, nth_error elements idx = Some c -> exists c', nth_error (delems s) idx = Some c'
         /\ ecoord c' = ecoord c /\ (forall d', d' <> dof -> edof c' d' = edof c d')
         /\ (~ In idx group -> edof c' dof = edof c dof)
         /\ (In idx group -> exists de, edof c' dof = Some de /\ einterp de = new_interp optIp c
               /\ length (enodes de) = inum (new_interp optIp c)).
Proof.
  intros eps P Hdim Hne Hmesh Hwide Hnd Hg Hbox Htrans Hshared Hnext.
  assert (He : 0 < eps) by (unfold eps; apply Rinv_0_lt_compat, pow_lt; lra).
  destruct (domain_spec values dim elements Hdim Hmesh eps Hne He Hwide) as (d & b0 & Ed & Dok & Eb & Hb0 & Hin).
  unfold add_dof_interpolation. fold eps. rewrite Ed. cbn [obind]. rewrite Eb. cbn [obind].
  destruct (node_points_total_spec garbage values dim elements dof Hdim Hmesh) as (nps & -> & Hn1 & Hn2). cbn [obind].
  destruct (box_add_all d eps [] Dok nps b0 Hb0) as (b1 & -> & Hb1).
  { intros (q & n) Hq. destruct (Hn1 q n Hq) as (p & Hp & ->). apply Hin, Hbox. left. exists n. exact Hp. }
  cbn [obind app] in *.
  assert (Pr0 : Progress values dim eps d P elements dof optIp next [] (mkDstate b1 next elements)).
  { split; [|split; [|split]]; cbn [dboxes dnext delems].
    - exists nps. split; [|exact Hn2]. exists nps. split; [exact Hb1|]. split; [apply incl_refl|]. split.
      + intros q n Hq. destruct (Hn1 q n Hq) as (p & Hp & ->). split; [exists p; split; [left; exists n; exact Hp|reflexivity]|].
        split; [exact (Hnext n p Hp)|]. exists (pad dim p). split; [exact Hq|]. apply close_refl. exact He.
      + intros q n q' n' Hq Hq'. destruct (Hn1 q n Hq) as (p & Hp & ->). destruct (Hn1 q' n' Hq') as (p' & Hp' & ->).
        rewrite (Hshared n p n' p' Hp Hp'). apply distance_close; assumption.
    - lia.
    - reflexivity.
    - intros idx c Hc. exists c. split; [exact Hc|]. split; [reflexivity|]. split; [reflexivity|]. split; [reflexivity|]. intros []. }
  destruct (convert_all garbage values dim eps d Hdim Dok P (fun p Hp => Hin p (Hbox p Hp)) Htrans elements dof optIp next Hmesh
    group (mkDstate b1 next elements) Pr0 Hnd) as (s & Es & ((A & HI & HA) & Hle & Hlen & Hel)).
  { intros idx Hidx. destruct (Hg idx Hidx) as (c & Hc & H1 & H2). exists c. split; [exact Hc|]. split; [exact H1|].
    split; [exact H2|]. intros k Hk. right. exists idx, c, k. auto. }
  exists s. split; [exact Es|]. destruct HI as (L & _ & _ & HI1 & HI2).
  split; [|split; [|split; [|split]]].
  - intros n p n' p' Hp Hp'. rewrite (HI2 _ n _ n' (HA n p Hp) (HA n' p' Hp')). symmetry. apply distance_close; assumption.
  - exact Hle.
  - intros n p Hp. destruct (HI1 _ n (HA n p Hp)) as (_ & Hlt & _). exact Hlt.
  - exact Hlen.
  - exact Hel.
Qed.
