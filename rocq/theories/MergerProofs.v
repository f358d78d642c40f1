(** * Proofs for C29 *)
From Coq Require Import List ZArith Arith Bool Reals Lia.
From Verif Require Import Outcome GroupModel GroupSpec GroupProofs DofModel DofSpec DofProofs ConstraintModel Algebra MergerModel MergerSpec.
Import ListNotations.

Lemma upd_length {A} i (x : A) l : length (upd i x l) = length l.
Proof. revert i; induction l as [|y l IH]; intros [|i]; simpl; auto. Qed.
Lemma nth_error_upd {A} i j (x : A) l : i < length l -> nth_error (upd i x l) j = if Nat.eqb j i then Some x else nth_error l j.
Proof.
  revert i j; induction l as [|y l IH]; intros [|i] [|j] H; simpl in *; try lia; auto. apply IH. lia.
Qed.

Lemma val_find (values : dofvec R_cring) d b n : mfind lt_dof d values = Some b -> @val R_cring values d n = nth n b 0%R.
Proof. intros H. unfold val. rewrite H. reflexivity. Qed.
Lemma nth_error_val (values : dofvec R_cring) d (b : list R) n : mfind lt_dof d values = Some b -> n < length b ->
  nth_error b n = Some (@val R_cring values d n).
Proof. intros H Hn. rewrite (val_find _ _ _ _ H). apply nth_error_nth'. exact Hn. Qed.

Lemma in_node_components v l a i : In (a, i) (node_components v l) <-> In a l /\ i < num_values v a.
Proof.
  unfold node_components. rewrite in_flat_map. split.
  - intros (a' & Ha & H). apply in_map_iff in H. destruct H as (j & [= -> ->] & Hj). apply in_seq in Hj. split; [auto|lia].
  - intros (Ha & Hi). exists a. split; auto. apply in_map_iff. exists i. split; auto. apply in_seq. lia.
Qed.

Lemma merger_nodes_spec mesh m d : memo_current mesh m ->
  exists l m', merger_nodes mesh m d = Ok (l, m') /\ memo_current mesh m' /\ forall a, In a l <-> in_mesh mesh d a.
Proof.
  intros (Hs & Hm). unfold merger_nodes. destruct (mfind lt_dof d m) as [l|] eqn:E.
  - exists l, m. split; auto. split; [split; auto|]. apply (Hm d l E).
  - unfold nodes_total. destruct (group_history (flat_map (fun e => match e d with Some l => l | None => [] end) mesh)) as (g & -> & Hok & Hd).
    assert (Hin : forall a, In a (mData g) <-> in_mesh mesh d a).
    { intros a. rewrite Hd. unfold first_occurrences. rewrite in_first_occ, in_flat_map. unfold in_mesh. split.
      - intros ((e & He & Ha) & _). destruct (e d) as [l|] eqn:Ee; [|destruct Ha]. exists e, l. auto.
      - intros (e & l & He & Ee & Ha). split; [|intros []]. exists e. rewrite Ee. auto. }
    exists (mData g), (mset lt_dof d (mData g) m). split; auto. split; auto. split.
    + apply dsorted_ascending, msorted_mset; [intros x y z; apply ltdof_trans|apply ltdof_total|apply dsorted_ascending; exact Hs].
    + intros d' l'. rewrite dfind_dset by (apply dsorted_ascending; exact Hs). destruct (Z.eqb_spec d' d) as [->|].
      * intros [= <-]. split; [rewrite Hd; apply NoDup_first_occ|exact Hin].
      * apply Hm.
Qed.

Lemma set_value_spec v inst k x vs : nth_error (v (fst k)) inst = Some vs -> snd k < length vs ->
  exists v', set_value v inst k x = Ok v' /\ (forall a, num_values v' a = num_values v a) /\
    (forall a j, option_map (@length R) (nth_error (v' a) j) = option_map (@length R) (nth_error (v a) j)) /\
    forall a i j, component v' j a i = if andb (andb (Z.eqb a (fst k)) (Nat.eqb i (snd k))) (Nat.eqb j inst) then Some x else component v j a i.
Proof.
  intros Hv Hl. unfold set_value. rewrite Hv. destruct (Nat.ltb_spec (snd k) (length vs)) as [_|]; [|lia].
  assert (Hi : inst < length (v (fst k))) by (apply nth_error_Some; rewrite Hv; discriminate).
  eexists. split; [reflexivity|]. split; [|split].
  - intros a. unfold num_values. destruct (Z.eqb_spec a (fst k)) as [->|]; [|reflexivity].
    destruct (v (fst k)) as [|w ws]; [destruct inst; discriminate|]. destruct inst; simpl in *; [|reflexivity].
    injection Hv as ->. apply upd_length.
  - intros a j. destruct (Z.eqb_spec a (fst k)) as [->|]; [|reflexivity].
    rewrite nth_error_upd by exact Hi. destruct (Nat.eqb_spec j inst) as [->|]; [|reflexivity]. rewrite Hv. simpl. f_equal. apply upd_length.
  - intros a i j. unfold component. destruct (Z.eqb_spec a (fst k)) as [->|]; [|reflexivity]. simpl.
    rewrite nth_error_upd by exact Hi. destruct (Nat.eqb_spec j inst) as [->|].
    + rewrite nth_error_upd by exact Hl. rewrite Hv, andb_true_r. reflexivity.
    + rewrite andb_false_r. reflexivity.
Qed.

(** a component that can be written: its instance exists and is long enough *)
Definition slot (v : node_values) (inst : nat) (k : Z * nat) : Prop := exists vs, nth_error (v (fst k)) inst = Some vs /\ snd k < length vs.

Lemma dof_number_of h a i n : numbered_as h a i n -> dof_number h (a, Z.of_nat i) = Ok (Z.of_nat n).
Proof.
  unfold numbered_as, dof_number. simpl. intros H. destruct (Z.ltb_spec (Z.of_nat i) 0); [lia|]. rewrite Nat2Z.id, H. reflexivity.
Qed.
Lemma read_dof_of (values : dofvec R_cring) d b n : mfind lt_dof d values = Some b -> n < length b ->
  exists x, nth_error b n = Some x /\ read_dof values d (Z.of_nat n) = Ok x.
Proof.
  intros Hb Hn. destruct (nth_error b n) as [x|] eqn:E; [|apply nth_error_None in E; lia]. exists x. split; auto.
  unfold read_dof. rewrite Hb. destruct (Z.ltb_spec (Z.of_nat n) 0); [lia|]. rewrite Nat2Z.id, E. reflexivity.
Qed.

Lemma merge_components_spec h (values : dofvec R_cring) d b inst : mfind lt_dof d values = Some b ->
  forall ks v, (forall k, In k ks -> slot v inst k /\ exists n, numbered_as h (fst k) (snd k) n /\ n < length b) ->
  exists v', merge_components h values d inst ks v = Ok v' /\ (forall a, num_values v' a = num_values v a) /\
    (forall a j, option_map (@length R) (nth_error (v' a) j) = option_map (@length R) (nth_error (v a) j)) /\
    (forall a i n, In (a, i) ks -> numbered_as h a i n -> component v' inst a i = nth_error b n) /\
    (forall a i j, j <> inst \/ ~ In (a, i) ks -> component v' j a i = component v j a i).
Proof.
  intros Hb. induction ks as [|k ks IH]; intros v Hk.
  - exists v. simpl. repeat split; auto. intros a i n [].
  - destruct (Hk k (or_introl eq_refl)) as ((vs & Hvs & Hl) & n & Hn & Hnb). cbn [merge_components].
    rewrite (dof_number_of _ _ _ _ Hn). cbn [obind]. destruct (read_dof_of values d b n Hb Hnb) as (x & Hx & ->). cbn [obind].
    destruct (set_value_spec v inst k x vs Hvs Hl) as (v1 & -> & Hnv & Hlen & Hc). cbn [obind].
    destruct (IH v1) as (v' & Hv' & Hnv' & Hlen' & Hin & Hout).
    { intros k' Hk'. destruct (Hk k' (or_intror Hk')) as ((vs' & Hvs' & Hl') & Hn'). split; [|exact Hn'].
      specialize (Hlen (fst k') inst). rewrite Hvs' in Hlen. unfold slot. destruct (nth_error (v1 (fst k')) inst) as [ws|]; [|discriminate].
      simpl in Hlen. injection Hlen as Hlen. exists ws. split; auto. lia. }
    exists v'. split; [exact Hv'|]. split; [intros a; rewrite Hnv'; apply Hnv|]. split; [intros a j; rewrite Hlen'; apply Hlen|]. split.
    + intros a i n' Hai Hn'.
      destruct (in_dec (fun p q : Z * nat => ltac:(decide equality; [apply Nat.eq_dec|apply Z.eq_dec])) (a, i) ks) as [Hi|Hni].
      * apply Hin; assumption.
      * rewrite Hout by auto. destruct Hai as [Hai|]; [|contradiction]. subst k. simpl in *.
        rewrite Hc, Z.eqb_refl, !Nat.eqb_refl. simpl. assert (n' = n); [|subst; auto].
        unfold numbered_as in *. rewrite Hn in Hn'. injection Hn' as Hn'. lia.
    + intros a i j Hor. rewrite Hout by (destruct Hor as [?|Hor]; [left; auto|right; intros Hx'; apply Hor; right; exact Hx']).
      rewrite Hc. destruct (Z.eqb_spec a (fst k)) as [->|]; simpl; [|reflexivity].
      destruct (Nat.eqb_spec i (snd k)) as [->|]; simpl; [|reflexivity]. destruct (Nat.eqb_spec j inst) as [->|]; [|reflexivity].
      destruct Hor as [?|Hor]; [congruence|]. exfalso. apply Hor. left. destruct k; reflexivity.
Qed.

Lemma fits_transfer mesh h v v' inst dofs size :
  (forall a, num_values v' a = num_values v a) ->
  (forall a j, option_map (@length R) (nth_error (v' a) j) = option_map (@length R) (nth_error (v a) j)) ->
  vector_fits mesh h v inst dofs size -> vector_fits mesh h v' inst dofs size.
Proof.
  intros Hn Hl (Hnd & Hf & Hdis). split; auto. split; auto. intros d a Hd Ha. destruct (Hf d a Hd Ha) as ((vs & Hvs & Hlen) & Hnum & Hi).
  split; [|split; auto; rewrite Hn; auto]. specialize (Hl a inst). rewrite Hvs in Hl. destruct (nth_error (v' a) inst) as [ws|]; [|discriminate].
  simpl in Hl. injection Hl as Hl. exists ws. split; auto. lia.
Qed.
Lemma fits_tail mesh h v inst d dofs size : vector_fits mesh h v inst (d :: dofs) size -> vector_fits mesh h v inst dofs size.
Proof.
  intros (Hnd & Hf & Hdis). inversion Hnd; subst. split; auto. split.
  - intros d' a Hd'. apply Hf. right; auto.
  - intros d1 d2 a Hd1 Hd2. apply Hdis; right; auto.
Qed.

Lemma merge_lemma mesh h (values : dofvec R_cring) inst size : forall dofs m v, memo_current mesh m ->
  vector_fits mesh h v inst dofs size -> (forall d, In d dofs -> @size_of R_cring values d = Some (size d)) ->
  exists m' v', merge mesh h values dofs inst m v = Ok (m', v') /\ memo_current mesh m' /\
    (forall a, num_values v' a = num_values v a) /\
    (forall a j, option_map (@length R) (nth_error (v' a) j) = option_map (@length R) (nth_error (v a) j)) /\
    (forall d a i n, In d dofs -> in_mesh mesh d a -> numbered_as h a i n -> component v' inst a i = Some (@val R_cring values d n)) /\
    (forall a i j, j <> inst \/ ~ (exists d, In d dofs /\ in_mesh mesh d a) -> component v' j a i = component v j a i).
Proof.
  induction dofs as [|d ds IH]; intros m v Hm Hfit Hsz.
  - exists m, v. simpl. split; auto. split; auto. split; auto. split; auto. split; [intros d a i n []|auto].
  - cbn [merge]. destruct (merger_nodes_spec mesh m d Hm) as (l & m1 & -> & Hm1 & Hl). cbn [obind fst snd].
    pose proof (Hsz d (or_introl eq_refl)) as Hb. unfold size_of in Hb. destruct (mfind lt_dof d values) as [b|] eqn:Eb; [|discriminate].
    simpl in Hb. injection Hb as Hb. pose proof Hfit as (Hnd & Hf & Hdis).
    destruct (merge_components_spec h values d b inst Eb (node_components v l) v) as (v1 & -> & Hnv & Hlen & Hin & Hout).
    { intros (a, i) Hk. apply in_node_components in Hk. destruct Hk as (Ha & Hi). apply Hl in Ha.
      destruct (Hf d a (or_introl eq_refl) Ha) as ((vs & Hvs & Hlv) & Hnum & Hnb). split.
      - exists vs. split; auto. simpl. lia.
      - destruct (Hnb i) as (n & Hn & Hlt); [lia|]. exists n. split; auto. change (n < @length R b). lia. }
    cbn [obind].
    destruct (IH m1 v1 Hm1) as (m' & v' & Hv' & Hm' & Hnv' & Hlen' & Hin' & Hout').
    { apply (fits_transfer mesh h v v1); auto. apply (fits_tail mesh h v inst d); auto. }
    { intros d' Hd'. apply Hsz. right; auto. }
    exists m', v'. split; auto. split; auto. split; [intros a; rewrite Hnv'; auto|]. split; [intros a j; rewrite Hlen'; auto|].
    inversion Hnd as [|? ? Hnin Hnd']; subst. split.
    + intros d' a i n [<-|Hd'] Ha Hn.
      * rewrite Hout'.
        -- assert (Hii : i < length (h a)) by (apply nth_error_Some; unfold numbered_as in Hn; rewrite Hn; discriminate).
           destruct (Hf d a (or_introl eq_refl) Ha) as (_ & Hnum & Hnb).
           rewrite (Hin a i n); auto; [|apply in_node_components; split; [apply Hl; auto|lia]].
           destruct (Hnb i Hii) as (n' & Hn' & Hlt'). assert (n' = n) by (unfold numbered_as in *; rewrite Hn in Hn'; injection Hn' as Hn'; lia).
           subst n'. apply (nth_error_val values d b n Eb). change (n < @length R b). lia.
        -- right. intros (d' & Hd' & Ha'). apply Hnin. rewrite (Hdis d d' a); simpl; auto.
      * apply Hin'; auto.
    + intros a i j Hor. rewrite Hout'.
      * apply Hout. destruct Hor as [?|Hor]; [left; auto|]. right. intros Hk. apply in_node_components in Hk. apply Hor. exists d. split; [left; auto|].
        apply Hl. apply Hk.
      * destruct Hor as [?|Hor]; [left; auto|right]. intros (d' & Hd' & Ha'). apply Hor. exists d'. split; [right; auto|auto].
Qed.

Lemma write_dof_of (values : dofvec R_cring) d (b : list R) n x : ascending values -> mfind lt_dof d values = Some b -> n < length b ->
  write_dof values d (Z.of_nat n) x = Ok (mset lt_dof d (upd n x b) values).
Proof.
  intros Hs Hb Hn. unfold write_dof. assert (E : @dc_index (list R) [] values d = (b, values)) by (unfold dc_index; change (@mfind Z (list R) lt_dof d values = Some b) in Hb; rewrite Hb; reflexivity).
  rewrite E. destruct (Z.ltb_spec (Z.of_nat n) 0); [lia|]. rewrite Nat2Z.id.
  destruct (Nat.ltb_spec n (length b)); [reflexivity|lia].
Qed.

Lemma extract_components_spec h v d inst : forall ks (values : dofvec R_cring) (b : list R), ascending values -> mfind lt_dof d values = Some b ->
  (forall k, In k ks -> slot v inst k /\ exists n, numbered_as h (fst k) (snd k) n /\ n < length b) ->
  (forall a i a' i' n, In (a, i) ks -> In (a', i') ks -> numbered_as h a i n -> numbered_as h a' i' n -> a = a' /\ i = i') ->
  exists values' b', extract_components h v d inst ks values = Ok values' /\ ascending values' /\ mfind lt_dof d values' = Some b' /\
    length b' = length b /\ (forall d', d' <> d -> mfind lt_dof d' values' = mfind lt_dof d' values) /\
    (forall a i n, In (a, i) ks -> numbered_as h a i n -> component v inst a i = nth_error b' n) /\
    (forall n, (forall a i, In (a, i) ks -> ~ numbered_as h a i n) -> nth_error b' n = nth_error b n).
Proof.
  induction ks as [|k ks IH]; intros values b Hs Hb Hk Hinj.
  - exists values, b. simpl. repeat split; auto. intros a i n [].
  - destruct (Hk k (or_introl eq_refl)) as ((vs & Hvs & Hl) & n & Hn & Hnb). cbn [extract_components].
    rewrite (dof_number_of _ _ _ _ Hn). cbn [obind].
    unfold get_value. rewrite Hvs. destruct (nth_error vs (snd k)) as [x|] eqn:Ex; [|apply nth_error_None in Ex; lia]. cbn [obind].
    rewrite (write_dof_of values d b n x Hs Hb Hnb). cbn [obind].
    pose proof (proj2 (dsorted_ascending values) Hs) as Hds.
    destruct (IH (mset lt_dof d (upd n x b) values) (upd n x b)) as (values' & b' & H1 & H2 & H3 & H4 & H5 & H6 & H7).
    + apply dsorted_ascending, msorted_mset; [intros ? ? ?; apply ltdof_trans|apply ltdof_total|exact Hds].
    + rewrite dfind_dset, Z.eqb_refl by exact Hds. reflexivity.
    + intros k' Hk'. rewrite upd_length. apply Hk. right; auto.
    + intros a i a' i' n' Ha Ha'. apply Hinj; right; auto.
    + exists values', b'. split; auto. split; auto. split; auto. split; [rewrite H4; apply upd_length|]. split.
      { intros d' Hd'. rewrite H5 by auto. rewrite dfind_dset by exact Hds. destruct (Z.eqb_spec d' d); [contradiction|reflexivity]. }
      split.
      * intros a i n' Hai Hn'.
        destruct (in_dec (fun p q : Z * nat => ltac:(decide equality; [apply Nat.eq_dec|apply Z.eq_dec])) (a, i) ks) as [Hi|Hni]; [apply H6; assumption|].
        destruct Hai as [Hai|]; [|contradiction]. subst k. simpl in *.
        assert (n' = n) by (unfold numbered_as in *; rewrite Hn in Hn'; injection Hn' as Hn'; lia). subst n'.
        rewrite H7.
        -- rewrite nth_error_upd, Nat.eqb_refl by auto. unfold component. rewrite Hvs. exact Ex.
        -- intros a' i' Hai' Hn''. destruct (Hinj a i a' i' n) as (-> & ->); auto.
      * intros n' Hn'. rewrite H7 by (intros a i Hai; apply Hn'; right; exact Hai).
        rewrite nth_error_upd by exact Hnb. destruct (Nat.eqb_spec n' n) as [->|]; [|reflexivity].
        exfalso. apply (Hn' (fst k) (snd k)); [left; destruct k; reflexivity|exact Hn].
Qed.

Lemma extract_lemma mesh h v inst size : forall dofs m (values : dofvec R_cring), memo_current mesh m -> ascending values ->
  vector_fits mesh h v inst dofs size -> numbers_unique mesh h dofs -> (forall d, In d dofs -> @size_of R_cring values d = Some (size d)) ->
  exists m' values', extract mesh h v dofs inst m values = Ok (m', values') /\ memo_current mesh m' /\ ascending values' /\
    (forall d, @size_of R_cring values' d = @size_of R_cring values d) /\
    (forall d, ~ In d dofs -> mfind lt_dof d values' = mfind lt_dof d values) /\
    (forall d a i n, In d dofs -> in_mesh mesh d a -> numbered_as h a i n -> component v inst a i = Some (@val R_cring values' d n)).
Proof.
  induction dofs as [|d ds IH]; intros m values Hm Hs Hfit Hu Hsz.
  - exists m, values. simpl. split; auto. split; auto. split; auto. split; auto. split; auto. intros d a i n [].
  - cbn [extract]. destruct (merger_nodes_spec mesh m d Hm) as (l & m1 & -> & Hm1 & Hl). cbn [obind fst snd].
    pose proof (Hsz d (or_introl eq_refl)) as Hb. unfold size_of in Hb. destruct (mfind lt_dof d values) as [b|] eqn:Eb; [|discriminate].
    simpl in Hb. injection Hb as Hb. pose proof Hfit as (Hnd & Hf & Hdis).
    destruct (extract_components_spec h v d inst (node_components v l) values b Hs Eb) as (values1 & b1 & -> & Hs1 & Hb1 & Hlen & Hother & Hin & _).
    { intros (a, i) Hk. apply in_node_components in Hk. destruct Hk as (Ha & Hi). apply Hl in Ha.
      destruct (Hf d a (or_introl eq_refl) Ha) as ((vs & Hvs & Hlv) & Hnum & Hnb). split.
      - exists vs. split; auto. simpl. lia.
      - destruct (Hnb i) as (n & Hn & Hlt); [lia|]. exists n. split; auto. change (n < @length R b). lia. }
    { intros a i a' i' n H1 H2 H3 H4. apply in_node_components in H1, H2. apply (Hu d a a' i i' n); simpl; auto; apply Hl; tauto. }
    cbn [obind].
    assert (Hsize1 : forall d', @size_of R_cring values1 d' = @size_of R_cring values d').
    { intros d'. unfold size_of. destruct (Z.eq_dec d' d) as [->|Hne]; [|rewrite Hother by auto; reflexivity].
      rewrite Hb1, Eb. simpl. f_equal. exact Hlen. }
    destruct (IH m1 values1 Hm1 Hs1) as (m' & values' & Hv' & Hm' & Hs' & Hsz' & Hout' & Hin').
    { apply (fits_tail mesh h v inst d); auto. }
    { intros d' a a' i i' n Hd'. apply (Hu d'). right; auto. }
    { intros d' Hd'. rewrite Hsize1. apply Hsz. right; auto. }
    exists m', values'. split; auto. split; auto. split; auto. split; [intros d'; rewrite Hsz'; auto|].
    inversion Hnd as [|? ? Hnin Hnd']; subst. split.
    + intros d' Hd'. rewrite Hout' by (intros Hx; apply Hd'; right; auto). apply Hother. intros ->. apply Hd'. left; auto.
    + intros d' a i n [<-|Hd'] Ha Hn; [|apply Hin'; auto].
      assert (Hii : i < length (h a)) by (apply nth_error_Some; unfold numbered_as in Hn; rewrite Hn; discriminate).
      destruct (Hf d a (or_introl eq_refl) Ha) as (_ & Hnum & Hnb).
      rewrite (Hin a i n); auto; [|apply in_node_components; split; [apply Hl; auto|lia]].
      destruct (Hnb i Hii) as (n' & Hn' & Hlt'). assert (n' = n) by (unfold numbered_as in *; rewrite Hn in Hn'; injection Hn' as Hn'; lia).
      subst n'. apply (nth_error_val values' d b1 n); [rewrite Hout' by auto; exact Hb1|]. change (n < @length R b1). change (@length R b = size d) in Hb. change (@length R b1 = @length R b) in Hlen. lia.
Qed.

(** Extract after Merge *)
Lemma merge_extract_lemma mesh h (values dest : dofvec R_cring) inst size dofs m v m1 v1 : memo_current mesh m -> ascending dest ->
  vector_fits mesh h v inst dofs size -> numbers_unique mesh h dofs -> numbers_complete mesh h dofs size ->
  (forall d, In d dofs -> @size_of R_cring values d = Some (size d) /\ @size_of R_cring dest d = Some (size d)) ->
  merge mesh h values dofs inst m v = Ok (m1, v1) ->
  exists m2 dest', extract mesh h v1 dofs inst m1 dest = Ok (m2, dest') /\
    (forall d, In d dofs -> mfind lt_dof d dest' = mfind lt_dof d values) /\
    (forall d, ~ In d dofs -> mfind lt_dof d dest' = mfind lt_dof d dest).
Proof.
  intros Hm Hs Hfit Hu Hc Hsz E.
  destruct (merge_lemma mesh h values inst size dofs m v Hm Hfit) as (m1' & v1' & E' & Hm1 & Hn1 & Hl1 & Hin & _); [intros d Hd; apply Hsz; auto|].
  rewrite E in E'. injection E' as <- <-.
  destruct (extract_lemma mesh h v1 inst size dofs m1 dest Hm1 Hs) as (m2 & dest' & E2 & _ & _ & Hsz2 & Hout & Hex); auto.
  - apply (fits_transfer mesh h v v1); auto.
  - intros d Hd. apply Hsz; auto.
  - exists m2, dest'. split; auto. split; auto. intros d Hd. destruct (Hsz d Hd) as (Ha & Hb).
    specialize (Hsz2 d). rewrite Hb in Hsz2. unfold size_of in Ha, Hsz2.
    destruct (mfind lt_dof d values) as [x|] eqn:Ex; [|discriminate]. destruct (mfind lt_dof d dest') as [y|] eqn:Ey; [|discriminate].
    simpl in Ha, Hsz2. injection Ha as Ha. injection Hsz2 as Hy. f_equal. change (@length R x = size d) in Ha. change (@length R y = size d) in Hy.
    apply (nth_ext y x 0%R 0%R); [etransitivity; [exact Hy|symmetry; exact Ha]|]. intros n Hn. change (n < @length R y) in Hn.
    destruct (Hc d n Hd) as (a & i & Hai & Hnn); [lia|].
    pose proof (Hin d a i n Hd Hai Hnn) as A. pose proof (Hex d a i n Hd Hai Hnn) as B. rewrite A in B. injection B as B.
    rewrite (val_find _ _ _ _ Ex), (val_find _ _ _ _ Ey) in B. symmetry. exact B.
Qed.

(** Merge after Extract *)
Lemma extract_merge_lemma mesh h (dest : dofvec R_cring) inst size dofs m v m1 values : memo_current mesh m -> ascending dest ->
  vector_fits mesh h v inst dofs size -> numbers_unique mesh h dofs ->
  (forall d, In d dofs -> @size_of R_cring dest d = Some (size d)) ->
  extract mesh h v dofs inst m dest = Ok (m1, values) ->
  exists m2 v2, merge mesh h values dofs inst m1 v = Ok (m2, v2) /\ forall a i j, component v2 j a i = component v j a i.
Proof.
  intros Hm Hs Hfit Hu Hsz E.
  destruct (extract_lemma mesh h v inst size dofs m dest Hm Hs Hfit Hu Hsz) as (m1' & values' & E' & Hm1 & _ & Hsz1 & Hout & Hex).
  rewrite E in E'. injection E' as <- <-.
  destruct (merge_lemma mesh h values inst size dofs m1 v Hm1 Hfit) as (m2 & v2 & E2 & _ & Hn2 & Hl2 & Hin & Hoth).
  { intros d Hd. rewrite Hsz1. apply Hsz; auto. }
  exists m2, v2. split; auto. intros a i j. destruct (Nat.eq_dec j inst) as [->|]; [|apply Hoth; auto].
  assert (Hdec : (exists d, In d dofs /\ in_mesh mesh d a) \/ ~ (exists d, In d dofs /\ in_mesh mesh d a)).
  { assert (G : forall d, in_mesh mesh d a \/ ~ in_mesh mesh d a).
    { intros d. destruct (in_dec Z.eq_dec a (flat_map (fun e => match e d with Some l => l | None => [] end) mesh)) as [H|H].
      - left. apply in_flat_map in H. destruct H as (e & He & Ha). destruct (e d) as [l|] eqn:Ee; [|destruct Ha]. exists e, l. auto.
      - right. intros (e & l & He & Ee & Ha). apply H. apply in_flat_map. exists e. rewrite Ee. auto. }
    clear -G. induction dofs as [|d ds IH]; [right; intros (d & [] & _)|]. destruct (G d) as [H|H].
    - left. exists d. simpl; auto.
    - destruct IH as [(d' & Hd' & H')|H']; [left; exists d'; simpl; auto|]. right. intros (d' & [<-|Hd'] & H''); [auto|]. apply H'. exists d'; auto. }
  destruct Hdec as [(d & Hd & Ha)|Hno]; [|apply Hoth; auto].
  destruct Hfit as (Hnd & Hf & Hdis). destruct (Hf d a Hd Ha) as ((vs & Hvs & Hlv) & Hnum & Hnb).
  destruct (Nat.lt_ge_cases i (length (h a))) as [Hi|Hi].
  - destruct (Hnb i Hi) as (n & Hn & _). rewrite (Hin d a i n), (Hex d a i n); auto.
  - specialize (Hl2 a inst). rewrite Hvs in Hl2. unfold component. rewrite Hvs. destruct (nth_error (v2 a) inst) as [ws|]; [|discriminate].
    simpl in Hl2. injection Hl2 as Hl2. rewrite (proj2 (nth_error_None ws i)), (proj2 (nth_error_None vs i)) by lia. reflexivity.
Qed.

Lemma merge_memo mesh h values inst : forall dofs m v m' v', memo_current mesh m ->
  merge mesh h values dofs inst m v = Ok (m', v') -> memo_current mesh m'.
Proof.
  induction dofs as [|d ds IH]; intros m v m' v' Hm E; cbn [merge] in E; [injection E as <- _; auto|].
  destruct (merger_nodes_spec mesh m d Hm) as (l & m1 & Hn & Hm1 & _). rewrite Hn in E. cbn [obind fst snd] in E.
  destruct (merge_components h values d inst (node_components v l) v) as [v1| |]; cbn [obind] in E; try discriminate. apply (IH m1 v1 m' v' Hm1 E).
Qed.
Lemma extract_memo mesh h v inst : forall dofs m values m' values', memo_current mesh m ->
  extract mesh h v dofs inst m values = Ok (m', values') -> memo_current mesh m'.
Proof.
  induction dofs as [|d ds IH]; intros m values m' values' Hm E; cbn [extract] in E; [injection E as <- _; auto|].
  destruct (merger_nodes_spec mesh m d Hm) as (l & m1 & Hn & Hm1 & _). rewrite Hn in E. cbn [obind fst snd] in E.
  destruct (extract_components h v d inst (node_components v l) values) as [v1| |]; cbn [obind] in E; try discriminate. apply (IH m1 v1 m' values' Hm1 E).
Qed.
Lemma merger_state_current mesh m : merger_state mesh m -> memo_current mesh m.
Proof.
  induction 1 as [|h values dofs inst m v m' v' _ IH E|h values dofs inst m v m' values' _ IH E].
  - split; [constructor|]. intros d l H. discriminate.
  - apply (merge_memo mesh h values inst dofs m v m' v' IH E).
  - apply (extract_memo mesh h v inst dofs m values m' values' IH E).
Qed.
