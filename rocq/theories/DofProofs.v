From Coq Require Import List ZArith Arith Bool Lia Sorted Ring.
From Verif Require Import Algebra DofModel DofSpec.
Import ListNotations.

(** ** std::map *)
Section StdMap.
  Context {K V : Type} (lt : K -> K -> bool).
  Hypothesis lt_irrefl : forall a, lt a a = false.
  Hypothesis lt_trans : forall a b c, lt a b = true -> lt b c = true -> lt a c = true.
  Hypothesis lt_total : forall a b, lt a b = false -> lt b a = false -> a = b.

  Definition msorted (m : list (K * V)) : Prop := StronglySorted (fun a b => lt a b = true) (map fst m).

  Lemma lt_asym a b : lt a b = true -> lt b a = true -> False.
  Proof. intros H1 H2. pose proof (lt_trans _ _ _ H1 H2). rewrite lt_irrefl in H. discriminate. Qed.

  Lemma msorted_nil : msorted []. Proof. constructor. Qed.

  Lemma msorted_inv k v m : msorted ((k, v) :: m) -> msorted m /\ forall k', In k' (map fst m) -> lt k k' = true.
  Proof.
    intros H. inversion H; subst. split; auto. intros k' Hk. rewrite Forall_forall in H3. auto.
  Qed.

  Lemma mset_keys k v (m : list (K * V)) x : In x (map fst (mset lt k v m)) <-> x = k \/ In x (map fst m).
  Proof.
    induction m as [|[k' v'] m IH]; simpl; [intuition|].
    destruct (lt k k') eqn:E1; simpl; [intuition|]. destruct (lt k' k) eqn:E2; simpl.
    - rewrite IH. intuition.
    - rewrite (lt_total _ _ E1 E2). intuition.
  Qed.

  Lemma msorted_mset k v m : msorted m -> msorted (mset lt k v m).
  Proof.
    induction m as [|[k' v'] m IH]; intros H; simpl.
    - repeat constructor.
    - destruct (msorted_inv _ _ _ H) as (Hm & Hlt).
      destruct (lt k k') eqn:E1.
      + constructor; [exact H|]. simpl. constructor; auto.
        apply Forall_forall. intros x Hx. eapply lt_trans; eauto.
      + destruct (lt k' k) eqn:E2.
        * constructor; [apply IH; auto|]. fold (map (@fst K V)).
          apply Forall_forall. intros x Hx. apply mset_keys in Hx. destruct Hx as [->|Hx]; auto.
        * constructor; auto. apply Forall_forall. auto.
  Qed.

  Lemma mfind_lt_head k (m : list (K * V)) : (forall k', In k' (map fst m) -> lt k k' = true) -> mfind lt k m = None.
  Proof. destruct m as [|[k' v'] m]; simpl; intros H; [reflexivity|]. rewrite (H k' (or_introl eq_refl)). reflexivity. Qed.

  Lemma mfind_mset_eq k v m : msorted m -> mfind lt k (mset lt k v m) = Some v.
  Proof.
    induction m as [|[k' v'] m IH]; intros H; simpl.
    - rewrite lt_irrefl. auto.
    - destruct (lt k k') eqn:E1; simpl.
      + rewrite lt_irrefl. auto.
      + destruct (lt k' k) eqn:E2; simpl.
        * rewrite E1, E2. apply IH. apply (msorted_inv _ _ _ H).
        * rewrite E1, E2. auto.
  Qed.

  Lemma mfind_mset_ne k k0 v m : msorted m -> k <> k0 -> mfind lt k (mset lt k0 v m) = mfind lt k m.
  Proof.
    induction m as [|[k' v'] m IH]; intros H Hne; simpl.
    - destruct (lt k k0) eqn:E1; auto. destruct (lt k0 k) eqn:E2; auto.
      exfalso. apply Hne. auto.
    - destruct (msorted_inv _ _ _ H) as (Hm & Hlt).
      destruct (lt k0 k') eqn:E1; simpl.
      + destruct (lt k k0) eqn:E2.
        * rewrite (lt_trans _ _ _ E2 E1). auto.
        * destruct (lt k0 k) eqn:E3; auto. exfalso. apply Hne. auto.
      + destruct (lt k' k0) eqn:E2; simpl.
        * destruct (lt k k'); auto. destruct (lt k' k); auto.
        * pose proof (lt_total _ _ E1 E2). subst k'.
          destruct (lt k k0) eqn:E3; auto. destruct (lt k0 k) eqn:E4; auto.
          exfalso. apply Hne. auto.
  Qed.

  Lemma mfind_in k v (m : list (K * V)) : mfind lt k m = Some v -> In (k, v) m.
  Proof.
    induction m as [|[k' v'] m IH]; simpl; [discriminate|].
    destruct (lt k k') eqn:E1; [discriminate|]. destruct (lt k' k) eqn:E2; auto.
    intros H. injection H as ->. rewrite (lt_total _ _ E1 E2). auto.
  Qed.

  Lemma in_mfind k v (m : list (K * V)) : msorted m -> In (k, v) m -> mfind lt k m = Some v.
  Proof.
    induction m as [|[k' v'] m IH]; simpl; [tauto|]. intros H [He|Hi].
    - injection He as -> ->. rewrite lt_irrefl. auto.
    - destruct (msorted_inv _ _ _ H) as (Hm & Hlt).
      assert (lt k' k = true) by (apply Hlt; change k with (fst (k, v)); apply in_map; auto).
      destruct (lt k k') eqn:E1; [exfalso; eapply lt_asym; eauto|]. rewrite H0. auto.
  Qed.

  Lemma mfind_key k (m : list (K * V)) : msorted m -> (In k (map fst m) <-> mfind lt k m <> None).
  Proof.
    intros H. split.
    - intros Hi. apply in_map_iff in Hi. destruct Hi as ((k' & v) & <- & Hi). simpl.
      rewrite (in_mfind _ _ _ H Hi). discriminate.
    - intros Hn. destruct (mfind lt k m) as [v|] eqn:E; [|congruence].
      apply mfind_in in E. change k with (fst (k, v)). apply in_map; auto.
  Qed.
End StdMap.

Lemma ltdof_irrefl a : lt_dof a a = false. Proof. apply Z.ltb_irrefl. Qed.
Lemma ltdof_trans a b c : lt_dof a b = true -> lt_dof b c = true -> lt_dof a c = true.
Proof. unfold lt_dof. rewrite !Z.ltb_lt. lia. Qed.
Lemma ltdof_total a b : lt_dof a b = false -> lt_dof b a = false -> a = b.
Proof. unfold lt_dof. rewrite !Z.ltb_ge. lia. Qed.

Lemma ltpair_irrefl a : lt_dofpair a a = false.
Proof. unfold lt_dofpair. rewrite Z.eqb_refl. apply Z.ltb_irrefl. Qed.
Lemma ltpair_trans a b c : lt_dofpair a b = true -> lt_dofpair b c = true -> lt_dofpair a c = true.
Proof.
  unfold lt_dofpair. destruct (Z.eqb_spec (fst a) (fst b)), (Z.eqb_spec (fst b) (fst c)), (Z.eqb_spec (fst a) (fst c));
  rewrite !Z.ltb_lt; lia.
Qed.
Lemma ltpair_total a b : lt_dofpair a b = false -> lt_dofpair b a = false -> a = b.
Proof.
  unfold lt_dofpair. destruct a as [a1 a2], b as [b1 b2]; simpl.
  destruct (Z.eqb_spec a1 b1), (Z.eqb_spec b1 a1); rewrite !Z.ltb_ge; intros; f_equal; lia.
Qed.

Definition dsorted {V} (m : list (Z * V)) : Prop := msorted lt_dof m.

Lemma dsorted_ascending {V} (m : list (Z * V)) : dsorted m <-> ascending m.
Proof.
  unfold dsorted, msorted, ascending. split; intros H.
  - induction H as [|a l Hl IH Hf]; constructor; auto. eapply Forall_impl; [|exact Hf].
    intros b Hb. apply Z.ltb_lt. auto.
  - induction H as [|a l Hl IH Hf]; constructor; auto. eapply Forall_impl; [|exact Hf].
    intros b Hb. apply Z.ltb_lt. auto.
Qed.

Lemma dfind_dset {V} k k0 (v : V) m : dsorted m ->
  mfind lt_dof k (mset lt_dof k0 v m) = if Z.eqb k k0 then Some v else mfind lt_dof k m.
Proof.
  intros H. destruct (Z.eqb_spec k k0) as [->|Hne].
  - apply mfind_mset_eq; auto using ltdof_irrefl, ltdof_total.
  - apply mfind_mset_ne; auto using ltdof_irrefl, ltdof_total. apply ltdof_trans.
Qed.

Lemma dsorted_mset {V} k (v : V) m : dsorted m -> dsorted (mset lt_dof k v m).
Proof. apply msorted_mset. apply ltdof_trans. apply ltdof_total. Qed.

(** ** C07 *)
Section C07.
  Context {V : Type} (default : V).

  Definition represents (m : dc V) (f : @fmap V) : Prop := forall k, mfind lt_dof k m = f k.

  Lemma dc_step_refines m f o : dsorted m -> represents m f ->
    dsorted (fst (dc_step default m o)) /\
    represents (fst (dc_step default m o)) (fst (abs_step default f o)) /\
    snd (dc_step default m o) = snd (abs_step default f o).
  Proof.
    intros Hs Hr. destruct o as [d|d v|d|d v|d|d v|d]; simpl; unfold dc_index; rewrite ?Hr.
    - destruct (f d) eqn:E; simpl; repeat split; auto using dsorted_mset.
      intros k. rewrite dfind_dset by auto. unfold fset. destruct (Z.eqb k d); auto.
    - destruct (f d) eqn:E; simpl; repeat split; auto using dsorted_mset.
      + intros k. rewrite dfind_dset by auto. unfold fset. destruct (Z.eqb k d); auto.
      + intros k. rewrite dfind_dset by auto using dsorted_mset. rewrite dfind_dset by auto.
        unfold fset. destruct (Z.eqb k d); auto.
    - destruct (f d); auto.
    - destruct (f d) eqn:E; simpl; repeat split; auto using dsorted_mset.
      intros k. rewrite dfind_dset by auto. unfold fset. destruct (Z.eqb k d); auto.
    - destruct (f d); auto.
    - destruct (f d) eqn:E; simpl; repeat split; auto using dsorted_mset.
      intros k. rewrite dfind_dset by auto. unfold fset. destruct (Z.eqb k d); auto.
    - destruct (f d); auto.
  Qed.

  Lemma dc_run_refines ops : forall m f, dsorted m -> represents m f ->
    dsorted (fst (dc_run default m ops)) /\
    represents (fst (dc_run default m ops)) (fst (abs_run default f ops)) /\
    snd (dc_run default m ops) = snd (abs_run default f ops).
  Proof.
    induction ops as [|o ops IH]; intros m f Hs Hr; simpl; auto.
    destruct (dc_step_refines m f o Hs Hr) as (Hs1 & Hr1 & Ho1).
    destruct (dc_step default m o) as [m1 r1]. destruct (abs_step default f o) as [f1 r1'].
    simpl in *. subst r1'. destruct (IH m1 f1 Hs1 Hr1) as (Hs2 & Hr2 & Ho2).
    destruct (dc_run default m1 ops) as [m2 rs]. destruct (abs_run default f1 ops) as [f2 rs'].
    simpl in *. subst. auto.
  Qed.

  Lemma dof_container_lemma ops :
    let m := fst (dc_run default [] ops) in
    let f := fst (abs_run default (fun _ => None) ops) in
    snd (dc_run default [] ops) = snd (abs_run default (fun _ => None) ops) /\
    (forall k, mfind lt_dof k m = f k) /\
    StronglySorted Z.lt (map fst m) /\ (forall k v, In (k, v) m <-> f k = Some v).
  Proof.
    destruct (dc_run_refines ops [] (fun _ => None)) as (Hs & Hr & Ho).
    - constructor.
    - intros k; reflexivity.
    - cbn zeta. split; auto. split; auto. split; [apply dsorted_ascending; auto|].
      intros k v. rewrite <- Hr. split.
      + apply in_mfind; auto using ltdof_irrefl. apply ltdof_trans.
      + apply mfind_in. apply ltdof_total.
  Qed.
End C07.

Lemma dof_info_merge_lemma i d other : dsorted (numIndependent i) -> dsorted (numDependent i) ->
  let get m k := match mfind lt_dof k m with Some n => n | None => 0%Z end in
  let i' := dof_info_merge i d other in
  get (numIndependent i') d = get (numIndependent other) d /\
  get (numDependent i') d = get (numDependent other) d /\
  (forall k, k <> d -> mfind lt_dof k (numIndependent i') = mfind lt_dof k (numIndependent i) /\
                       mfind lt_dof k (numDependent i') = mfind lt_dof k (numDependent i)).
Proof.
  intros H1 H2. cbn zeta. unfold dof_info_merge; cbn [numIndependent numDependent].
  rewrite !dfind_dset by auto. rewrite Z.eqb_refl. unfold dc_index. repeat split.
  - destruct (mfind _ _ (numIndependent other)); auto.
  - destruct (mfind _ _ (numDependent other)); auto.
  - rewrite dfind_dset by auto. destruct (Z.eqb_spec k d); congruence.
  - rewrite dfind_dset by auto. destruct (Z.eqb_spec k d); congruence.
Qed.

(** ** C08 *)

(** general statement about merge_blocks for sorted maps *)
Section Merge.
  Context {B : Type}.
  Variable combine : B -> B -> option B.
  Variable init : B -> B.
  Variable good : B -> B -> Prop.        (* combine succeeds *)
  Variable comb : B -> B -> B.
  Hypothesis combine_good : forall a b, good a b -> combine a b = Some (comb a b).

  Definition merged (a b : option B) : option B :=
    match a, b with
    | Some x, Some y => Some (comb x y)
    | None, Some y => Some (init y)
    | a, None => a
    end.

  Lemma merge_blocks_spec rhs : forall m, dsorted m -> dsorted rhs ->
    (forall d x y, mfind lt_dof d m = Some x -> mfind lt_dof d rhs = Some y -> good x y) ->
    exists m', merge_blocks lt_dof combine init m rhs = Some m' /\ dsorted m' /\
      forall d, mfind lt_dof d m' = merged (mfind lt_dof d m) (mfind lt_dof d rhs).
  Proof.
    induction rhs as [|[k b] rhs IH]; intros m Hm Hr Hg; cbn [merge_blocks].
    - exists m. split; auto. split; auto. intros d. simpl. destruct (mfind lt_dof d m); auto.
    - destruct (msorted_inv _ _ _ _ Hr) as (Hr' & Hlt).
      assert (Hk : mfind lt_dof k rhs = None) by (apply mfind_lt_head; exact Hlt).
      assert (Hkb : mfind lt_dof k ((k, b) :: rhs) = Some b) by (simpl; rewrite ltdof_irrefl; auto).
      assert (Hother : forall d, d <> k -> mfind lt_dof d ((k, b) :: rhs) = mfind lt_dof d rhs).
      { intros d Hd. simpl. destruct (lt_dof d k) eqn:E1.
        - symmetry. apply mfind_lt_head. intros k' Hk'. eapply ltdof_trans; eauto.
        - destruct (lt_dof k d) eqn:E2; auto. exfalso. apply Hd. apply ltdof_total; auto. }
      assert (Hstep : exists m1, merge_entry lt_dof combine init m (k, b) = Some m1 /\ dsorted m1 /\
                forall d, mfind lt_dof d m1 = if Z.eqb d k then merged (mfind lt_dof k m) (Some b) else mfind lt_dof d m).
      { unfold merge_entry. cbn [fst snd]. destruct (mfind lt_dof k m) as [x|] eqn:E.
        - rewrite (combine_good x b) by (eapply Hg; eauto). eexists. split; [reflexivity|].
          split; [apply dsorted_mset; auto|]. intros d. rewrite dfind_dset by auto. reflexivity.
        - eexists. split; [reflexivity|]. split; [apply dsorted_mset; auto|].
          intros d. rewrite dfind_dset by auto. reflexivity. }
      destruct Hstep as (m1 & -> & Hm1 & Hf1).
      destruct (IH m1 Hm1 Hr') as (m' & -> & Hm' & Hf').
      { intros d x y Hx Hy. rewrite Hf1 in Hx. destruct (Z.eqb_spec d k) as [->|Hne]; [congruence|].
        apply (Hg d); auto. rewrite Hother; auto. }
      exists m'. split; auto. split; auto. intros d. rewrite Hf', Hf1.
      destruct (Z.eqb_spec d k) as [->|Hne].
      + rewrite Hk, Hkb. destruct (mfind lt_dof k m); auto.
      + rewrite Hother by auto. auto.
  Qed.
End Merge.

Section C08.
  Context {F : CRing}.
  Add Ring Fr : (r_theory F).
  Local Open Scope cring_scope.

  Lemma vadd_some (a b : vec F) : length a = length b -> exists c, vadd a b = Some c /\ length c = length a /\
    forall i, nth i c 0 = nth i a 0 + nth i b 0.
  Proof.
    revert b; induction a as [|x a IH]; intros [|y b] H; simpl in *; try discriminate.
    - exists []. repeat split. intros [|i]; simpl; ring.
    - destruct (IH b) as (c & -> & Hl & Hn); [lia|]. eexists; split; [reflexivity|]. simpl.
      split; [lia|]. intros [|i]; auto.
  Qed.

  Definition vplus (a b : vec F) : vec F := match vadd a b with Some c => c | None => [] end.

  Lemma vadd_plus (a b : vec F) : length a = length b -> vadd a b = Some (vplus a b).
  Proof. intros H. unfold vplus. destruct (vadd_some a b H) as (c & -> & _). auto. Qed.
  Lemma vplus_length a b : length a = length b -> length (vplus a b) = length a.
  Proof. intros H. unfold vplus. destruct (vadd_some a b H) as (c & -> & Hl & _). auto. Qed.
  Lemma vplus_nth a b i : length a = length b -> nth i (vplus a b) 0 = nth i a 0 + nth i b 0.
  Proof. intros H. unfold vplus. destruct (vadd_some a b H) as (c & -> & _ & Hn). auto. Qed.

  Lemma vneg_length (a : vec F) : length (vneg a) = length a. Proof. apply map_length. Qed.
  Lemma vscale_length s (a : vec F) : length (vscale s a) = length a. Proof. apply map_length. Qed.
  Lemma vneg_nth (a : vec F) i : nth i (vneg a) 0 = - nth i a 0.
  Proof. revert i; induction a as [|x a IH]; intros [|i]; simpl; auto; ring. Qed.
  Lemma vscale_nth s (a : vec F) i : nth i (vscale s a) 0 = nth i a 0 * s.
  Proof. revert i; induction a as [|x a IH]; intros [|i]; simpl; auto; ring. Qed.
  Lemma vzero_nth (a : vec F) i : nth i (vzero a) 0 = 0.
  Proof. revert i; induction a as [|x a IH]; intros [|i]; simpl; auto. Qed.

  Definition osize (a b : option nat) : option nat := match a with Some _ => a | None => b end.

  Lemma dv_merge (combine : vec F -> vec F -> option (vec F)) (init : vec F -> vec F) (comb : vec F -> vec F -> vec F)
      (g : F -> F -> F) (a b : dofvec F) :
    (forall x y, length x = length y -> combine x y = Some (comb x y) /\ length (comb x y) = length x /\
        forall i, nth i (comb x y) 0 = g (nth i x 0) (nth i y 0)) ->
    (forall y, length (init y) = length y /\ forall i, nth i (init y) 0 = g 0 (nth i y 0)) ->
    (forall x, g x 0 = x) ->
    ascending a -> ascending b -> compatible a b ->
    exists c, merge_blocks lt_dof combine init a b = Some c /\ ascending c /\
      (forall d, size_of c d = osize (size_of a d) (size_of b d)) /\
      (forall d i, val c d i = g (val a d i) (val b d i)).
  Proof.
    intros Hc Hi Hg0 Ha Hb Hab.
    destruct (merge_blocks_spec combine init (fun x y => length x = length y) comb
       (fun x y H => proj1 (Hc x y H)) b a) as (c & H1 & H2 & H3).
    - apply dsorted_ascending; auto.
    - apply dsorted_ascending; auto.
    - exact Hab.
    - exists c. split; auto. split; [apply dsorted_ascending; auto|]. split.
      + intros d. unfold size_of. rewrite H3. specialize (Hab d).
        destruct (mfind lt_dof d a) as [x|], (mfind lt_dof d b) as [y|]; simpl; auto.
        * specialize (Hab x y eq_refl eq_refl). destruct (Hc x y Hab) as (_ & -> & _). auto.
        * destruct (Hi y) as (-> & _). auto.
      + intros d i. unfold val. rewrite H3. specialize (Hab d).
        destruct (mfind lt_dof d a) as [x|], (mfind lt_dof d b) as [y|]; simpl; auto.
        * specialize (Hab x y eq_refl eq_refl). destruct (Hc x y Hab) as (_ & _ & Hn). auto.
        * destruct (Hi y) as (_ & Hn). auto.
  Qed.

  Lemma dv_add_lemma (a b : dofvec F) : ascending a -> ascending b -> compatible a b ->
    exists c, dv_add a b = Some c /\ ascending c /\
      (forall d, size_of c d = osize (size_of a d) (size_of b d)) /\
      (forall d i, val c d i = val a d i + val b d i).
  Proof.
    apply (dv_merge _ _ vplus radd).
    - intros x y H. split; [apply vadd_plus; auto|]. split; [apply vplus_length; auto|].
      intros i. apply vplus_nth; auto.
    - intros y. split; auto. intros i. ring.
    - intros x. ring.
  Qed.

  Lemma dv_sub_lemma (a b : dofvec F) : ascending a -> ascending b -> compatible a b ->
    exists c, dv_sub a b = Some c /\ ascending c /\
      (forall d, size_of c d = osize (size_of a d) (size_of b d)) /\
      (forall d i, val c d i = val a d i - val b d i).
  Proof.
    apply (dv_merge _ _ (fun x y => vplus x (vneg y)) rsub).
    - intros x y H. unfold vsub. assert (H' : length x = length (vneg y)) by (rewrite vneg_length; auto).
      split; [apply vadd_plus; auto|]. split; [apply vplus_length; auto|].
      intros i. rewrite vplus_nth, vneg_nth by auto. ring.
    - intros y. split; [apply vneg_length|]. intros i. rewrite vneg_nth. ring.
    - intros x. ring.
  Qed.

  Lemma dv_add_scaled_lemma (s : F) (a b : dofvec F) : ascending a -> ascending b -> compatible a b ->
    exists c, dv_add_scaled a b s = Some c /\ ascending c /\
      (forall d, size_of c d = osize (size_of a d) (size_of b d)) /\
      (forall d i, val c d i = val a d i + val b d i * s).
  Proof.
    apply (dv_merge _ _ (fun x y => vplus x (vscale s y)) (fun u v => u + v * s)).
    - intros x y H. assert (H' : length x = length (vscale s y)) by (rewrite vscale_length; auto).
      split; [apply vadd_plus; auto|]. split; [apply vplus_length; auto|].
      intros i. rewrite vplus_nth, vscale_nth by auto. ring.
    - intros y. split; [apply vscale_length|]. intros i. rewrite vscale_nth. ring.
    - intros x. ring.
  Qed.

  Lemma mfind_map (f : vec F -> vec F) (m : dofvec F) d :
    mfind lt_dof d (map (fun e => (fst e, f (snd e))) m) = option_map f (mfind lt_dof d m).
  Proof.
    induction m as [|[k b] m IH]; simpl; auto. destruct (lt_dof d k); auto. destruct (lt_dof k d); auto.
  Qed.

  Lemma ascending_map (f : vec F -> vec F) (m : dofvec F) :
    ascending m -> ascending (map (fun e => (fst e, f (snd e))) m).
  Proof. unfold ascending. rewrite map_map. auto. Qed.

  Lemma dv_scale_lemma (s : F) (a : dofvec F) : ascending a ->
    ascending (dv_scale a s) /\ (forall d, size_of (dv_scale a s) d = size_of a d) /\
    (forall d i, val (dv_scale a s) d i = val a d i * s).
  Proof.
    intros H. split; [apply ascending_map; auto|]. unfold dv_scale, bv_scale. split.
    - intros d. unfold size_of. rewrite mfind_map. destruct (mfind _ _ _); simpl; auto.
      rewrite vscale_length. auto.
    - intros d i. unfold val. rewrite mfind_map. destruct (mfind _ _ _); simpl.
      + apply vscale_nth.
      + ring.
  Qed.

  Lemma dv_set_zero_lemma (a : dofvec F) : ascending a ->
    ascending (dv_set_zero a) /\ (forall d, size_of (dv_set_zero a) d = size_of a d) /\
    (forall d i, val (dv_set_zero a) d i = 0).
  Proof.
    intros H. split; [apply ascending_map; auto|]. unfold dv_set_zero, bv_set_zero. split.
    - intros d. unfold size_of. rewrite mfind_map. destruct (mfind _ _ _); simpl; auto.
      unfold vzero. rewrite map_length. auto.
    - intros d i. unfold val. rewrite mfind_map. destruct (mfind _ _ _); simpl; auto. apply vzero_nth.
  Qed.

  Lemma dv_types_lemma (a : dofvec F) : ascending a ->
    StronglySorted Z.lt (bv_keys a) /\ (forall d, In d (bv_keys a) <-> size_of a d <> None).
  Proof.
    intros H. split; auto. intros d. unfold bv_keys, size_of.
    rewrite (mfind_key lt_dof ltdof_irrefl ltdof_trans ltdof_total) by (apply dsorted_ascending; auto).
    destruct (mfind lt_dof d a); simpl; intuition discriminate.
  Qed.

  (** size mismatch is undefined behaviour in the code *)
  Lemma vadd_mismatch (a b : vec F) : length a <> length b -> vadd a b = None.
  Proof.
    revert b; induction a as [|x a IH]; intros [|y b] H; simpl in *; try congruence; auto.
    rewrite IH; auto.
  Qed.
End C08.

(** ** C09, vectors *)
Section C09v.
  Context {F : CRing}.
  Implicit Types (v dest : dofvec F).

  Lemma total_rows_ext v v' dofs : (forall d, In d dofs -> size_of v d = size_of v' d) ->
    total_rows v dofs = total_rows v' dofs.
  Proof.
    induction dofs as [|d ds IH]; intros H; simpl; auto.
    rewrite IH by (intros; apply H; simpl; auto). specialize (H d (or_introl eq_refl)). unfold size_of in H.
    destruct (mfind lt_dof d v), (mfind lt_dof d v'); simpl in H; try discriminate; auto.
    injection H as ->. auto.
  Qed.

  Lemma to_eigen_ext v v' dofs : (forall d, In d dofs -> mfind lt_dof d v = mfind lt_dof d v') ->
    to_eigen v dofs = to_eigen v' dofs.
  Proof.
    induction dofs as [|d ds IH]; intros H; simpl; auto.
    rewrite IH by (intros; apply H; simpl; auto). rewrite (H d) by (simpl; auto). auto.
  Qed.

  Lemma to_eigen_length v dofs x : to_eigen v dofs = Some x -> total_rows v dofs = Some (length x).
  Proof.
    revert x; induction dofs as [|d ds IH]; intros x; simpl.
    - intros H; injection H as <-; auto.
    - destruct (mfind lt_dof d v) as [b|]; [|discriminate]. destruct (to_eigen v ds) as [r|]; [|discriminate].
      intros H; injection H as <-. rewrite (IH r eq_refl), app_length. auto.
  Qed.

  Lemma firstn_plus_skip {A} n m (l : list A) : firstn n l ++ firstn m (skipn n l) = firstn (n + m) l.
  Proof. revert l; induction n as [|n IH]; intros [|a l]; simpl; auto; [destruct m; auto | f_equal; auto]. Qed.

  Lemma skipn_plus {A} n m (l : list A) : skipn n (skipn m l) = skipn (m + n) l.
  Proof. revert l; induction m as [|m IH]; intros [|a l]; simpl; auto. destruct n; auto. Qed.

  Lemma from_eigen_at_spec dofs : forall (source : vec F) start dest n,
    NoDup dofs -> dsorted dest -> total_rows dest dofs = Some n -> start + n <= length source ->
    exists dest', from_eigen_at source start dofs dest = Some dest' /\ dsorted dest' /\
      (forall d, ~ In d dofs -> mfind lt_dof d dest' = mfind lt_dof d dest) /\
      (forall d, size_of dest' d = size_of dest d) /\
      to_eigen dest' dofs = Some (firstn n (skipn start source)).
  Proof.
    induction dofs as [|d ds IH]; intros source start dest n Hnd Hs Ht Hle; cbn [from_eigen_at].
    - exists dest. simpl in Ht. injection Ht as <-. repeat split; auto.
    - inversion Hnd as [|? ? Hnotin Hnd']; subst.
      cbn [total_rows] in Ht. destruct (mfind lt_dof d dest) as [b|] eqn:E; [|discriminate].
      destruct (total_rows dest ds) as [m|] eqn:Em; [|discriminate]. injection Ht as <-.
      unfold dc_index. rewrite E. cbn [fst snd].
      destruct (Nat.leb_spec (start + length b) (length source)) as [_|]; [|lia].
      set (seg := firstn (length b) (skipn start source)).
      assert (Hseg : length seg = length b).
      { unfold seg. rewrite firstn_length, skipn_length. lia. }
      set (dest1 := mset lt_dof d seg dest).
      assert (Hsz : forall k, size_of dest1 k = size_of dest k).
      { intros k. unfold size_of, dest1. rewrite dfind_dset by auto. destruct (Z.eqb_spec k d) as [->|]; auto.
        rewrite E. simpl. rewrite Hseg. auto. }
      destruct (IH source (start + length b) dest1 m) as (dest' & -> & Hs' & Hoth & Hsz' & Hto); auto.
      + apply dsorted_mset; auto.
      + rewrite (total_rows_ext dest1 dest) by auto. auto.
      + lia.
      + exists dest'. split; auto. split; auto. split; [|split].
        * intros k Hk. rewrite Hoth by (intros Hi; apply Hk; simpl; auto). unfold dest1.
          rewrite dfind_dset by auto. destruct (Z.eqb_spec k d) as [->|]; auto.
          exfalso; apply Hk; simpl; auto.
        * intros k. rewrite Hsz'. apply Hsz.
        * simpl. rewrite Hoth by auto. unfold dest1. rewrite dfind_dset, Z.eqb_refl by auto.
          rewrite Hto. f_equal. unfold seg. rewrite <- (skipn_plus (length b) start), firstn_plus_skip. auto.
  Qed.

  Lemma to_eigen_split v v' dofs x :
    (forall d, In d dofs -> size_of v d = size_of v' d) ->
    to_eigen v dofs = Some x -> to_eigen v' dofs = Some x ->
    forall d, In d dofs -> mfind lt_dof d v = mfind lt_dof d v'.
  Proof.
    revert x; induction dofs as [|d ds IH]; intros x Hsz Hv Hv' k Hk; [destruct Hk|].
    simpl in Hv, Hv'. pose proof (Hsz d (or_introl eq_refl)) as Hd. unfold size_of in Hd.
    destruct (mfind lt_dof d v) as [b|] eqn:E; [|discriminate].
    destruct (to_eigen v ds) as [r|] eqn:Er; [|discriminate].
    destruct (mfind lt_dof d v') as [b'|] eqn:E'; [|discriminate].
    destruct (to_eigen v' ds) as [r'|] eqn:Er'; [|discriminate].
    injection Hd as Hd. injection Hv as Hv. injection Hv' as Hv'. subst x.
    assert (b = b' /\ r = r').
    { clear -Hd Hv'. revert b' Hd Hv'. induction b as [|y b IHb]; intros [|y' b'] Hd Hv'; simpl in *; try discriminate; auto.
      injection Hv' as Hy Ht. injection Hd as Hd. destruct (IHb b' Hd Ht); subst; auto. }
    destruct H as (<- & <-). destruct Hk as [<-|Hk].
    - rewrite E, E'. auto.
    - apply (IH r); auto. intros; apply Hsz; simpl; auto.
  Qed.

  (** FromEigen followed by ToEigen is the identity on vectors of the right size *)
  Lemma from_to_eigen_lemma (x : vec F) dofs dest : ascending dest -> NoDup dofs ->
    total_rows dest dofs = Some (length x) ->
    exists dest', from_eigen x dofs dest = Some dest' /\ ascending dest' /\
      to_eigen dest' dofs = Some x /\
      (forall d, size_of dest' d = size_of dest d) /\
      (forall d, ~ In d dofs -> mfind lt_dof d dest' = mfind lt_dof d dest).
  Proof.
    intros Ha Hn Ht.
    destruct (from_eigen_at_spec dofs x 0 dest (length x)) as (dest' & H1 & H2 & H3 & H4 & H5); auto.
    - apply dsorted_ascending; auto.
    - exists dest'. split; auto. split; [apply dsorted_ascending; auto|]. split; auto.
      rewrite H5. simpl. rewrite firstn_all. auto.
  Qed.

  (** ToEigen followed by FromEigen into a vector of the same shape restores every block *)
  Lemma to_from_eigen_lemma v (x : vec F) dofs dest : ascending v -> ascending dest -> NoDup dofs ->
    (forall d, In d dofs -> size_of dest d = size_of v d) -> to_eigen v dofs = Some x ->
    exists dest', from_eigen x dofs dest = Some dest' /\
      (forall d, In d dofs -> mfind lt_dof d dest' = mfind lt_dof d v) /\
      (forall d, ~ In d dofs -> mfind lt_dof d dest' = mfind lt_dof d dest).
  Proof.
    intros Hv Hd Hn Hsz Hx.
    destruct (from_to_eigen_lemma x dofs dest Hd Hn) as (dest' & H1 & H2 & H3 & H4 & H5).
    { rewrite (total_rows_ext dest v) by auto. apply to_eigen_length; auto. }
    exists dest'. split; auto. split; auto. intros d Hi.
    apply (to_eigen_split dest' v dofs x); auto. intros k Hk. rewrite H4. auto.
  Qed.

  (** ToEigen is defined exactly when every requested dof type is stored *)
  Lemma to_eigen_defined v dofs : to_eigen v dofs <> None <-> (forall d, In d dofs -> size_of v d <> None).
  Proof.
    induction dofs as [|d ds IH]; simpl.
    - split; [intros _ d []|discriminate].
    - unfold size_of in *. split.
      + intros H k [<-|Hk].
        * destruct (mfind lt_dof d v); simpl; congruence.
        * apply IH; auto. destruct (mfind lt_dof d v); [|congruence]. destruct (to_eigen v ds); congruence.
      + intros H. pose proof (H d (or_introl eq_refl)). destruct (mfind lt_dof d v); [|simpl in *; congruence].
        destruct (to_eigen v ds); [congruence|]. exfalso. apply IH; auto.
  Qed.
End C09v.

(** ** C09, sparse block matrices *)
Section C09m.
  Context {F : CRing}.
  Add Ring Fr2 : (r_theory F).
  Local Open Scope cring_scope.

  Definition sel (i j : nat) (t : nat * nat * F) : F :=
    let '(r, c, x) := t in if andb (Nat.eqb r i) (Nat.eqb c j) then x else 0.

  Definition tsum (l : list (nat * nat * F)) i j : F := sum_over l (sel i j).

  Lemma entry_tsum (m : smat F) i j : entry m i j = tsum (trip m) i j. Proof. reflexivity. Qed.

  Lemma sel_shift dr dc t i j : sel (i + dr) (j + dc) (shift dr dc t) = sel i j t.
  Proof.
    destruct t as [[r c] x]. simpl.
    replace (Nat.eqb (r + dr) (i + dr)) with (Nat.eqb r i)
      by (destruct (Nat.eqb_spec r i), (Nat.eqb_spec (r + dr) (i + dr)); auto; lia).
    replace (Nat.eqb (c + dc) (j + dc)) with (Nat.eqb c j)
      by (destruct (Nat.eqb_spec c j), (Nat.eqb_spec (c + dc) (j + dc)); auto; lia). auto.
  Qed.

  Lemma tsum_shift_in dr dc l i j : tsum (map (shift dr dc) l) (i + dr) (j + dc) = tsum l i j.
  Proof. unfold tsum. rewrite sum_over_map. apply sum_over_ext. intros; apply sel_shift. Qed.

  (** outside the rectangle of the shifted block nothing is contributed *)
  Lemma tsum_shift_out dr dc (m : smat F) i j : in_range m ->
    ((i < dr \/ dr + srows m <= i) \/ (j < dc \/ dc + scols m <= j))%nat ->
    tsum (map (shift dr dc) (trip m)) i j = 0.
  Proof.
    intros Hr Ho. unfold tsum. rewrite sum_over_map. apply sum_over_zero. intros [[r c] x] Ht.
    unfold in_range in Hr. rewrite Forall_forall in Hr. specialize (Hr _ Ht). simpl in Hr. simpl.
    destruct (Nat.eqb_spec (r + dr) i), (Nat.eqb_spec (c + dc) j); simpl; auto. lia.
  Qed.

  Lemma tsum_app l m i j : tsum (l ++ m) i j = tsum l i j + tsum m i j.
  Proof. apply sum_over_app. Qed.

  Definition sumdim (dim : Z -> nat) (l : list Z) : nat := fold_right Nat.add 0%nat (map dim l).

  Lemma offset_S dim d ds n : offset dim (d :: ds) (S n) = (dim d + offset dim ds n)%nat.
  Proof. reflexivity. Qed.

  Section Fit.
    Variables (K : dofmat F) (rdim cdim : Z -> nat) (dofs : list Z).
    Hypothesis fit : shapes_fit K dofs rdim cdim.

    Definition blk (a b : Z) (i j : nat) : F :=
      match mat_at K a b with Some m => entry m i j | None => 0 end.

    Lemma row_trip_spec a cols : forall sr sc, In a dofs -> incl cols dofs ->
      exists r, row_triplets K a sr sc cols = Some r /\
        (forall i j, (i < sr \/ sr + rdim a <= i \/ j < sc)%nat -> tsum r i j = 0) /\
        (forall n b i j, nth_error cols n = Some b -> (i < rdim a)%nat -> (j < cdim b)%nat ->
             tsum r (i + sr) (j + (sc + offset cdim cols n)) = blk a b i j) /\
        Forall (fun t => let '(x, y, _) := t in (x < sr + rdim a /\ y < sc + sumdim cdim cols)%nat) r.
    Proof.
      induction cols as [|b cols IH]; intros sr sc Ha Hc; cbn [row_triplets].
      - exists []. split; auto. split; [reflexivity|]. split; [intros [|n]; discriminate|constructor].
      - destruct (fit a b Ha) as (m & Hm & Hmr & Hmc & Hin); [apply Hc; simpl; auto|].
        rewrite Hm. destruct (IH sr (sc + scols m)%nat Ha) as (r & -> & Hout & Hblk & Hrng).
        { intros x Hx; apply Hc; simpl; auto. }
        eexists. split; [reflexivity|]. split; [|split].
        + intros i j Hij. rewrite tsum_app, Hout, tsum_shift_out; auto; try ring; lia.
        + intros n c i j Hn Hi Hj. rewrite tsum_app. destruct n as [|n].
          * simpl in Hn. injection Hn as <-. rewrite (Hout _ _) by (unfold offset; simpl; lia).
            replace (sc + offset cdim (b :: cols) 0)%nat with sc by (unfold offset; simpl; lia). rewrite tsum_shift_in. unfold blk. rewrite Hm, entry_tsum. ring.
          * simpl in Hn. rewrite offset_S. rewrite tsum_shift_out; auto; [|lia].
            replace (sc + (cdim b + offset cdim cols n))%nat with (sc + scols m + offset cdim cols n)%nat by lia.
            rewrite (Hblk n c) by auto. ring.
        + apply Forall_app. split.
          * apply Forall_forall. intros t Ht. apply in_map_iff in Ht. destruct Ht as ([[x y] z] & <- & Ht).
            unfold in_range in Hin. rewrite Forall_forall in Hin. specialize (Hin _ Ht). simpl in *.
            unfold sumdim; simpl. lia.
          * eapply Forall_impl; [|exact Hrng]. intros [[x y] z]. unfold sumdim; simpl. lia.
    Qed.

    Lemma all_trip_spec rows : forall sr, incl rows dofs ->
      exists r, all_triplets K sr rows dofs = Some r /\
        (forall i j, (i < sr)%nat -> tsum r i j = 0) /\
        (forall k a n b i j, nth_error rows k = Some a -> nth_error dofs n = Some b ->
             (i < rdim a)%nat -> (j < cdim b)%nat ->
             tsum r (i + (sr + offset rdim rows k)) (j + offset cdim dofs n) = blk a b i j) /\
        Forall (fun t => let '(x, y, _) := t in (x < sr + sumdim rdim rows /\ y < sumdim cdim dofs)%nat) r.
    Proof.
      induction rows as [|a rows IH]; intros sr Hrows; cbn [all_triplets].
      - exists []. split; auto. split; [reflexivity|]. split; [intros [|k]; discriminate|constructor].
      - assert (Ha : In a dofs) by (apply Hrows; simpl; auto).
        destruct (row_trip_spec a dofs sr 0 Ha (fun x H => H)) as (r & -> & Hout & Hblk & Hrng).
        destruct (fit a a Ha Ha) as (m & Hm & Hmr & Hmc & Hin). rewrite Hm.
        destruct (IH (sr + srows m)%nat) as (rs & -> & Hout' & Hblk' & Hrng').
        { intros x Hx; apply Hrows; simpl; auto. }
        eexists. split; [reflexivity|]. split; [|split].
        + intros i j Hij. rewrite tsum_app, Hout, Hout'; try ring; lia.
        + intros k c n b i j Hk Hn Hi Hj. rewrite tsum_app. destruct k as [|k].
          * simpl in Hk. injection Hk as <-. rewrite (Hout' _ _) by (unfold offset; simpl; lia).
            replace (sr + offset rdim (a :: rows) 0)%nat with sr by (unfold offset; simpl; lia).
            specialize (Hblk n b i j Hn Hi Hj). simpl in Hblk. rewrite Hblk. ring.
          * simpl in Hk. rewrite offset_S. rewrite Hout by lia.
            replace (sr + (rdim a + offset rdim rows k))%nat with (sr + srows m + offset rdim rows k)%nat by lia.
            rewrite (Hblk' k c n b) by auto. ring.
        + apply Forall_app. split.
          * eapply Forall_impl; [|exact Hrng]. intros [[x y] z]. unfold sumdim; simpl. lia.
          * eapply Forall_impl; [|exact Hrng']. intros [[x y] z]. unfold sumdim; simpl. lia.
    Qed.

    Lemma total_dim_rows l : incl l dofs -> total_dim srows K l = Some (sumdim rdim l).
    Proof.
      induction l as [|d l IH]; intros Hl; simpl; auto.
      destruct (fit d d) as (m & -> & Hr & _); [apply Hl; simpl; auto..|].
      rewrite IH by (intros x Hx; apply Hl; simpl; auto). rewrite Hr. auto.
    Qed.
    Lemma total_dim_cols l : incl l dofs -> total_dim scols K l = Some (sumdim cdim l).
    Proof.
      induction l as [|d l IH]; intros Hl; simpl; auto.
      destruct (fit d d) as (m & -> & _ & Hr & _); [apply Hl; simpl; auto..|].
      rewrite IH by (intros x Hx; apply Hl; simpl; auto). rewrite Hr. auto.
    Qed.

    Lemma mat_to_eigen_lemma :
      exists M, mat_to_eigen K dofs = Some M /\ in_range M /\
        srows M = offset rdim dofs (length dofs) /\ scols M = offset cdim dofs (length dofs) /\
        forall k a n b i j m, nth_error dofs k = Some a -> nth_error dofs n = Some b ->
          mat_at K a b = Some m -> (i < srows m)%nat -> (j < scols m)%nat ->
          entry M (offset rdim dofs k + i) (offset cdim dofs n + j) = entry m i j.
    Proof.
      assert (Hoff : forall dim, offset dim dofs (length dofs) = sumdim dim dofs)
        by (intros; unfold offset, sumdim; rewrite firstn_all; auto).
      rewrite !Hoff.
      destruct (Nat.eq_dec (length dofs) 1) as [H1|H1].
      - destruct dofs as [|d [|? ?]] eqn:Ed; try discriminate. cbn [mat_to_eigen].
        destruct (fit d d) as (m & Hm & Hr & Hc & Hin); [simpl; auto..|]. exists m.
        split; auto. split; auto. split; [unfold sumdim; simpl; lia|]. split; [unfold sumdim; simpl; lia|].
        intros [|k] a [|n] b i j m' Ha Hb Hm' Hi Hj; simpl in *;
          try (destruct k; discriminate); try (destruct n; discriminate).
        injection Ha as <-. injection Hb as <-. rewrite Hm in Hm'. injection Hm' as <-. auto.
      - destruct (all_trip_spec dofs 0 (fun x H => H)) as (t & Ht & _ & Hblk & Hrng).
        exists (mkMat (sumdim rdim dofs) (sumdim cdim dofs) t). split; [|split; [|split; [|split]]]; auto.
        + unfold mat_to_eigen. rewrite Ht, (total_dim_rows dofs), (total_dim_cols dofs) by (intros x Hx; exact Hx).
          destruct dofs as [|d [|? ?]]; auto. exfalso; apply H1; auto.
        + intros k a n b i j m Ha Hb Hm Hi Hj. rewrite entry_tsum. cbn [trip].
          destruct (fit a b) as (m' & Hm' & Hr & Hc & _); [eapply nth_error_In; eauto..|].
          rewrite Hm in Hm'. injection Hm' as <-.
          specialize (Hblk k a n b i j Ha Hb). simpl in Hblk.
          rewrite (Nat.add_comm _ i), (Nat.add_comm _ j), Hblk by lia.
          unfold blk. rewrite Hm. auto.
    Qed.
  End Fit.

  (** every index belongs to exactly one block: surjectivity of the placement *)
  Lemma offset_cover dim dofs : forall i, (i < offset dim dofs (length dofs))%nat ->
    exists k a r, nth_error dofs k = Some a /\ (r < dim a)%nat /\ i = (offset dim dofs k + r)%nat.
  Proof.
    induction dofs as [|d ds IH]; intros i Hi.
    - unfold offset in Hi; simpl in Hi; lia.
    - change (length (d :: ds)) with (S (length ds)) in Hi. rewrite offset_S in Hi.
      destruct (Nat.ltb_spec i (dim d)).
      + exists 0%nat, d, i. repeat split; auto.
      + destruct (IH (i - dim d)%nat) as (k & a & r & Hk & Hr & He); [lia|].
        exists (S k), a, r. rewrite offset_S. repeat split; auto. lia.
  Qed.

  (** sums over all columns split into sums over blocks *)
  Lemma sum_blocks (dim : Z -> nat) dofs (f : nat -> F) :
    sum_n (offset dim dofs (length dofs)) f =
    sum_n (length dofs) (fun n => match nth_error dofs n with
       | Some b => sum_n (dim b) (fun j => f (offset dim dofs n + j)%nat) | None => 0 end).
  Proof.
    revert f; induction dofs as [|d ds IH]; intros f; [reflexivity|].
    cbn [length]. rewrite offset_S. rewrite sum_n_plus, IH.
    change (S (length ds)) with (1 + length ds)%nat. rewrite sum_n_plus.
    f_equal.
    - rewrite sum_n_S, sum_n_0. cbn [nth_error]. transitivity (0 + sum_n (dim d) f); [ring|]. f_equal.
    - apply sum_n_ext. intros n _. cbn [plus nth_error]. destruct (nth_error ds n); auto.
      apply sum_n_ext. intros j _. rewrite offset_S. f_equal. lia.
  Qed.

  (** product law *)
  Lemma mat_to_eigen_product_lemma (K : dofmat F) rdim cdim dofs M (x : nat -> F) :
    shapes_fit K dofs rdim cdim -> mat_to_eigen K dofs = Some M ->
    forall k a i, nth_error dofs k = Some a -> (i < rdim a)%nat ->
    mat_vec M x (offset rdim dofs k + i) =
    sum_n (length dofs) (fun n => match nth_error dofs n with
      | Some b => match mat_at K a b with
                  | Some m => mat_vec m (fun j => x (offset cdim dofs n + j)%nat) i
                  | None => 0 end
      | None => 0 end).
  Proof.
    intros fit HM k a i Hk Hi.
    destruct (mat_to_eigen_lemma K rdim cdim dofs fit) as (M' & HM' & _ & Hr & Hc & He).
    rewrite HM in HM'. injection HM' as <-.
    unfold mat_vec at 1. rewrite Hc, sum_blocks. apply sum_n_ext. intros n Hn.
    destruct (nth_error dofs n) as [b|] eqn:Eb; auto.
    destruct (fit a b) as (m & Hm & Hmr & Hmc & _); [eapply nth_error_In; eauto..|].
    rewrite Hm. unfold mat_vec. rewrite Hmc. apply sum_n_ext. intros j Hj.
    rewrite (He k a n b i j m) by (auto; lia). auto.
  Qed.
End C09m.
