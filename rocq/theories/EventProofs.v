(** Lemmas for C59 and C60. *)
From Coq Require Import Reals ZArith List Bool Lra Lia.
From Verif Require Import Outcome AdaptiveModel AdaptiveProofs CollisionModel CollisionProofs2 EventModel EventSpec.
Import ListNotations.
Local Open Scope R_scope.

(** ** The order *)
Lemma event_lt_spec a b : event_lt a b = true <->
  etime a < etime b \/ (etime a = etime b /\ ((smaller b < smaller a)%Z \/ (smaller a = smaller b /\ (bigger b < bigger a)%Z))).
Proof.
  unfold event_lt. destruct (reqb_spec (etime a) (etime b)) as [(-> & E)|(-> & E)]; cbn [negb].
  - destruct (Z.eqb_spec (smaller a) (smaller b)) as [Es|Es]; cbn [negb]; rewrite Z.ltb_lt; split; intros; try lia; intuition (try lra; try lia).
  - destruct (rltb_spec (etime a) (etime b)) as [(-> & Hl)|(-> & Hl)]; split; intros; try discriminate; auto. exfalso. lra.
Qed.
Lemma event_lt_false a b : event_lt a b = false <->
  ~ (etime a < etime b \/ (etime a = etime b /\ ((smaller b < smaller a)%Z \/ (smaller a = smaller b /\ (bigger b < bigger a)%Z)))).
Proof. rewrite <- event_lt_spec. destruct (event_lt a b); split; congruence. Qed.
Lemma same_pair_keys a b : same_pair a b <-> smaller a = smaller b /\ bigger a = bigger b.
Proof.
  unfold same_pair, smaller, bigger.
  destruct (Z.ltb_spec (efst a) (esnd a)), (Z.ltb_spec (efst b) (esnd b)); lia.
Qed.
Lemma lt_irrefl a : event_lt a a = false.
Proof. apply event_lt_false. intros [H|(_ & [H|(_ & H)])]; [lra|lia|lia]. Qed.
Lemma lt_trans a b c : event_lt a b = true -> event_lt b c = true -> event_lt a c = true.
Proof.
  rewrite !event_lt_spec. intros [H|(E & H)] [H'|(E' & H')].
  - left. lra.
  - left. lra.
  - left. lra.
  - right. split; [lra|]. lia.
Qed.
Lemma lt_asym a b : event_lt a b = true -> event_lt b a = false.
Proof.
  intros H. destruct (event_lt b a) eqn:E; auto. rewrite <- (lt_irrefl a). symmetry. eapply lt_trans; eauto.
Qed.
Lemma equivalent_spec a b : equivalent a b = true <-> same_event a b.
Proof.
  unfold equivalent. rewrite andb_true_iff, !negb_true_iff, !event_lt_false. unfold same_event. rewrite same_pair_keys.
  split.
  - intros (H1 & H2). assert (etime a = etime b) by (destruct (Rtotal_order (etime a) (etime b)) as [|[|]]; auto; exfalso; tauto).
    split; auto.
    assert (smaller a = smaller b) by (destruct (Z.lt_trichotomy (smaller a) (smaller b)) as [|[|]]; auto; exfalso; [apply H2|apply H1]; right; split; [lra|left; lia|lra|left; lia]).
    split; auto.
    destruct (Z.lt_trichotomy (bigger a) (bigger b)) as [|[|]]; auto; exfalso; [apply H2|apply H1]; right; split; [lra|right; lia|lra|right; lia].
  - intros (E & E1 & E2). split; intros [F|(_ & [F|(_ & F)])]; lra || lia.
Qed.
Lemma event_eq_spec a b : event_eq a b = true <-> same_event a b.
Proof.
  unfold event_eq, same_event, same_pair. destruct (reqb_spec (etime a) (etime b)) as [(-> & E)|(-> & E)]; cbn [negb].
  - destruct (Z.eqb_spec (efst a) (efst b)), (Z.eqb_spec (esnd a) (esnd b)), (Z.eqb_spec (efst a) (esnd b)), (Z.eqb_spec (esnd a) (efst b));
      cbn [andb]; intuition congruence.
  - intuition congruence.
Qed.

(** ** The set *)
Lemma ordered_distinct l x y : ordered l -> In x l -> In y l -> x = y \/ event_lt (snd x) (snd y) = true \/ event_lt (snd y) (snd x) = true.
Proof.
  induction l as [|z l IH]; simpl; [tauto|]. intros (H & Ho) [<-|Hx] [<-|Hy]; auto.
Qed.
Lemma equivalent_same_node l x y : ordered l -> In x l -> In y l -> equivalent (snd x) (snd y) = true -> x = y.
Proof.
  intros Ho Hx Hy. unfold equivalent. rewrite andb_true_iff, !negb_true_iff. intros (H1 & H2).
  destruct (ordered_distinct l x y Ho Hx Hy) as [?|[H|H]]; congruence.
Qed.
Lemma equivalent_refl e : equivalent e e = true.
Proof. unfold equivalent. rewrite lt_irrefl. reflexivity. Qed.

Definition not_addr (a : Z) (n : node) : bool := negb (Z.eqb (fst n) a).

Lemma erase_key_none k l : (forall x, In x l -> equivalent (snd x) k = false) -> erase_key k l = (l, []).
Proof.
  induction l as [|x l IH]; intros H; simpl; auto. rewrite H by (left; auto). rewrite IH by (intros; apply H; right; auto). reflexivity.
Qed.
Lemma filter_all {A} (f : A -> bool) l : (forall x, In x l -> f x = true) -> filter f l = l.
Proof. induction l as [|x l IH]; intros H; simpl; auto. rewrite H by (left; auto). f_equal. apply IH. intros; apply H; right; auto. Qed.

Lemma erase_key_node a e l : ordered l -> NoDup (map fst l) -> In (a, e) l ->
  erase_key e l = (filter (not_addr a) l, [(a, e)]).
Proof.
  induction l as [|x l IH]; simpl; [tauto|]. intros (Hx & Ho) Hd Hin. inversion Hd as [|? ? Hni Hd']; subst.
  destruct Hin as [-> |Hin].
  - cbn [snd fst]. rewrite equivalent_refl. unfold not_addr at 1. cbn [fst]. rewrite Z.eqb_refl. cbn [negb].
    rewrite erase_key_none; cbn [fst snd].
    + rewrite filter_all; auto. intros y Hy. unfold not_addr. rewrite negb_true_iff. apply Z.eqb_neq. intros E.
      apply Hni. cbn [fst]. rewrite <- E. apply in_map. auto.
    + intros y Hy. unfold equivalent. specialize (Hx y Hy). cbn [snd] in Hx. rewrite Hx, andb_false_r. reflexivity.
  - assert (equivalent (snd x) e = false) as ->.
    { unfold equivalent. specialize (Hx (a, e) Hin). cbn [snd] in Hx. rewrite Hx. reflexivity. }
    rewrite IH by auto. cbn [fst snd]. unfold not_addr at 2. 
    destruct (Z.eqb_spec (fst x) a) as [E|E]; cbn [negb]; auto.
    exfalso. apply Hni. rewrite E. change a with (fst (a, e)). apply in_map. auto.
Qed.

Lemma ordered_filter f l : ordered l -> ordered (filter f l).
Proof.
  induction l as [|x l IH]; simpl; auto. intros (H & Ho). destruct (f x); simpl; auto. split; auto.
  intros y Hy. apply filter_In in Hy. apply H. tauto.
Qed.
Lemma NoDup_map_filter {A B} (g : A -> B) f l : NoDup (map g l) -> NoDup (map g (filter f l)).
Proof.
  induction l as [|x l IH]; simpl; auto. intros H. inversion H; subst. destruct (f x); simpl; auto.
  constructor; auto. intros F. apply in_map_iff in F. destruct F as (y & E & Hy). apply filter_In in Hy.
  apply H2. rewrite <- E. apply in_map. tauto.
Qed.
Lemma In_remove_addr a l x : In x (remove_addr a l) <-> In x l /\ x <> a.
Proof. unfold remove_addr. rewrite filter_In, negb_true_iff, Z.eqb_neq. tauto. Qed.
Lemma NoDup_remove_addr a l : NoDup l -> NoDup (remove_addr a l).
Proof. apply NoDup_filter. Qed.

Lemma destroy_locals a e f c : destroy (a, e) f c = if involvesb e c then remove_addr a (f c) else f c.
Proof.
  unfold destroy, involvesb, set_local. cbn [fst snd]. rewrite (Z.eqb_sym (efst e) c), (Z.eqb_sym (esnd e) c).
  assert (Hii: forall l, remove_addr a (remove_addr a l) = remove_addr a l).
  { intros l. unfold remove_addr. apply filter_all. intros x Hx. apply filter_In in Hx. tauto. }
  destruct (Z.eqb_spec c (esnd e)) as [E1|H1], (Z.eqb_spec c (efst e)) as [E2|H2]; cbn [orb]; auto.
  - destruct (Z.eqb_spec (esnd e) (efst e)) as [E|E]; [|congruence]. rewrite Hii, E2. reflexivity.
  - destruct (Z.eqb_spec (esnd e) (efst e)) as [E|E]; [congruence|]. rewrite E1. reflexivity.
  - rewrite E2. reflexivity.
Qed.
Lemma involvesb_spec e c : involvesb e c = true <-> involves e c.
Proof. unfold involvesb, involves. rewrite orb_true_iff, !Z.eqb_eq. tauto. Qed.

Lemma addr_unique s a e e' : NoDup (map fst (nodes s)) -> In (a, e) (nodes s) -> In (a, e') (nodes s) -> e = e'.
Proof.
  generalize (nodes s). induction l as [|x l IH]; simpl; [tauto|]. intros H. inversion H; subst.
  intros [Ex|H1] [E|H2'].
  - congruence.
  - subst x. exfalso. apply H2. change (fst (a, e)) with (fst (a, e')). apply in_map. auto.
  - subst x. exfalso. apply H2. change (fst (a, e')) with (fst (a, e)). apply in_map. auto.
  - auto.
Qed.

Lemma erase_event_ok a e s : wf_list s -> In (a, e) (nodes s) ->
  nodes (erase_event e s) = filter (not_addr a) (nodes s) /\ wf_list (erase_event e s) /\
  barrier (erase_event e s) = barrier s.
Proof.
  intros (Ho & Hd & Hp & Hl) Hin. unfold erase_event. rewrite (erase_key_node a e) by auto. cbn [nodes barrier fold_left].
  split; [reflexivity|]. split; [|reflexivity].
  split; [apply ordered_filter; auto|]. split; [apply NoDup_map_filter; auto|]. cbn [nodes locals].
  split; [intros n Hn; apply filter_In in Hn; apply Hp; tauto|].
  intros c. rewrite destroy_locals. destruct (Hl c) as (Hnd & Hc).
  split; [destruct (involvesb e c); [apply NoDup_remove_addr|]; auto|].
  intros x.
  assert (Hf: (exists e', In (x, e') (filter (not_addr a) (nodes s)) /\ involves e' c)
              <-> In x (locals s c) /\ x <> a).
  { rewrite Hc. split.
    - intros (e' & H & Hi). apply filter_In in H. destruct H as (H & Hna). unfold not_addr in Hna. cbn [fst] in Hna.
      rewrite negb_true_iff, Z.eqb_neq in Hna. split; auto. exists e'. auto.
    - intros ((e' & H & Hi) & Hne). exists e'. split; auto. apply filter_In. split; auto. unfold not_addr. cbn [fst].
      rewrite negb_true_iff. apply Z.eqb_neq. auto. }
  rewrite Hf. destruct (involvesb e c) eqn:Ei; [apply In_remove_addr|].
  split; [|tauto]. intros Hx. split; auto. intros ->. apply Hc in Hx. destruct Hx as (e' & He' & Hi).
  assert (e' = e) as -> by (eapply addr_unique; eauto). apply involvesb_spec in Hi. congruence.
Qed.

Lemma find_live s a e : NoDup (map fst (nodes s)) -> In (a, e) (nodes s) ->
  find (fun n => Z.eqb (fst n) a) (nodes s) = Some (a, e).
Proof.
  intros Hd Hin. destruct (find (fun n => Z.eqb (fst n) a) (nodes s)) as [[a' e']|] eqn:E.
  - apply find_some in E. cbn [fst] in E. destruct E as (H & Ea). apply Z.eqb_eq in Ea. subst a'.
    f_equal. f_equal. eapply addr_unique; eauto.
  - apply (find_none _ _ E) in Hin. cbn [fst] in Hin. rewrite Z.eqb_refl in Hin. discriminate.
Qed.
Lemma find_dead s a : ~ In a (map fst (nodes s)) -> find (fun n => Z.eqb (fst n) a) (nodes s) = None.
Proof.
  intros H. destruct (find (fun n => Z.eqb (fst n) a) (nodes s)) as [[a' e']|] eqn:E; auto.
  apply find_some in E. cbn [fst] in E. destruct E as (Hi & Ea). apply Z.eqb_eq in Ea. subst. exfalso. apply H.
  change a with (fst (a, e')). apply in_map. auto.
Qed.

Definition not_in (ps : list Z) (n : node) : bool := negb (existsb (Z.eqb (fst n)) ps).
Lemma filter_filter {A} (f g : A -> bool) l : filter f (filter g l) = filter (fun x => andb (g x) (f x)) l.
Proof. induction l as [|x l IH]; simpl; auto. destruct (g x); simpl; [destruct (f x)|]; rewrite ?IH; auto. Qed.
Lemma filter_ext_In {A} (f g : A -> bool) l : (forall x, In x l -> f x = g x) -> filter f l = filter g l.
Proof. induction l as [|x l IH]; simpl; intros H; auto. rewrite (H x) by auto. rewrite IH by auto. reflexivity. Qed.

(** deleting live pointers, each once *)
Lemma delete_live read ps : forall s, wf_list s -> NoDup ps -> (forall p, In p ps -> In p (map fst (nodes s))) ->
  exists s', delete_old read ps s = Ok s' /\ wf_list s' /\ nodes s' = filter (not_in ps) (nodes s) /\ barrier s' = barrier s.
Proof.
  induction ps as [|p ps IH]; intros s Hw Hd Hin; cbn [delete_old].
  - exists s. split; [auto|]. split; [auto|]. split; auto. rewrite filter_all; auto.
  - inversion Hd as [|? ? Hp Hd']; subst. destruct (proj1 (in_map_iff _ _ _) (Hin p (or_introl eq_refl))) as ((a & e) & Ea & Hn).
    cbn [fst] in Ea. subst a. unfold deref. rewrite (find_live s p e) by (auto; apply Hw). cbn [snd].
    destruct (erase_event_ok p e s Hw Hn) as (En & Hw' & Hb).
    destruct (IH (erase_event e s) Hw' Hd') as (s' & E & Hs' & Hn' & Hb').
    + intros q Hq. rewrite En. destruct (proj1 (in_map_iff _ _ _) (Hin q (or_intror Hq))) as ((a & e') & Ea & Hn').
      cbn [fst] in Ea. subst a. change q with (fst (q, e')). apply in_map, filter_In. split; auto.
      unfold not_addr. cbn [fst]. rewrite negb_true_iff. apply Z.eqb_neq. intros ->. auto.
    + exists s'. split; auto. split; auto. split; [|congruence]. rewrite Hn', En, filter_filter.
      apply filter_ext_In. intros x _. unfold not_addr, not_in. cbn [existsb]. rewrite negb_orb. reflexivity.
Qed.

(** a dangling pointer in the list is undefined behaviour *)
Lemma delete_dead ps : forall s p, wf_list s -> In p ps -> ~ In p (map fst (nodes s)) ->
  delete_old (fun _ => None) ps s = UB.
Proof.
  induction ps as [|q ps IH]; intros s p Hw Hin Hd; [destruct Hin|]. cbn [delete_old].
  destruct (in_dec Z.eq_dec q (map fst (nodes s))) as [Hq|Hq].
  - apply in_map_iff in Hq. destruct Hq as ((a & e) & Ea & Hn). cbn [fst] in Ea. subst a.
    unfold deref. rewrite (find_live s q e) by (auto; apply Hw). cbn [snd].
    destruct (erase_event_ok q e s Hw Hn) as (En & Hw' & Hb).
    assert (Hne: q <> p). { intros ->. apply Hd. change p with (fst (p, e)). apply in_map. auto. }
    destruct Hin as [->|Hin]; [contradiction|]. apply (IH _ p); auto. rewrite En. intros F. apply Hd.
    apply in_map_iff in F. destruct F as (x & Ex & Hx). apply filter_In in Hx. rewrite <- Ex. apply in_map. tauto.
  - unfold deref. rewrite find_dead by auto. reflexivity.
Qed.
Lemma delete_app read ps qs s : delete_old read (ps ++ qs) s = obind (delete_old read ps s) (delete_old read qs).
Proof.
  revert s. induction ps as [|p ps IH]; intros s; cbn [delete_old List.app obind]; auto.
  destruct (deref read p s); auto.
Qed.

(** if the memory of a destroyed event still reads as before, its second deletion has no effect *)
Lemma delete_stale read s0 ps : ordered (nodes s0) -> NoDup (map fst (nodes s0)) ->
  (forall a e, In (a, e) (nodes s0) -> read a = Some e) ->
  forall s, wf_list s -> (forall n, In n (nodes s) -> In n (nodes s0)) ->
  (forall p, In p ps -> In p (map fst (nodes s0))) ->
  exists s', delete_old read ps s = Ok s' /\ wf_list s' /\ nodes s' = filter (not_in ps) (nodes s) /\ barrier s' = barrier s.
Proof.
  intros Ho0 Hd0 Hread. induction ps as [|p ps IH]; intros s Hw Hsub Hin; cbn [delete_old].
  - exists s. split; [auto|]. split; [auto|]. split; auto. rewrite filter_all; auto.
  - destruct (proj1 (in_map_iff _ _ _) (Hin p (or_introl eq_refl))) as ((a & e) & Ea & Hn0). cbn [fst] in Ea. subst a.
    assert (X: exists s1, wf_list s1 /\ (match deref read p s with None => UB | Some e => delete_old read ps (erase_event e s) end)
        = delete_old read ps s1 /\ nodes s1 = filter (not_addr p) (nodes s) /\ barrier s1 = barrier s).
    { destruct (in_dec Z.eq_dec p (map fst (nodes s))) as [Hq|Hq].
      - apply in_map_iff in Hq. destruct Hq as ((a & e') & Ea & Hn). cbn [fst] in Ea. subst a.
        unfold deref. rewrite (find_live s p e') by (auto; apply Hw). cbn [snd].
        destruct (erase_event_ok p e' s Hw Hn) as (En & Hw' & Hb). exists (erase_event e' s). auto.
      - unfold deref. rewrite find_dead by auto. rewrite (Hread p e Hn0).
        assert (Hnone: forall x, In x (nodes s) -> equivalent (snd x) e = false).
        { intros x Hx. destruct (equivalent (snd x) e) eqn:E; auto. exfalso.
          assert (x = (p, e)) by (apply (equivalent_same_node (nodes s0)); auto). subst x.
          apply Hq. change p with (fst (p, e)). apply in_map. auto. }
        exists (erase_event e s). unfold erase_event. rewrite erase_key_none by auto. cbn [fold_left nodes barrier].
        split; [destruct s; exact Hw|]. split; [reflexivity|]. split; [|reflexivity].
        symmetry. apply filter_all. intros x Hx. unfold not_addr. rewrite negb_true_iff. apply Z.eqb_neq. intros E.
        apply Hq. rewrite <- E. apply in_map. auto. }
    destruct X as (s1 & Hw1 & -> & En & Hb).
    destruct (IH s1 Hw1) as (s' & E & Hs' & Hn' & Hb').
    + intros n Hn. rewrite En in Hn. apply filter_In in Hn. apply Hsub. tauto.
    + intros q Hq. apply Hin. right. auto.
    + exists s'. split; auto. split; auto. split; [|congruence]. rewrite Hn', En, filter_filter.
      apply filter_ext_In. intros x _. unfold not_addr, not_in. cbn [existsb]. rewrite negb_orb. reflexivity.
Qed.

(** the addresses in the local list of [c] are those of the events that involve [c] *)
Lemma not_in_locals s c n : wf_list s -> In n (nodes s) ->
  existsb (Z.eqb (fst n)) (locals s c) = involvesb (snd n) c.
Proof.
  intros (Ho & Hd & Hp & Hl) Hn. destruct (Hl c) as (_ & Hc). destruct n as (a & e). cbn [fst snd].
  destruct (involvesb e c) eqn:Ei.
  - apply existsb_exists. exists a. split; [|apply Z.eqb_refl]. apply Hc. exists e. split; auto. apply involvesb_spec. auto.
  - destruct (existsb (Z.eqb a) (locals s c)) eqn:E; auto. apply existsb_exists in E. destruct E as (x & Hx & Ex).
    apply Z.eqb_eq in Ex. subst x. apply Hc in Hx. destruct Hx as (e' & He' & Hi).
    assert (e' = e) as -> by (eapply addr_unique; eauto). apply involvesb_spec in Hi. congruence.
Qed.

(** ** Adding *)
Lemma set_insert_in n l : forall x, In x (fst (set_insert n l)) <->
  In x l \/ (snd (set_insert n l) = true /\ x = n).
Proof.
  induction l as [|y l IH]; intros x; simpl; [intuition|].
  destruct (event_lt (snd n) (snd y)); simpl; [intuition|].
  destruct (event_lt (snd y) (snd n)); simpl; [rewrite IH|]; intuition (try discriminate).
Qed.
Lemma set_insert_ordered n l : ordered l -> ordered (fst (set_insert n l)).
Proof.
  induction l as [|y l IH]; simpl; [intuition|]. intros (H & Ho).
  destruct (event_lt (snd n) (snd y)) eqn:E1; simpl.
  - split; [|split; auto]. intros z [<-|Hz]; auto. eapply lt_trans; eauto.
  - destruct (event_lt (snd y) (snd n)) eqn:E2; simpl; auto. split; auto.
    intros z Hz. apply set_insert_in in Hz. destruct Hz as [Hz|(_ & ->)]; auto.
Qed.
Lemma set_insert_false n l : snd (set_insert n l) = false -> exists x, In x l /\ same_event (snd x) (snd n).
Proof.
  induction l as [|y l IH]; simpl; [discriminate|].
  destruct (event_lt (snd n) (snd y)) eqn:E1; simpl; [discriminate|].
  destruct (event_lt (snd y) (snd n)) eqn:E2; simpl.
  - intros H. destruct (IH H) as (x & Hx & E). exists x. auto.
  - intros _. exists y. split; auto. apply equivalent_spec. unfold equivalent. rewrite E1, E2. reflexivity.
Qed.
Lemma set_insert_true_nodup n l : NoDup (map fst l) -> ~ In (fst n) (map fst l) -> NoDup (map fst (fst (set_insert n l))).
Proof.
  induction l as [|y l IH]; simpl; intros Hd Hn; [constructor; auto|]. inversion Hd; subst.
  destruct (event_lt (snd n) (snd y)); simpl; [constructor; auto; simpl; tauto|].
  destruct (event_lt (snd y) (snd n)); simpl; auto.
  constructor; [|apply IH; tauto]. intros F. apply in_map_iff in F. destruct F as (x & Ex & Hx).
  apply set_insert_in in Hx. destruct Hx as [Hx|(_ & ->)].
  - apply H1. rewrite <- Ex. apply in_map. auto.
  - apply Hn. left. auto.
Qed.

Lemma add_event_wf a t c1 c2 s : wf_list s -> c1 <> c2 -> ~ In a (map fst (nodes s)) -> wf_list (add_event a t c1 c2 s).
Proof.
  intros Hw Hc Ha. unfold add_event. destruct (orb (rltb t 0) (rltb (barrier s) t)); auto.
  pose proof (set_insert_in (a, mkEvent t c2 c1) (nodes s)) as Hin.
  pose proof (set_insert_ordered (a, mkEvent t c2 c1) (nodes s)) as Ho.
  pose proof (set_insert_true_nodup (a, mkEvent t c2 c1) (nodes s)) as Hd.
  destruct (set_insert (a, mkEvent t c2 c1) (nodes s)) as (ns, ins). cbn [fst snd] in *. destruct ins; auto.
  destruct Hw as (Wo & Wd & Wp & Wl).
  split; [auto|]. split; [auto|]. cbn [nodes locals]. split.
  - intros n Hn. apply Hin in Hn. destruct Hn as [Hn|(_ & ->)]; auto.
  - intros c. destruct (Wl c) as (Hnd & Hcx).
    assert (Hac: ~ In a (locals s c)).
    { intros F. apply Hcx in F. destruct F as (e & He & _). apply Ha. change a with (fst (a, e)). apply in_map. auto. }
    assert (E: set_local (set_local (locals s) c2 (locals s c2 ++ [a])) c1 (set_local (locals s) c2 (locals s c2 ++ [a]) c1 ++ [a]) c
       = locals s c ++ (if involvesb (mkEvent t c2 c1) c then [a] else [])).
    { unfold set_local, involvesb. cbn [efst esnd]. rewrite (Z.eqb_sym c2 c), (Z.eqb_sym c1 c).
      destruct (Z.eqb_spec c c1) as [N1|N1], (Z.eqb_spec c c2) as [N2|N2]; cbn [orb]; rewrite ?app_nil_r; auto; try congruence.
      destruct (Z.eqb_spec c1 c2); [contradiction|]. rewrite N1. reflexivity. }
    rewrite E. split.
    + destruct (involvesb (mkEvent t c2 c1) c); [|rewrite app_nil_r; auto].
      apply NoDup_rev in Hnd. rewrite <- (rev_involutive (locals s c ++ [a])). apply NoDup_rev. rewrite rev_app_distr. simpl.
      constructor; auto. rewrite <- in_rev. auto.
    + intros x. rewrite in_app_iff, Hcx. split.
      * intros [(e & He & Hi)|Hx].
        -- exists e. split; auto. apply Hin. auto.
        -- destruct (involvesb (mkEvent t c2 c1) c) eqn:Ei; [|destruct Hx]. destruct Hx as [<-|[]].
           exists (mkEvent t c2 c1). split; [apply Hin; right; auto|]. apply involvesb_spec. auto.
      * intros (e & He & Hi). apply Hin in He. destruct He as [He|(_ & Ex)].
        -- left. exists e. auto.
        -- injection Ex as -> ->. right. apply involvesb_spec in Hi. rewrite Hi. left. auto.
Qed.

Lemma clear_wf s : wf_list s -> wf_list (clear_events s) /\ nodes (clear_events s) = [].
Proof.
  intros (Ho & Hd & Hp & Hl). split; [|reflexivity]. unfold clear_events. 
  split; [exact I|]. split; [constructor|]. split; [intros n []|]. cbn [nodes locals].
  assert (X: forall ns f, (forall c, NoDup (f c) /\ forall a, In a (f c) -> exists e, In (a, e) ns /\ involves e c) ->
     forall c, fold_left (fun f n => destroy n f) ns f c = []).
  { induction ns as [|(a & e) ns IH]; intros f Hf c; simpl.
    - destruct (f c) as [|x l] eqn:E; auto. destruct (Hf c) as (_ & H). rewrite E in H. destruct (H x (or_introl eq_refl)) as (? & [] & _).
    - apply IH. intros c'. rewrite destroy_locals. destruct (Hf c') as (Hn & Hc'). destruct (involvesb e c') eqn:Ei.
      + split; [apply NoDup_remove_addr; auto|]. intros x Hx. apply In_remove_addr in Hx. destruct Hx as (Hx & Hne).
        destruct (Hc' x Hx) as (e' & [F|H] & Hi); [congruence|eauto].
      + split; auto. intros x Hx. destruct (Hc' x Hx) as (e' & [F|H] & Hi); [|eauto].
        injection F as -> ->. apply involvesb_spec in Hi. congruence. }
  intros c. rewrite X.
  - split; [constructor|]. intros a. simpl. split; [tauto|]. intros (e & [] & _).
  - intros c'. destruct (Hl c') as (H1 & H2). split; auto. intros a Ha. apply H2. auto.
Qed.
