From Coq Require Import List ZArith Arith Lia Bool.
From Verif Require Import BaseModel BaseSpec.
Import ListNotations.
Local Open Scope Z_scope.

(** ** set_nth *)
Lemma set_nth_length {A} n (x : A) l : length (set_nth n x l) = length l.
Proof. revert n; induction l as [|y l IH]; intros [|n]; simpl; auto. Qed.

Lemma nth_error_set_nth_eq {A} n (x : A) l : (n < length l)%nat -> nth_error (set_nth n x l) n = Some x.
Proof. revert n; induction l as [|y l IH]; intros [|n]; simpl; intros; try lia; auto. apply IH; lia. Qed.

Lemma nth_error_set_nth_ne {A} n m (x : A) l : n <> m -> nth_error (set_nth n x l) m = nth_error l m.
Proof. revert n m; induction l as [|y l IH]; intros [|n] [|m] H; simpl; auto; try congruence. Qed.

Lemma nth_error_set_nth {A} n m (x : A) l :
  nth_error (set_nth n x l) m = if Nat.eqb n m then (if Nat.ltb n (length l) then Some x else None) else nth_error l m.
Proof.
  destruct (Nat.eqb_spec n m) as [->|H].
  - destruct (Nat.ltb_spec m (length l)).
    + apply nth_error_set_nth_eq; auto.
    + apply nth_error_None. rewrite set_nth_length. auto.
  - apply nth_error_set_nth_ne; auto.
Qed.

Lemma skipn_skipn' {A} (a b : nat) : forall l : list A, skipn a (skipn b l) = skipn (b + a) l.
Proof. induction b as [|b IH]; intros [|x l]; simpl; auto. rewrite skipn_nil; auto. Qed.

(** ** UniqueId *)
Lemma uid_run_app ops1 ops2 : forall s,
  uid_run s (ops1 ++ ops2) = match uid_run s ops1 with None => None | Some s' => uid_run s' ops2 end.
Proof. induction ops1 as [|o ops1 IH]; intros s; simpl; auto. destruct (uid_step s o); auto. Qed.

Lemma origins_from_app ops1 ops2 : forall n os,
  origins_from n os (ops1 ++ ops2) = origins_from (n + length ops1) (origins_from n os ops1) ops2.
Proof.
  induction ops1 as [|o ops1 IH]; intros n os; simpl.
  - f_equal; lia.
  - rewrite IH. f_equal; lia.
Qed.

Definition uid_inv (ops : list uid_op) (s : uid_state) : Prop :=
  (forall c, counter s c = Z.of_nat (constructions c (length ops) ops)) /\
  length (objects s) = length (origins ops) /\
  (forall i o, nth_error (origins ops) i = Some o ->
     exists c, nth_error ops o = Some (UidConstruct c) /\
               nth_error (objects s) i = Some (c, Z.of_nat (constructions c o ops))).

Lemma constructions_app c n ops o : (n <= length ops)%nat ->
  constructions c n (ops ++ [o]) = constructions c n ops.
Proof.
  intros H. unfold constructions. rewrite firstn_app.
  replace (n - length ops)%nat with 0%nat by lia. simpl. rewrite app_nil_r. reflexivity.
Qed.

Lemma constructions_snoc c ops o :
  constructions c (length (ops ++ [o])) (ops ++ [o]) =
  (constructions c (length ops) ops + (if is_construct c o then 1 else 0))%nat.
Proof.
  unfold constructions. rewrite !firstn_all, filter_app, app_length. simpl.
  destruct (is_construct c o); reflexivity.
Qed.

Lemma nth_error_snoc {A} (l : list A) x i y :
  nth_error (l ++ [x]) i = Some y -> (i = length l /\ y = x) \/ nth_error l i = Some y.
Proof.
  intros H. destruct (lt_eq_lt_dec i (length l)) as [[Hl| ->]|Hg].
  - right. rewrite nth_error_app1 in H; auto.
  - left. rewrite nth_error_app2, Nat.sub_diag in H; auto. simpl in H. split; congruence.
  - rewrite nth_error_app2 in H by lia. replace (i - length l)%nat with (S (i - length l - 1)) in H by lia.
    simpl in H. destruct (i - length l - 1)%nat; discriminate.
Qed.

Lemma nth_error_snoc_last {A} (l : list A) x : nth_error (l ++ [x]) (length l) = Some x.
Proof. rewrite nth_error_app2, Nat.sub_diag; auto. Qed.

Lemma nth_error_lt {A} (l : list A) i x : nth_error l i = Some x -> (i < length l)%nat.
Proof. intros H. apply nth_error_Some. congruence. Qed.

Lemma nth_error_app_l {A} (l m : list A) i x : nth_error l i = Some x -> nth_error (l ++ m) i = Some x.
Proof. intros H. rewrite nth_error_app1; auto. apply nth_error_lt in H; auto. Qed.

Lemma uid_inv_run ops : forall s, uid_run uid_init ops = Some s -> uid_inv ops s.
Proof.
  induction ops as [|o ops IH] using rev_ind; intros s Hs.
  - injection Hs as <-. repeat split; simpl; auto. intros i o H. destruct i; discriminate.
  - rewrite uid_run_app in Hs. destruct (uid_run uid_init ops) as [s0|] eqn:E0; [|discriminate].
    destruct (IH _ eq_refl) as (Hc & Hl & Ho). clear IH.
    cbn [uid_run] in Hs. destruct (uid_step s0 o) as [s1|] eqn:E1; [|discriminate].
    injection Hs as <-.
    assert (Hor : origins (ops ++ [o]) = origin_step (length ops) (origins ops) o).
    { unfold origins. rewrite origins_from_app. simpl. reflexivity. }
    assert (Hold : forall i p c, nth_error (origins ops) i = Some p ->
              nth_error ops p = Some (UidConstruct c) -> 
              nth_error (ops ++ [o]) p = Some (UidConstruct c) /\
              constructions c p (ops ++ [o]) = constructions c p ops).
    { intros i p c _ Hp. split; [apply nth_error_app_l; auto|].
      apply constructions_app. apply nth_error_lt in Hp. lia. }
    destruct o as [c|src|dst src]; simpl in E1, Hor.
    + destruct (counter s0 c =? int_max); [discriminate|]. injection E1 as <-.
      split; [|split]; cbn [counter objects].
      * intros c'. rewrite constructions_snoc. cbn [is_construct]. unfold upd.
        destruct (Nat.eqb_spec c' c) as [->|Hne]; rewrite Hc; lia.
      * rewrite Hor, !app_length, Hl. reflexivity.
      * intros i p. rewrite Hor. intros H. destruct (nth_error_snoc _ _ _ _ H) as [(-> & ->)|H'].
        -- exists c. split; [apply nth_error_snoc_last|].
           rewrite <- Hl, nth_error_snoc_last, Hc. do 3 f_equal. symmetry. apply constructions_app. lia.
        -- destruct (Ho _ _ H') as (c' & Hc1 & Hc2). exists c'.
           destruct (Hold _ _ _ H' Hc1) as (-> & ->). split; auto.
           apply nth_error_app_l; auto.
    + destruct (nth_error (objects s0) src) as [x|] eqn:Ex; [|discriminate]. injection E1 as <-.
      destruct (nth_error (origins ops) src) as [q|] eqn:Eq.
      2:{ apply nth_error_None in Eq. apply nth_error_lt in Ex. lia. }
      split; [|split]; cbn [counter objects].
      * intros c'. rewrite constructions_snoc. cbn [is_construct]. rewrite Hc; lia.
      * rewrite Hor, !app_length, Hl. reflexivity.
      * intros i p. rewrite Hor. intros H. destruct (nth_error_snoc _ _ _ _ H) as [(-> & ->)|H'].
        -- destruct (Ho _ _ Eq) as (c' & Hc1 & Hc2). exists c'.
           destruct (Hold _ _ _ Eq Hc1) as (-> & ->). split; auto.
           rewrite <- Hl, nth_error_snoc_last. congruence.
        -- destruct (Ho _ _ H') as (c' & Hc1 & Hc2). exists c'.
           destruct (Hold _ _ _ H' Hc1) as (-> & ->). split; auto.
           apply nth_error_app_l; auto.
    + destruct (nth_error (objects s0) dst) as [d|] eqn:Ed; [|discriminate].
      destruct (nth_error (objects s0) src) as [x|] eqn:Ex; [|discriminate].
      destruct (Nat.eqb (fst d) (fst x)); [|discriminate]. injection E1 as <-.
      destruct (nth_error (origins ops) src) as [q|] eqn:Eq.
      2:{ apply nth_error_None in Eq. apply nth_error_lt in Ex. lia. }
      split; [|split]; cbn [counter objects].
      * intros c'. rewrite constructions_snoc. cbn [is_construct]. rewrite Hc; lia.
      * rewrite Hor, !set_nth_length. auto.
      * intros i p. rewrite Hor, nth_error_set_nth. intros H. rewrite nth_error_set_nth.
        destruct (Nat.eqb_spec dst i) as [<-|Hne].
        -- rewrite Hl. destruct (Nat.ltb dst (length (origins ops))); [|discriminate].
           injection H as <-. destruct (Ho _ _ Eq) as (c' & Hc1 & Hc2). exists c'.
           destruct (Hold _ _ _ Eq Hc1) as (-> & ->). split; auto. congruence.
        -- destruct (Ho _ _ H) as (c' & Hc1 & Hc2). exists c'.
           destruct (Hold _ _ _ H Hc1) as (-> & ->). split; auto.
Qed.

Lemma constructions_mono c ops : forall n m, (n <= m)%nat -> (constructions c n ops <= constructions c m ops)%nat.
Proof.
  intros n m H. unfold constructions.
  replace (firstn m ops) with (firstn n ops ++ firstn (m - n) (skipn n ops)).
  - rewrite filter_app, app_length. lia.
  - rewrite <- firstn_skipn with (n:=n) (l:=firstn m ops). f_equal.
    + rewrite firstn_firstn. f_equal. lia.
    + rewrite skipn_firstn_comm. reflexivity.
Qed.

Lemma constructions_S c n ops : nth_error ops n = Some (UidConstruct c) ->
  constructions c (S n) ops = S (constructions c n ops).
Proof.
  revert n; induction ops as [|o ops IH]; intros [|n] H; try discriminate.
  - injection H as ->. unfold constructions; simpl. rewrite Nat.eqb_refl. reflexivity.
  - simpl in H. specialize (IH _ H). unfold constructions in *. simpl in *.
    destruct (is_construct c o); simpl; rewrite IH; reflexivity.
Qed.

Lemma unique_ids_lemma ops s : uid_run uid_init ops = Some s ->
  length (objects s) = length (origins ops) /\
  (forall i o, nth_error (origins ops) i = Some o ->
     exists c, nth_error ops o = Some (UidConstruct c) /\
               nth_error (objects s) i = Some (c, Z.of_nat (constructions c o ops))) /\
  (forall i j oi oj x, nth_error (origins ops) i = Some oi -> nth_error (origins ops) j = Some oj ->
     nth_error (objects s) i = Some x -> nth_error (objects s) j = Some x -> oi = oj).
Proof.
  intros H. destruct (uid_inv_run _ _ H) as (Hc & Hl & Ho). split; auto. split; auto.
  intros i j oi oj x Hi Hj Hxi Hxj.
  destruct (Ho _ _ Hi) as (ci & Hci & Hx1). destruct (Ho _ _ Hj) as (cj & Hcj & Hx2).
  assert (Hpair : (ci, Z.of_nat (constructions ci oi ops)) = (cj, Z.of_nat (constructions cj oj ops)))
    by congruence.
  injection Hpair as -> Hcnt.
  destruct (lt_eq_lt_dec oi oj) as [[Hlt|He]|Hgt]; auto; exfalso.
  - pose proof (constructions_S _ _ _ Hci). pose proof (constructions_mono cj ops (S oi) oj ltac:(lia)). lia.
  - pose proof (constructions_S _ _ _ Hcj). pose proof (constructions_mono cj ops (S oj) oi ltac:(lia)). lia.
Qed.

(** ** ValueVector *)
Section VV.
  Context {V : Type}.

  Lemma vv_free_length (l : list nat) : forall h : list (option V), length (vv_free h l) = length h.
  Proof. induction l as [|r l IH]; intros h; simpl; auto. rewrite IH, set_nth_length; auto. Qed.

  Lemma vv_free_other (l : list nat) : forall (h : list (option V)) r, ~ In r l ->
    nth_error (vv_free h l) r = nth_error h r.
  Proof.
    induction l as [|x l IH]; intros h r H; simpl; auto. rewrite IH by (simpl in H; tauto).
    apply nth_error_set_nth_ne. intros ->. apply H; simpl; auto.
  Qed.

  Lemma vv_free_in (l : list nat) : forall (h : list (option V)) r, In r l ->
    forall v, nth_error (vv_free h l) r <> Some (Some v).
  Proof.
    induction l as [|x l IH]; intros h r H v; simpl; [destruct H|].
    destruct (in_dec Nat.eq_dec r l) as [Hi|Hi]; [apply IH; auto|].
    destruct H as [->|H]; [|contradiction]. rewrite vv_free_other by auto.
    rewrite nth_error_set_nth, Nat.eqb_refl. destruct (Nat.ltb _ _); congruence.
  Qed.

  (** representation invariant: the abstract list describes exactly the live cells *)
  Definition vv_rep (s : vv_state V) (l : list (nat * V)) : Prop :=
    vdata s = map fst l /\ NoDup (map fst l) /\
    (forall r, In r (map fst l) -> (r < length (heap s))%nat) /\
    (forall r v, vv_deref s r = Some v <-> In (r, v) l).

  Lemma vv_rep_init : vv_rep vv_init [].
  Proof.
    repeat split; simpl; auto; try constructor; try contradiction.
    unfold vv_deref; simpl. destruct r; discriminate.
  Qed.

  Lemma NoDup_fst_inj (l : list (nat * V)) : NoDup (map fst l) ->
    forall r v w, In (r, v) l -> In (r, w) l -> v = w.
  Proof.
    induction l as [|[r0 v0] l IH]; simpl; intros Hn r v w H1 H2; [tauto|].
    inversion Hn; subst. destruct H1 as [H1|H1], H2 as [H2|H2]; try congruence.
    - injection H1 as -> ->. exfalso. apply H3. change r with (fst (r, w)). apply in_map; auto.
    - injection H2 as -> ->. exfalso. apply H3. change r with (fst (r, v)). apply in_map; auto.
    - eauto.
  Qed.

  Lemma NoDup_map_app_snoc (l : list nat) x : NoDup l -> ~ In x l -> NoDup (l ++ [x]).
  Proof.
    intros Hn Hx. rewrite <- (rev_involutive (l ++ [x])). apply NoDup_rev.
    rewrite rev_app_distr. simpl. constructor; [rewrite <- in_rev; auto | apply NoDup_rev; auto].
  Qed.

  Lemma NoDup_app_iff (l m : list nat) : NoDup (l ++ m) <-> NoDup l /\ NoDup m /\ (forall x, In x l -> ~ In x m).
  Proof.
    induction l as [|x l IH]; simpl.
    - intuition. constructor.
    - split.
      + intros H. inversion H; subst. rewrite in_app_iff in H2. apply IH in H3. destruct H3 as (A & B & C).
        repeat split; auto.
        * constructor; tauto.
        * intros y [->|Hy]; [tauto|auto].
      + intros (A & B & C). inversion A; subst. constructor.
        * rewrite in_app_iff. intros [?|?]; [auto|]. apply (C x); auto.
        * apply IH. repeat split; auto.
  Qed.

  Lemma vv_step_rep s l o s' : vv_rep s l -> vv_step s o = Some s' ->
    vv_rep s' (vv_abs_step (length (heap s)) l o) /\
    length (heap s') = (match o with VvAdd _ => S (length (heap s)) | _ => length (heap s) end).
  Proof.
    intros (Hd & Hn & Hlt & Hv) Hs. destruct o as [v|r v|from to]; simpl in Hs.
    - injection Hs as <-. cbn [vv_abs_step heap vdata]. split.
      2:{ rewrite app_length; simpl; lia. }
      assert (Hfresh : ~ In (length (heap s)) (map fst l)) by (intros H; apply Hlt in H; lia).
      repeat split; cbn [heap vdata].
      + rewrite map_app, Hd. reflexivity.
      + rewrite map_app. apply NoDup_map_app_snoc; auto.
      + intros r. rewrite map_app, in_app_iff, app_length. simpl. intros [H|[<-|[]]]; [|lia].
        apply Hlt in H. lia.
      + intros H. rewrite in_app_iff. unfold vv_deref in *. cbn [heap] in H.
        destruct (nth_error (heap s ++ [Some v]) r) as [[w|]|] eqn:E; try discriminate.
        injection H as ->. destruct (nth_error_snoc _ _ _ _ E) as [(-> & E2)|E2].
        * injection E2 as ->. simpl; auto.
        * left. apply Hv. rewrite E2. reflexivity.
      + rewrite in_app_iff. unfold vv_deref. cbn [heap]. intros [H|[H|[]]].
        * apply Hv in H. unfold vv_deref in H.
          destruct (nth_error (heap s) r) as [[w|]|] eqn:E; try discriminate.
          rewrite (nth_error_app_l _ _ _ _ E). auto.
        * injection H as <- <-. rewrite nth_error_snoc_last. reflexivity.
    - unfold vv_write in Hs. destruct (vv_deref s r) as [w|] eqn:E; [|discriminate].
      injection Hs as <-. cbn [vv_abs_step heap vdata]. split; [|apply set_nth_length].
      assert (Hf : map fst (map (fun rv => if Nat.eqb (fst rv) r then (r, v) else rv) l) = map fst l).
      { rewrite map_map. apply map_ext. intros [a b]; simpl. destruct (Nat.eqb_spec a r); simpl; auto. }
      assert (Hr : (r < length (heap s))%nat).
      { apply Hlt. apply Hv in E. change r with (fst (r, w)). apply in_map; auto. }
      unfold vv_rep. rewrite Hf. repeat split; cbn [heap vdata]; auto.
      + intros a Ha. rewrite set_nth_length. auto.
      + intros H. unfold vv_deref in H. cbn [heap] in H. rewrite nth_error_set_nth in H.
        apply in_map_iff. destruct (Nat.eqb_spec r r0) as [<-|Hne].
        * destruct (Nat.ltb_spec r (length (heap s))); [|lia]. injection H as <-.
          exists (r, w). simpl. rewrite Nat.eqb_refl. split; auto. apply Hv; auto.
        * exists (r0, v0). simpl. destruct (Nat.eqb_spec r0 r); [congruence|]. split; auto.
          apply Hv. exact H.
      + intros H. apply in_map_iff in H. destruct H as ((a & b) & H1 & H2). simpl in H1.
        unfold vv_deref. cbn [heap]. rewrite nth_error_set_nth.
        destruct (Nat.eqb_spec a r) as [->|Hne].
        * injection H1 as <- <-. rewrite Nat.eqb_refl. destruct (Nat.ltb_spec r (length (heap s))); [auto|lia].
        * injection H1 as -> ->. destruct (Nat.eqb_spec r r0); [congruence|]. apply Hv in H2. exact H2.
    - unfold vv_erase in Hs.
      destruct (Nat.leb_spec from to) as [Hft|]; [|discriminate].
      destruct (Nat.leb_spec to (length (vdata s))) as [Hto|]; [|discriminate].
      cbn [andb] in Hs. injection Hs as <-. cbn [vv_abs_step heap vdata].
      split; [|apply vv_free_length].
      set (A := firstn from l). set (B := firstn (to - from) (skipn from l)). set (C := skipn to l).
      assert (Hl : l = A ++ B ++ C).
      { unfold A, B, C. rewrite <- (firstn_skipn from l) at 1. f_equal.
        rewrite <- (firstn_skipn (to - from) (skipn from l)) at 1. f_equal.
        rewrite skipn_skipn'. f_equal. lia. }
      assert (HB : firstn (to - from) (skipn from (vdata s)) = map fst B).
      { unfold B. rewrite Hd, <- firstn_map, <- skipn_map. reflexivity. }
      rewrite HB.
      assert (HAC : firstn from (vdata s) ++ skipn to (vdata s) = map fst (A ++ C)).
      { unfold A, C. rewrite map_app, Hd, <- firstn_map, <- skipn_map. reflexivity. }
      rewrite HAC. rewrite Hl, !map_app in Hn.
      apply NoDup_app_iff in Hn. destruct Hn as (HnA & HnBC & HdABC).
      apply NoDup_app_iff in HnBC. destruct HnBC as (HnB & HnC & HdBC).
      repeat split; cbn [heap vdata]; auto.
      + rewrite map_app. apply NoDup_app_iff. repeat split; auto.
        intros x Hx Hx'. apply (HdABC x); auto. rewrite in_app_iff; auto.
      + intros r Hr. rewrite vv_free_length. apply Hlt. rewrite Hl, !map_app, !in_app_iff.
        rewrite map_app, in_app_iff in Hr. tauto.
      + intros H. unfold vv_deref in H. cbn [heap] in H.
        destruct (in_dec Nat.eq_dec r (map fst B)) as [Hi|Hi].
        * destruct (nth_error (vv_free (heap s) (map fst B)) r) as [[w|]|] eqn:E; try discriminate.
          exfalso. eapply vv_free_in; eauto.
        * rewrite vv_free_other in H by auto. apply Hv in H. rewrite Hl, !in_app_iff in H.
          rewrite in_app_iff. destruct H as [H|[H|H]]; auto.
          exfalso. apply Hi. change r with (fst (r, v)). apply in_map; auto.
      + intros H. unfold vv_deref. cbn [heap].
        assert (Hr : ~ In r (map fst B)).
        { rewrite in_app_iff in H. destruct H as [H|H].
          - intros Hb. apply (HdABC r); [change r with (fst (r, v)); apply in_map; auto|].
            rewrite in_app_iff; auto.
          - intros Hb. apply (HdBC r); auto. change r with (fst (r, v)); apply in_map; auto. }
        rewrite vv_free_other by auto. apply Hv. rewrite Hl, !in_app_iff.
        rewrite in_app_iff in H. tauto.
  Qed.

  Lemma vv_run_rep ops : forall s l s', vv_rep s l -> vv_run s ops = Some s' ->
    vv_rep s' (vv_abs_run (length (heap s)) l ops).
  Proof.
    induction ops as [|o ops IH]; intros s l s' Hr Hs; simpl in Hs.
    - injection Hs as <-. exact Hr.
    - destruct (vv_step s o) as [s1|] eqn:E; [|discriminate].
      destruct (vv_step_rep _ _ _ _ Hr E) as (Hr1 & Hlen). cbn [vv_abs_run].
      rewrite <- Hlen. apply IH; auto.
  Qed.

  Lemma value_vector_lemma (ops : list (vv_op V)) s' : vv_run vv_init ops = Some s' ->
    let l := vv_abs_run 0 [] ops in
    (forall r v, vv_deref s' r = Some v <-> In (r, v) l) /\
    NoDup (map fst l) /\
    (forall i, vv_at s' i = option_map snd (nth_error l i)) /\ length (vdata s') = length l.
  Proof.
    intros H. destruct (vv_run_rep ops vv_init [] s' vv_rep_init H) as (Hd & Hn & Hlt & Hv).
    cbn zeta. cbn [heap vv_init length] in *. set (l := vv_abs_run 0 [] ops) in *. repeat split; auto; try apply Hv.
    - intros i. unfold vv_at. rewrite Hd.
      destruct (nth_error l i) as [[r v]|] eqn:E; simpl.
      + rewrite (map_nth_error fst _ _ E). simpl. apply Hv. eapply nth_error_In; eauto.
      + assert (nth_error (map fst l) i = None) as ->; auto.
        apply nth_error_None. rewrite map_length. apply nth_error_None. auto.
    - rewrite Hd, map_length. reflexivity.
  Qed.

  (** a reference survives everything but its own erasure and writes through it *)
  Lemma vv_reference_stable (ops1 ops2 : list (vv_op V)) s1 s2 r v :
    vv_run vv_init ops1 = Some s1 -> vv_run s1 ops2 = Some s2 ->
    vv_deref s1 r = Some v ->
    (forall w, ~ In (VvWrite r w) ops2) ->
    (forall from to, ~ In (VvErase from to) ops2) ->
    vv_deref s2 r = Some v.
  Proof.
    intros H1 H2 Hr Hw He.
    assert (Hrep : exists l, vv_rep s1 l) by (eexists; apply (vv_run_rep ops1 vv_init [] s1 vv_rep_init H1)).
    clear H1. revert s1 H2 Hr Hrep. induction ops2 as [|o ops2 IH]; intros s1 H2 Hr (l & Hrep); simpl in H2.
    - congruence.
    - destruct (vv_step s1 o) as [s'|] eqn:E; [|discriminate].
      destruct (vv_step_rep _ _ _ _ Hrep E) as (Hrep' & _).
      apply (IH ltac:(intros w Hi; apply (Hw w); simpl; auto) ltac:(intros a b Hi; apply (He a b); simpl; auto)
               s' H2); [|eauto].
      destruct Hrep as (_ & _ & _ & Hv). destruct Hrep' as (_ & _ & _ & Hv').
      apply Hv'. apply Hv in Hr. destruct o as [w|q w|a b]; cbn [vv_abs_step].
      + apply in_app_iff; auto.
      + apply in_map_iff. exists (r, v). split; auto. simpl.
        destruct (Nat.eqb_spec r q) as [->|]; auto. exfalso. apply (Hw w). simpl; auto.
      + exfalso. apply (He a b). simpl; auto.
  Qed.
End VV.
