(** * Proofs for C54 and C77 *)
From Coq Require Import String Ascii List Arith Reals Lia DecimalString.
From Coq Require DecimalNat.
From Verif Require Import PvdModel PvdSpec.
Import ListNotations.
Local Open Scope list_scope.

Lemma txt_inj a b : txt a = txt b -> a = b.
Proof. intros H. rewrite <- (string_of_list_ascii_of_string a), <- (string_of_list_ascii_of_string b). unfold txt in H. rewrite H. reflexivity. Qed.
Lemma pvd_name_inj v w : pvd_name v = pvd_name w -> v = w.
Proof. unfold pvd_name. apply app_inv_tail. Qed.
Lemma last_char (a b : text) x y : a ++ [x] = b ++ [y] -> x = y.
Proof. intros H. apply app_inj_tail in H. apply H. Qed.
Lemma vtu_not_pvd v k w : vtu_name v k <> pvd_name w.
Proof.
  unfold vtu_name, pvd_name. change (txt ".vtu") with (txt ".vt" ++ txt "u"). change (txt ".pvd") with (txt ".pv" ++ txt "d").
  rewrite !app_assoc. intros H. apply last_char in H. discriminate H.
Qed.
Lemma digits_inj k l : digits k = digits l -> k = l.
Proof.
  unfold digits. intros H. apply txt_inj in H. assert (E : Nat.to_uint k = Nat.to_uint l).
  { apply (f_equal NilEmpty.uint_of_string) in H. rewrite !NilEmpty.usu in H. congruence. }
  rewrite <- (DecimalNat.Unsigned.of_to k), <- (DecimalNat.Unsigned.of_to l), E. reflexivity.
Qed.
Lemma vtu_step_inj v k l : vtu_name v k = vtu_name v l -> k = l.
Proof. unfold vtu_name. intros H. apply app_inv_head, app_inv_tail in H. apply digits_inj, H. Qed.

Lemma digits_are_digits k : Forall is_digit (digits k).
Proof.
  unfold digits, txt. generalize (Nat.to_uint k). intros u.
  induction u; cbn [NilEmpty.string_of_uint list_ascii_of_string]; constructor; try assumption; unfold is_digit; cbn; lia.
Qed.
(** names without a digit at the end *)
Definition no_digit_end (v : text) : Prop := forall w a, v = w ++ [a] -> ~ is_digit a.
Lemma split_unique (v w a b : text) : no_digit_end v -> no_digit_end w -> Forall is_digit a -> Forall is_digit b -> v ++ a = w ++ b -> v = w /\ a = b.
Proof.
  intros Hv Hw Ha. revert b. induction a as [|x a IH] using rev_ind; intros b Hb E.
  - rewrite app_nil_r in E. destruct b as [|y b _] using rev_ind; [rewrite app_nil_r in E; auto|].
    exfalso. rewrite app_assoc in E. apply (Hv _ _ E). apply Forall_app in Hb. destruct Hb as (_ & Hb). inversion Hb; assumption.
  - apply Forall_app in Ha. destruct Ha as (Ha & Hx). destruct b as [|y b _] using rev_ind.
    + exfalso. rewrite app_nil_r, app_assoc in E. symmetry in E. apply (Hw _ _ E). inversion Hx; assumption.
    + rewrite !app_assoc in E. apply app_inj_tail in E. destruct E as (E & ->). apply Forall_app in Hb. destruct Hb as (Hb & _).
      destruct (IH Ha b Hb E) as (-> & ->). auto.
Qed.
Lemma vtu_name_inj v k w l : no_digit_end v -> no_digit_end w -> vtu_name v k = vtu_name w l -> v = w /\ k = l.
Proof.
  unfold vtu_name. intros Hv Hw H. rewrite !app_assoc in H. apply app_inv_tail in H.
  destruct (split_unique v w _ _ Hv Hw (digits_are_digits k) (digits_are_digits l) H) as (-> & E). split; [reflexivity|apply digits_inj, E].
Qed.

Section Proofs.
  Variable fmt : R -> text.
  Variable usable : text -> bool.

  Lemma write_same f d n c : write_file f d n c d n = Some c.
  Proof. unfold write_file. destruct (text_eq_dec d d); [|congruence]. destruct (text_eq_dec n n); [reflexivity|congruence]. Qed.
  Lemma write_other f d n c d' n' : (d', n') <> (d, n) -> write_file f d n c d' n' = f d' n'.
  Proof.
    intros H. unfold write_file. destruct (text_eq_dec d' d) as [->|]; [|reflexivity]. destruct (text_eq_dec n' n) as [->|]; [congruence|reflexivity].
  Qed.

  Lemma add_first v k t c : add_to_pvd fmt None (vtu_name v k) t = collection fmt v [mkEntry k t c].
  Proof. unfold add_to_pvd, collection. cbn [flat_map e_step e_time]. rewrite app_nil_r. reflexivity. Qed.
  Lemma add_next v l k t c : add_to_pvd fmt (Some (collection fmt v l)) (vtu_name v k) t = collection fmt v (l ++ [mkEntry k t c]).
  Proof.
    set (a := pvd_begin ++ flat_map (fun e => pvd_entry fmt (vtu_name v (e_step e)) (e_time e)) l).
    assert (Ec : collection fmt v l = a ++ pvd_end) by (unfold collection, a; rewrite app_assoc; reflexivity). rewrite Ec. unfold add_to_pvd.
    assert (La : length (a ++ pvd_end) = length a + length pvd_end) by apply app_length.
    destruct (Nat.ltb_spec (length (a ++ pvd_end)) (length pvd_end)); [lia|].
    replace (length (a ++ pvd_end) - length pvd_end) with (length a) by lia.
    unfold write_at. rewrite firstn_app, Nat.sub_diag, firstn_all. cbn [firstn]. rewrite app_nil_r.
    rewrite skipn_all2 by (rewrite !app_length; lia). unfold collection, a. rewrite flat_map_app. cbn [flat_map e_step e_time].
    rewrite !app_nil_r, <- !app_assoc. reflexivity.
  Qed.

  (** the loop of Plot *)
  Definition written (out : text -> option text) (names : list text) (v : text) : option text :=
    match filter (fun p => if text_eq_dec (fst p) v then true else false) (plotted out names) with p :: _ => Some (snd p) | [] => None end.
  Lemma plotted_in out names v c : In (v, c) (plotted out names) -> In v names /\ out v = Some c.
  Proof.
    induction names as [|w l IH]; [contradiction|]. cbn [plotted]. destruct (out w) as [c'|] eqn:E; [|contradiction].
    intros [H|H]; [injection H as -> ->; split; [left; reflexivity|exact E]|]. destruct (IH H). split; [right; assumption|assumption].
  Qed.
  Lemma filter_plotted out names v : NoDup names ->
    filter (fun p => if text_eq_dec (fst p) v then true else false) (plotted out names) = [] \/
    exists c, out v = Some c /\ In v names /\ filter (fun p => if text_eq_dec (fst p) v then true else false) (plotted out names) = [(v, c)].
  Proof.
    induction names as [|w l IH]; intros Hn; [left; reflexivity|]. inversion Hn as [|? ? Hw Hl]; subst. cbn [plotted].
    destruct (out w) as [c|] eqn:E; [|left; reflexivity]. cbn [filter fst]. destruct (text_eq_dec w v) as [->|Hne].
    - right. exists c. split; [exact E|]. split; [left; reflexivity|]. f_equal. destruct (IH Hl) as [->|(c' & _ & Hi & _)]; [reflexivity|contradiction].
    - destruct (IH Hl) as [->|(c' & H1 & H2 & ->)]; [left; reflexivity|]. right. exists c'. split; [exact H1|]. split; [right; exact H2|reflexivity].
  Qed.

  Lemma loop_finished d step t out names f : snd (plot_loop fmt d step t out names f) = Nat.eqb (length (plotted out names)) (length names).
  Proof.
    revert f. induction names as [|v l IH]; intros f; [reflexivity|]. cbn [plot_loop plotted]. destruct (out v); [|reflexivity]. rewrite IH. reflexivity.
  Qed.
  Lemma loop_other_dir d step t out names f d' n : d' <> d -> fst (plot_loop fmt d step t out names f) d' n = f d' n.
  Proof.
    intros Hd. revert f. induction names as [|v l IH]; intros f; [reflexivity|]. cbn [plot_loop]. destruct (out v); [|reflexivity].
    rewrite IH, !write_other by congruence. reflexivity.
  Qed.
  Lemma loop_pvd d step t out names f v : NoDup names ->
    fst (plot_loop fmt d step t out names f) d (pvd_name v)
    = match filter (fun p => if text_eq_dec (fst p) v then true else false) (plotted out names) with
      | [] => f d (pvd_name v)
      | _ :: _ => Some (add_to_pvd fmt (f d (pvd_name v)) (vtu_name v step) t)
      end.
  Proof.
    revert f. induction names as [|w l IH]; intros f Hn; [reflexivity|]. inversion Hn as [|? ? Hw Hl]; subst. cbn [plot_loop plotted].
    destruct (out w) as [c|] eqn:E; [|reflexivity]. rewrite IH by exact Hl. cbn [filter fst]. destruct (text_eq_dec w v) as [->|Hne].
    - destruct (filter_plotted out l v Hl) as [->|(c' & _ & Hi & _)]; [|contradiction]. rewrite write_same. do 2 f_equal.
      apply write_other. intros X. injection X as X. symmetry in X. exact (vtu_not_pvd _ _ _ X).
    - assert (K : write_file (write_file f d (vtu_name w step) c) d (pvd_name w) (add_to_pvd fmt (write_file f d (vtu_name w step) c d (pvd_name w)) (vtu_name w step) t) d (pvd_name v) = f d (pvd_name v)).
      { rewrite write_other by (intros X; injection X as X; apply pvd_name_inj in X; congruence).
        apply write_other. intros X. injection X as X. symmetry in X. exact (vtu_not_pvd _ _ _ X). }
      rewrite K. reflexivity.
  Qed.

  Lemma insert_in v w l : In v (insert_name w l) <-> v = w \/ In v l.
  Proof.
    induction l as [|x l IH]; cbn [insert_name]; [cbn; intuition|]. destruct (text_ltb w x); cbn; [intuition|]. rewrite IH. cbn. intuition.
  Qed.
  Lemma insert_nodup w l : ~ In w l -> NoDup l -> NoDup (insert_name w l).
  Proof.
    induction l as [|x l IH]; intros Hw Hn; cbn [insert_name]; [constructor; [auto|constructor]|].
    destruct (text_ltb w x); [constructor; assumption|]. inversion Hn as [|? ? Hx Hl]; subst. constructor.
    - rewrite insert_in. intros [->|H]; [apply Hw; left; reflexivity|contradiction].
    - apply IH; [intros H; apply Hw; right; exact H|exact Hl].
  Qed.

  Definition pvd_file (f : text -> text -> option text) (d v : text) (l : list entry) : Prop :=
    f d (pvd_name v) = match l with [] => None | _ => Some (collection fmt v l) end.
  Record agree (h : list call) (s : pp) (l : log) : Prop := mkAgree {
    ag_dir : pp_dir s = l_dir l; ag_step : pp_step s = l_step l; ag_names : pp_names s = l_names l; ag_nodup : NoDup (l_names l);
    ag_used : l_dir l = [] \/ used usable h (l_dir l);
    ag_files : forall d v, used usable h d -> pvd_file (pp_files s) d v (l_entries l d v)
  }.
  Lemma used_snoc h c d : used usable (h ++ [c]) d -> used usable h d \/ c = ResultDirectory d /\ d <> [] /\ usable d = true.
  Proof. intros (H & Hn & Hu). apply in_app_iff in H. destruct H as [H|[H|[]]]; [left; split; auto|right; auto]. Qed.
  Lemma used_app h c d : used usable h d -> used usable (h ++ [c]) d.
  Proof. intros (H & Hn). split; [apply in_app_iff; left; exact H|exact Hn]. Qed.

  Lemma call_agree h s l c : agree h s l -> agree (h ++ [c]) (pp_call fmt usable s c) (log_call usable l c).
  Proof.
    intros [Hd Hs Hn Hnd Hu Hf]. destruct c as [d|v|t out]; cbn [pp_call log_call].
    - destruct (orb (Nat.eqb (length d) 0) (negb (usable d))) eqn:E.
      + constructor; auto.
        * destruct Hu as [Hu|Hu]; [left; exact Hu|right; apply used_app; exact Hu].
        * intros d' v Hd'. apply used_snoc in Hd'. destruct Hd' as [Hd'|(X & Hne & Hus)]; [apply Hf; exact Hd'|]. injection X as ->.
          exfalso. rewrite Hus in E. destruct d'; [congruence|discriminate E].
      + apply Bool.orb_false_iff in E. destruct E as (E1 & E2). apply Nat.eqb_neq in E1. apply Bool.negb_false_iff in E2.
        constructor; cbn [pp_dir pp_step pp_names pp_files l_dir l_step l_names l_entries]; auto.
        * right. split; [apply in_app_iff; right; left; reflexivity|]. split; [|exact E2]. intros ->. apply E1. reflexivity.
        * intros d' v Hd'. unfold pvd_file. destruct (text_eq_dec d' d) as [->|Hne]; [reflexivity|].
          apply Hf. apply used_snoc in Hd'. destruct Hd' as [Hd'|(X & _)]; [exact Hd'|]. injection X as ->. congruence.
    - rewrite Hn. assert (Hf' : forall d w, used usable (h ++ [DefineVisualizer v]) d -> pvd_file (pp_files s) d w (l_entries l d w)).
      { intros d w Hd'. apply Hf. apply used_snoc in Hd'. destruct Hd' as [Hd'|(X & _)]; [exact Hd'|discriminate X]. }
      destruct (in_dec text_eq_dec v (l_names l)) as [Hi|Hi]; constructor; cbn [pp_dir pp_step pp_names pp_files l_dir l_step l_names l_entries]; auto;
        try (destruct Hu as [Hu|Hu]; [left; exact Hu|right; apply used_app; exact Hu]).
      apply insert_nodup; assumption.
    - rewrite Hd. destruct (Nat.eqb_spec (length (l_dir l)) 0) as [E|E].
      + constructor; auto; [destruct Hu as [Hu|Hu]; [left; exact Hu|right; apply used_app; exact Hu]|].
        intros d w Hd'. apply Hf. apply used_snoc in Hd'. destruct Hd' as [Hd'|(X & _)]; [exact Hd'|discriminate X].
      + pose proof (loop_finished (l_dir l) (pp_step s) t out (pp_names s) (pp_files s)) as L1.
        pose proof (fun v => loop_pvd (l_dir l) (pp_step s) t out (pp_names s) (pp_files s) v) as L2.
        pose proof (loop_other_dir (l_dir l) (pp_step s) t out (pp_names s) (pp_files s)) as L3.
        destruct (plot_loop fmt (l_dir l) (pp_step s) t out (pp_names s) (pp_files s)) as (f & fin). cbn [fst snd] in *. subst fin.
        rewrite Hn, Hs in *. constructor; cbn [pp_dir pp_step pp_names pp_files l_dir l_step l_names l_entries]; auto.
        * destruct Hu as [Hu|Hu]; [left; exact Hu|right; apply used_app; exact Hu].
        * intros d v Hd'. apply used_snoc in Hd'. destruct Hd' as [Hd'|(X & _)]; [|discriminate X]. specialize (Hf d v Hd').
          unfold pvd_file in *. destruct (text_eq_dec d (l_dir l)) as [->|Hne].
          -- rewrite L2 by exact Hnd. destruct (filter_plotted out (l_names l) v Hnd) as [->|(c & _ & _ & ->)].
             ++ cbn [map]. rewrite app_nil_r. exact Hf.
             ++ cbn [map snd]. rewrite Hf. destruct (l_entries l (l_dir l) v) as [|e es].
                ** cbn [app]. f_equal. apply add_first.
                ** cbn [app]. f_equal. apply (add_next v (e :: es)).
          -- rewrite L3 by exact Hne. rewrite app_nil_r. exact Hf.
  Qed.

  Lemma run_agree files h : agree h (pp_run fmt usable files h) (log_run usable h).
  Proof.
    induction h as [|c h IH] using rev_ind.
    - constructor; try reflexivity; [constructor|left; reflexivity|]. intros d v (H & _). contradiction.
    - unfold pp_run, log_run in *. rewrite !fold_left_app. apply call_agree. exact IH.
  Qed.

  (** ** The result files *)
  Record files_ok (s : pp) (l : log) (h : list call) : Prop := mkFo {
    fo_steps : forall d v e, In e (l_entries l d v) -> e_step e < l_step l;
    fo_names : forall d v e, In e (l_entries l d v) -> In v (l_names l);
    fo_distinct : forall d v i j e e', nth_error (l_entries l d v) i = Some e -> nth_error (l_entries l d v) j = Some e' -> e_step e = e_step e' -> i = j;
    fo_files : forall d v e, In e (l_entries l d v) -> pp_files s d (vtu_name v (e_step e)) = Some (e_content e)
  }.

  Lemma loop_vtu_kept d step t out names f n : (forall v, In v names -> n <> vtu_name v step /\ n <> pvd_name v) ->
    fst (plot_loop fmt d step t out names f) d n = f d n.
  Proof.
    revert f. induction names as [|v l IH]; intros f H; [reflexivity|]. cbn [plot_loop]. destruct (out v); [|reflexivity].
    rewrite IH by (intros w Hw; apply H; right; exact Hw). destruct (H v (or_introl eq_refl)). rewrite !write_other by congruence. reflexivity.
  Qed.
  Lemma loop_vtu_new d step t out names f v c : NoDup names -> (forall w, In w names -> no_digit_end w) -> In (v, c) (plotted out names) ->
    fst (plot_loop fmt d step t out names f) d (vtu_name v step) = Some c.
  Proof.
    revert f. induction names as [|w l IH]; intros f Hn Hd Hin; [contradiction|]. inversion Hn as [|? ? Hw Hl]; subst. cbn [plot_loop plotted] in *.
    destruct (out w) as [c'|] eqn:E; [|contradiction]. destruct Hin as [X|Hin].
    - injection X as -> ->. rewrite loop_vtu_kept.
      + rewrite write_other by (intros X; injection X as X; exact (vtu_not_pvd _ _ _ X)). apply write_same.
      + intros u Hu. split; [|apply vtu_not_pvd]. intros X. apply vtu_name_inj in X; [|apply Hd; left; reflexivity|apply Hd; right; exact Hu]. destruct X as (-> & _). contradiction.
    - apply IH; [exact Hl|intros u Hu; apply Hd; right; exact Hu|exact Hin].
  Qed.
  Lemma plotted_all out names : (forall v, out v <> None) -> length (plotted out names) = length names.
  Proof. intros H. induction names as [|v l IH]; [reflexivity|]. cbn [plotted]. destruct (out v) eqn:E; [cbn [length]; rewrite IH; reflexivity|destruct (H v E)]. Qed.

  Lemma names_defined h : forall v, In v (l_names (log_run usable h)) -> In (DefineVisualizer v) h.
  Proof.
    induction h as [|c h IH] using rev_ind; intros v H; [contradiction|]. unfold log_run in *. rewrite fold_left_app in H. cbn [fold_left] in H.
    apply in_app_iff. destruct c as [d|w|t out]; cbn [log_call] in H.
    - left. apply IH. destruct (orb _ _); exact H.
    - destruct (in_dec text_eq_dec w _); [left; apply IH; exact H|]. cbn [l_names] in H. apply insert_in in H. destruct H as [->|H]; [right; left; reflexivity|left; apply IH; exact H].
    - left. apply IH. destruct (Nat.eqb _ 0); exact H.
  Qed.

  Lemma run_files files h : (forall v, In (DefineVisualizer v) h -> no_digit_end v) -> (forall c, In c h -> no_failure c) ->
    files_ok (pp_run fmt usable files h) (log_run usable h) h.
  Proof.
    induction h as [|c h IH] using rev_ind; intros Hd Hnf.
    - constructor; cbn; try contradiction. intros d v i j e e' H. destruct i; discriminate.
    - assert (Hd' : forall v, In (DefineVisualizer v) h -> no_digit_end v) by (intros v Hv; apply Hd, in_app_iff; left; exact Hv).
      assert (Hnf' : forall c, In c h -> no_failure c) by (intros c' Hc; apply Hnf, in_app_iff; left; exact Hc).
      destruct (IH Hd' Hnf') as [F1 F2 F3 F4]. destruct (run_agree files h) as [Ad As An And Au Af]. pose proof (names_defined h) as Nd.
      assert (Hc : In c (h ++ [c])) by (apply in_app_iff; right; left; reflexivity). specialize (Hnf c Hc). clear Hc.
      unfold pp_run, log_run in *. rewrite !fold_left_app. cbn [fold_left].
      set (s := fold_left (pp_call fmt usable) h _) in *. set (l := fold_left (log_call usable) h _) in *.
      destruct c as [d|v|t out]; cbn [pp_call log_call].
      + destruct (orb _ _); [constructor; assumption|]. constructor; cbn [pp_files l_entries l_step l_names];
          intros d' w; destruct (text_eq_dec d' d) as [->|Hne]; eauto; try contradiction. intros i j e e' H. destruct i; discriminate.
      + rewrite An. destruct (in_dec text_eq_dec v (l_names l)); [constructor; assumption|].
        constructor; cbn [pp_files l_entries l_step l_names]; eauto. intros d w e He. apply insert_in. right. eauto.
      + rewrite Ad. destruct (Nat.eqb_spec (length (l_dir l)) 0); [constructor; assumption|].
        assert (Hdig : forall w, In w (pp_names s) -> no_digit_end w) by (rewrite An; intros w Hw; apply Hd', Nd; exact Hw).
        pose proof (fun n H => loop_vtu_kept (l_dir l) (pp_step s) t out (pp_names s) (pp_files s) n H) as K1.
        pose proof (fun v c H1 H2 H3 => loop_vtu_new (l_dir l) (pp_step s) t out (pp_names s) (pp_files s) v c H1 H2 H3) as K2.
        pose proof (fun d n H => loop_other_dir (l_dir l) (pp_step s) t out (pp_names s) (pp_files s) d n H) as K3.
        destruct (plot_loop fmt (l_dir l) (pp_step s) t out (pp_names s) (pp_files s)) as (f & fin). cbn [fst] in *.
        cbn [no_failure] in Hnf. rewrite (plotted_all out (l_names l) Hnf), Nat.eqb_refl. rewrite An, As in *.
        constructor; cbn [pp_files l_entries l_step l_names].
        * intros d v e He. apply in_app_iff in He. destruct He as [He|He]; [specialize (F1 _ _ _ He); lia|].
          destruct (text_eq_dec d (l_dir l)); [|contradiction]. apply in_map_iff in He. destruct He as (p & <- & _). cbn. lia.
        * intros d v e He. apply in_app_iff in He. destruct He as [He|He]; [eauto|].
          destruct (text_eq_dec d (l_dir l)); [|contradiction]. destruct (filter_plotted out (l_names l) v And) as [E|(c & _ & Hi & _)]; [rewrite E in He; contradiction|exact Hi].
        * intros d v i j e e' Hi Hj Hs. destruct (text_eq_dec d (l_dir l)) as [->|Hne].
          -- destruct (filter_plotted out (l_names l) v And) as [E|(c & _ & _ & E)]; rewrite E in Hi, Hj; cbn [map] in Hi, Hj.
             ++ rewrite app_nil_r in Hi, Hj. eapply F3; eassumption.
             ++ assert (X : forall i e, nth_error (l_entries l (l_dir l) v ++ [mkEntry (l_step l) t (snd (v, c))]) i = Some e ->
                   (nth_error (l_entries l (l_dir l) v) i = Some e /\ e_step e < l_step l) \/ (i = length (l_entries l (l_dir l) v) /\ e_step e = l_step l)).
                { intros i0 e0 H. destruct (lt_dec i0 (length (l_entries l (l_dir l) v))) as [L|L].
                  - rewrite nth_error_app1 in H by exact L. left. split; [exact H|]. apply (F1 (l_dir l) v). eapply nth_error_In, H.
                  - rewrite nth_error_app2 in H by lia. destruct (i0 - length (l_entries l (l_dir l) v)) as [|m] eqn:Em; [|destruct m; discriminate].
                    right. split; [lia|]. cbn in H. injection H as <-. reflexivity. }
                destruct (X _ _ Hi) as [(A & B)|(A & B)], (X _ _ Hj) as [(A' & B')|(A' & B')]; try lia. eapply F3; eassumption.
          -- rewrite app_nil_r in Hi, Hj. eapply F3; eassumption.
        * intros d v e He. apply in_app_iff in He. destruct He as [He|He].
          -- pose proof (F1 _ _ _ He) as Hs. pose proof (F2 _ _ _ He) as Hv. destruct (text_eq_dec d (l_dir l)) as [->|Hne].
             ++ rewrite K1; [apply F4; exact He|]. intros w Hw. split; [|apply vtu_not_pvd]. intros X.
                apply vtu_name_inj in X; [|apply Hdig; exact Hv|apply Hdig; exact Hw]. lia.
             ++ rewrite K3 by exact Hne. apply F4. exact He.
          -- destruct (text_eq_dec d (l_dir l)) as [->|]; [|contradiction].
             destruct (filter_plotted out (l_names l) v And) as [E|(c & Ho & Hi & E)]; rewrite E in He; [contradiction|]. cbn [map] in He. destruct He as [<-|[]].
             cbn [e_step e_content snd]. apply K2; [exact And|exact Hdig|].
             apply (filter_In (fun p => if text_eq_dec (fst p) v then true else false)). rewrite E. left. reflexivity.
  Qed.
End Proofs.
