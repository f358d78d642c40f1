(** * C113: the program is killed during Plot *)
From Coq Require Import String Ascii List Arith Reals Lia.
From Verif Require Import PvdModel PvdSpec PvdRead PvdProofs PropPvd CrashModel.
Import ListNotations.
Local Open Scope list_scope.

Section Lemmas.
  Variable fmt : R -> text.

  Lemma write_moment f d n base p data g : In g (write_moments f d n base p data) ->
    exists k, k <= length data /\ g = write_file f d n (write_at base p (firstn k data)).
  Proof. intros H. apply in_map_iff in H. destruct H as (k & <- & Hk). apply in_seq in Hk. exists k. split; [lia|reflexivity]. Qed.

  Lemma vtu_pvd f d v k c w : write_file f d (vtu_name v k) c d (pvd_name w) = f d (pvd_name w).
  Proof. apply write_other. intros X. injection X as X. symmetry in X. exact (vtu_not_pvd _ _ _ X). Qed.
  Lemma pvd_vtu f d v c w k : write_file f d (pvd_name v) c d (vtu_name w k) = f d (vtu_name w k).
  Proof. apply write_other. intros X. injection X as X. exact (vtu_not_pvd _ _ _ X). Qed.
  Lemma pvd_pvd f d v c w : w <> v -> write_file f d (pvd_name v) c d (pvd_name w) = f d (pvd_name w).
  Proof. intros H. apply write_other. intros X. injection X as X. apply pvd_name_inj in X. congruence. Qed.

  (** the .pvd file while one entry is added *)
  Definition growing (old : option text) (entry : text) (now : option text) : Prop :=
    match old with
    | None => exists k, k <= length (pvd_begin ++ entry ++ pvd_end) /\ now = Some (firstn k (pvd_begin ++ entry ++ pvd_end))
    | Some c => length pvd_end <= length c /\
        exists k, k <= length (entry ++ pvd_end) /\ now = Some (write_at c (length c - length pvd_end) (firstn k (entry ++ pvd_end)))
    end.

  Lemma pvd_moment f d v vtu t g : In g (pvd_moments fmt f d (pvd_name v) vtu t) ->
    (g = f \/ exists c, g = write_file f d (pvd_name v) c) /\
    (g d (pvd_name v) = f d (pvd_name v) \/ growing (f d (pvd_name v)) (pvd_entry fmt vtu t) (g d (pvd_name v))).
  Proof.
    unfold pvd_moments. destruct (f d (pvd_name v)) as [c|] eqn:E.
    - destruct (Nat.ltb_spec (length c) (length pvd_end)) as [L|L].
      + intros [<-|[]]. split; left; [reflexivity|exact E].
      + intros H. apply write_moment in H. destruct H as (k & Hk & ->). split; [right; eexists; reflexivity|]. right. split; [lia|]. exists k. split; [exact Hk|apply write_same].
    - intros H. apply write_moment in H. destruct H as (k & Hk & ->). split; [right; eexists; reflexivity|]. right. exists k. split; [exact Hk|].
      rewrite write_same. unfold write_at. rewrite skipn_nil, app_nil_r. reflexivity.
  Qed.
  Lemma added_grown (f : text -> text -> option text) d v vtu t : f d (pvd_name v) = Some (add_to_pvd fmt (f d (pvd_name v)) vtu t) \/
    growing (f d (pvd_name v)) (pvd_entry fmt vtu t) (Some (add_to_pvd fmt (f d (pvd_name v)) vtu t)).
  Proof.
    destruct (f d (pvd_name v)) as [c|]; unfold add_to_pvd, growing.
    - destruct (Nat.ltb_spec (length c) (length pvd_end)); [left; reflexivity|right]. split; [assumption|].
      eexists. split; [apply Nat.le_refl|]. rewrite firstn_all. reflexivity.
    - right. eexists. split; [apply Nat.le_refl|]. rewrite firstn_all. reflexivity.
  Qed.

  Lemma moments_other_dir d step t out names : forall f g d' n, d' <> d -> In g (plot_moments fmt d step t out names f) -> g d' n = f d' n.
  Proof.
    induction names as [|v l IH]; intros f g d' n Hd H; cbn [plot_moments] in H; [destruct H as [<-|[]]; reflexivity|].
    destruct (out v) as [c|]; [|destruct H as [<-|[]]; reflexivity]. cbv zeta in H. rewrite !in_app_iff in H. destruct H as [[<-|[]]|[H|[H|H]]]; [reflexivity|..].
    - apply write_moment in H. destruct H as (k & _ & ->). apply write_other. congruence.
    - apply pvd_moment in H. destruct H as ([->|(c' & ->)] & _); rewrite !write_other by congruence; reflexivity.
    - rewrite (IH _ _ _ _ Hd H), !write_other by congruence. reflexivity.
  Qed.
  Lemma moments_kept d step t out names : forall f g n, (forall v, In v names -> n <> vtu_name v step /\ n <> pvd_name v) ->
    In g (plot_moments fmt d step t out names f) -> g d n = f d n.
  Proof.
    induction names as [|v l IH]; intros f g n Hn H; cbn [plot_moments] in H; [destruct H as [<-|[]]; reflexivity|].
    destruct (Hn v (or_introl eq_refl)) as (N1 & N2).
    destruct (out v) as [c|]; [|destruct H as [<-|[]]; reflexivity]. cbv zeta in H. rewrite !in_app_iff in H. destruct H as [[<-|[]]|[H|[H|H]]]; [reflexivity|..].
    - apply write_moment in H. destruct H as (k & _ & ->). apply write_other. congruence.
    - apply pvd_moment in H. destruct H as ([->|(c' & ->)] & _); rewrite !write_other by congruence; reflexivity.
    - rewrite (IH _ _ n (fun w Hw => Hn w (or_intror Hw)) H), !write_other by congruence. reflexivity.
  Qed.

  Lemma moments_pvd d step t out names : NoDup names -> forall f g v, In g (plot_moments fmt d step t out names f) ->
    g d (pvd_name v) = f d (pvd_name v) \/
    (In v names /\ growing (f d (pvd_name v)) (pvd_entry fmt (vtu_name v step) t) (g d (pvd_name v)) /\
     exists c, out v = Some c /\ ((forall w, In w names -> no_digit_end w) -> g d (vtu_name v step) = Some c)).
  Proof.
    induction names as [|w l IH]; intros Hn f g v H; cbn [plot_moments] in H; [destruct H as [<-|[]]; left; reflexivity|].
    inversion Hn as [|? ? Hw Hl]; subst.
    destruct (out w) as [c|] eqn:Eo; [|destruct H as [<-|[]]; left; reflexivity]. cbv zeta in H. rewrite !in_app_iff in H. destruct H as [[<-|[]]|[H|[H|H]]]; [left; reflexivity|..].
    - apply write_moment in H. destruct H as (k & _ & ->). left. apply vtu_pvd.
    - apply pvd_moment in H. destruct H as (S & G). destruct (text_eq_dec v w) as [->|Hne].
      + rewrite vtu_pvd in G. destruct G as [G|G]; [left; exact G|right]. split; [left; reflexivity|]. split; [exact G|]. exists c. split; [exact Eo|]. intros _.
        destruct S as [->|(c' & ->)]; [|rewrite pvd_vtu]; apply write_same.
      + left. destruct S as [->|(c' & ->)]; [|rewrite pvd_pvd by exact Hne]; apply vtu_pvd.
    - destruct (text_eq_dec v w) as [->|Hne].
      + destruct (IH Hl _ _ w H) as [E|(Hi & _)]; [|contradiction]. rewrite write_same, vtu_pvd in E.
        destruct (added_grown f d w (vtu_name w step) t) as [A|A]; [left; rewrite E; symmetry; exact A|right].
        rewrite E. split; [left; reflexivity|]. split; [exact A|]. exists c. split; [exact Eo|]. intros Hd.
        rewrite (moments_kept d step t out l _ g (vtu_name w step)) with (2 := H).
        * rewrite pvd_vtu. apply write_same.
        * intros u Hu. split; [|apply vtu_not_pvd]. intros X. apply vtu_name_inj in X; [|apply Hd; left; reflexivity|apply Hd; right; exact Hu]. destruct X as (-> & _). contradiction.
      + destruct (IH Hl _ _ v H) as [E|(Hi & G & c' & O & V)].
        * left. rewrite E, pvd_pvd by exact Hne. apply vtu_pvd.
        * right. rewrite pvd_pvd, vtu_pvd in G by exact Hne. split; [right; exact Hi|]. split; [exact G|]. exists c'. split; [exact O|].
          intros Hd. apply V. intros u Hu. apply Hd. right. exact Hu.
  Qed.

  Lemma start_moment d step t out names f : In f (plot_moments fmt d step t out names f).
  Proof. destruct names as [|v l]; cbn [plot_moments]; [left; reflexivity|]. destruct (out v); left; reflexivity. Qed.
  Lemma end_moment d step t out names : forall f, In (fst (plot_loop fmt d step t out names f)) (plot_moments fmt d step t out names f).
  Proof.
    induction names as [|v l IH]; intros f; cbn [plot_moments plot_loop]; [left; reflexivity|]. destruct (out v); [|left; reflexivity].
    cbv zeta. rewrite !in_app_iff. right; right; right. apply IH.
  Qed.
End Lemmas.

Definition entries_text (fmt : R -> text) (v : text) (l : list entry) : text :=
  flat_map (fun e => pvd_entry fmt (vtu_name v (e_step e)) (e_time e)) l.

Lemma crash_pvd fmt usable files h t out g d v : used usable h d ->
  In g (call_moments fmt (pp_run fmt usable files h) t out) ->
  let L := log_run usable h in let l := l_entries L d v in
  let new := pvd_entry fmt (vtu_name v (l_step L)) t in
  g d (pvd_name v) = match l with [] => None | _ => Some (collection fmt v l) end \/
  (exists c k, out v = Some c /\
     ((forall w, In (DefineVisualizer w) h -> no_digit_end w) -> g d (vtu_name v (l_step L)) = Some c) /\ d = l_dir L /\ In v (l_names L) /\
     match l with
     | [] => g d (pvd_name v) = Some (firstn k (pvd_begin ++ new ++ pvd_end))
     | _ => g d (pvd_name v) = Some (pvd_begin ++ entries_text fmt v l ++ firstn k (new ++ pvd_end) ++ skipn k pvd_end)
     end).
Proof.
  intros Hd Hg. cbv zeta. destruct (run_agree fmt usable files h) as [Ad As An And Au Af].
  unfold call_moments in Hg. rewrite Ad, As, An in Hg. set (L := log_run usable h) in *. specialize (Af d v Hd). unfold pvd_file in Af.
  set (s := pp_run fmt usable files h) in *. set (l := l_entries L d v) in *.
  destruct (Nat.eqb_spec (length (l_dir L)) 0) as [E|E]; [destruct Hg as [<-|[]]; left; exact Af|].
  destruct (text_eq_dec d (l_dir L)) as [Ed|Hne]; [|left; rewrite (moments_other_dir fmt _ _ _ _ _ _ _ _ _ Hne Hg); exact Af].
  rewrite <- Ed in Hg.
  destruct (moments_pvd fmt d (l_step L) t out (l_names L) And _ _ v Hg) as [G|(Hi & G & c & O & V)]; [left; rewrite G; exact Af|right].
  assert (V' : (forall w, In (DefineVisualizer w) h -> no_digit_end w) -> g d (vtu_name v (l_step L)) = Some c)
    by (intros Hw; apply V; intros w Hi'; apply Hw, (names_defined usable); exact Hi').
  rewrite Af in G. destruct l as [|e es] eqn:El; cbn [growing] in G.
  - destruct G as (k & Hk & G). exists c, k. auto.
  - destruct G as (_ & k & Hk & G). exists c, k. split; [exact O|]. split; [exact V'|]. split; [exact Ed|]. split; [exact Hi|]. rewrite G. f_equal.
    set (a := pvd_begin ++ entries_text fmt v (e :: es)).
    assert (Ec : collection fmt v (e :: es) = a ++ pvd_end) by (unfold collection, a, entries_text; rewrite app_assoc; reflexivity). rewrite Ec.
    rewrite app_length. replace (length a + length pvd_end - length pvd_end) with (length a) by lia.
    unfold write_at. rewrite firstn_app, Nat.sub_diag, firstn_all. cbn [firstn]. rewrite app_nil_r. unfold a at 1. rewrite <- !app_assoc. do 3 f_equal.
    rewrite skipn_app. rewrite skipn_all2 by lia. cbn [List.app]. rewrite firstn_length_le by exact Hk. f_equal. lia.
Qed.

(** C113.  Whatever the history of calls and wherever the next Plot is killed: a .pvd file with entries still begins with the header and all its entries, a
    new one is empty or the beginning of a collection; the files of other directories and of visualizers that do not exist are as before. *)
Theorem C113_entries_kept fmt usable files h t out killed d v : used usable h d ->
  In killed (call_moments fmt (pp_run fmt usable files h) t out) ->
  match l_entries (log_run usable h) d v with
  | [] => killed d (pvd_name v) = None \/
      exists new rest part, killed d (pvd_name v) = Some part /\ collection fmt v [new] = part ++ rest
  | l => exists rest, killed d (pvd_name v) = Some (pvd_begin ++ entries_text fmt v l ++ rest)
  end /\
  (d <> l_dir (log_run usable h) \/ ~ In v (l_names (log_run usable h)) ->
     killed d (pvd_name v) = pp_files (pp_run fmt usable files h) d (pvd_name v)).
Proof.
  intros Hd Hk. pose proof (C54_pvd_complete fmt usable files h d v Hd) as C.
  destruct (crash_pvd fmt usable files h t out killed d v Hd Hk) as [E|(c & k & O & V & Dd & Dv & E)].
  - rewrite E. split; [|intros _; rewrite C; destruct (l_entries (log_run usable h) d v); reflexivity]. destruct (l_entries (log_run usable h) d v) as [|e es]; [left; reflexivity|].
    exists pvd_end. reflexivity.
  - split; [|intros [H|H]; [destruct (H Dd)|destruct (H Dv)]].
    destruct (l_entries (log_run usable h) d v) as [|e es]; [right|].
    + exists (mkEntry (l_step (log_run usable h)) t c), (skipn k (collection fmt v [mkEntry (l_step (log_run usable h)) t c])). eexists. split; [exact E|].
      unfold collection. cbn [flat_map e_step e_time]. rewrite app_nil_r. symmetry. apply firstn_skipn.
    + eexists. exact E.
Qed.
Print Assumptions C113_entries_kept.

Lemma entry_long fmt vtu t : length pvd_end < length (pvd_entry fmt vtu t).
Proof.
  unfold pvd_entry. rewrite !app_length. change (length (txt "<DataSet timestep=")) with 18. change (length (txt " file=")) with 6. change (length (txt "/>")) with 2.
  change (length quote_char) with 1. change (length nl) with 1. change (length pvd_end) with 25. lia.
Qed.

(** An entry is complete in the .pvd file only when its result file has been written completely. *)
Theorem C113_result_file_first fmt usable files h t out killed d v rest : used usable h d ->
  (forall w, In (DefineVisualizer w) h -> no_digit_end w) ->
  In killed (call_moments fmt (pp_run fmt usable files h) t out) ->
  let l := log_run usable h in
  killed d (pvd_name v) = Some (pvd_begin ++ entries_text fmt v (l_entries l d v) ++ pvd_entry fmt (vtu_name v (l_step l)) t ++ rest) ->
  exists c, out v = Some c /\ killed d (vtu_name v (l_step l)) = Some c.
Proof.
  intros Hd Hw Hk l H. destruct (crash_pvd fmt usable files h t out killed d v Hd Hk) as [E|(c & k & O & V & _)].
  - exfalso. rewrite H in E. fold l in E. destruct (l_entries l d v) as [|e es]; [discriminate|].
    apply (f_equal (fun o => match o with Some x => length x | None => 0 end)) in E. cbv beta iota in E. unfold collection in E.
    change (flat_map _ (e :: es)) with (entries_text fmt v (e :: es)) in E. pose proof (entry_long fmt (vtu_name v (l_step l)) t) as L.
    rewrite !app_length in E. lia.
  - exists c. split; [exact O|exact (V Hw)].
Qed.
Print Assumptions C113_result_file_first.

(** The result files of the earlier steps stay complete (names and calls as in C77). *)
Theorem C113_results_kept fmt usable files h t out killed :
  (forall v, In (DefineVisualizer v) h -> no_digit_end v) -> (forall c, In c h -> no_failure c) ->
  In killed (call_moments fmt (pp_run fmt usable files h) t out) ->
  forall d v e, In e (l_entries (log_run usable h) d v) -> killed d (vtu_name v (e_step e)) = Some (e_content e).
Proof.
  intros Hd Hf Hk d v e He. destruct (run_files fmt usable files h Hd Hf) as [F1 F2 F3 F4]. destruct (run_agree fmt usable files h) as [Ad As An And Au Af].
  specialize (F4 d v e He). pose proof (F1 d v e He) as S. pose proof (F2 d v e He) as Hv.
  unfold call_moments in Hk. rewrite Ad, As, An in Hk. destruct (Nat.eqb_spec (length (l_dir (log_run usable h))) 0); [destruct Hk as [<-|[]]; exact F4|].
  destruct (text_eq_dec d (l_dir (log_run usable h))) as [E|Hne]; [|rewrite (moments_other_dir fmt _ _ _ _ _ _ _ _ _ Hne Hk); exact F4].
  rewrite <- E in Hk. rewrite (moments_kept fmt _ _ _ _ _ _ _ (vtu_name v (e_step e))) with (2 := Hk); [exact F4|].
  intros w Hw. split; [|apply vtu_not_pvd]. intros X. apply vtu_name_inj in X; [lia|apply Hd, (names_defined usable); exact Hv|apply Hd, (names_defined usable); exact Hw].
Qed.
Print Assumptions C113_results_kept.

(** before the first and after the last character: the states before and after the call *)
Theorem C113_first_and_last_moment fmt usable s t out :
  In (pp_files s) (call_moments fmt s t out) /\ In (pp_files (pp_call fmt usable s (Plot t out))) (call_moments fmt s t out).
Proof.
  unfold call_moments, pp_call. destruct (Nat.eqb (length (pp_dir s)) 0); [split; left; reflexivity|].
  pose proof (end_moment fmt (pp_dir s) (pp_step s) t out (pp_names s) (pp_files s)) as E.
  destruct (plot_loop fmt (pp_dir s) (pp_step s) t out (pp_names s) (pp_files s)) as (f & fin). cbn [pp_files]. split; [apply start_moment|exact E].
Qed.
Print Assumptions C113_first_and_last_moment.

(** But the file is not a readable collection at every moment: the end is overwritten before it is written again. *)
Definition one_step : list call := [ResultDirectory (txt "r"); DefineVisualizer (txt "a"); Plot 0 (fun _ => Some [])].
Theorem C113_readable_refuted :
  let fmt := fun _ : R => txt "0" in
  let s := pp_run fmt (fun _ => true) (fun _ _ => None) one_step in
  exists killed c, In killed (call_moments fmt s 1 (fun _ => Some [])) /\
    option_map read_collection (pp_files s (txt "r") (pvd_name (txt "a"))) = Some (Some [(txt "0", txt "a0.vtu")]) /\
    killed (txt "r") (pvd_name (txt "a")) = Some c /\ read_collection c = None.
Proof.
  intros fmt s.
  set (f1 := write_file (pp_files s) (txt "r") (vtu_name (txt "a") 1) []).
  set (old := pvd_begin ++ pvd_entry fmt (txt "a0.vtu") 0 ++ pvd_end).
  exists (write_file f1 (txt "r") (pvd_name (txt "a")) (write_at old (length old - length pvd_end) (firstn 20 (pvd_entry fmt (txt "a1.vtu") 1 ++ pvd_end)))).
  eexists. split; [|split; [reflexivity|split; [apply write_same|reflexivity]]].
  change (call_moments fmt s 1 (fun _ => Some [])) with (plot_moments fmt (txt "r") 1 1 (fun _ => Some []) [txt "a"] (pp_files s)).
  cbn [plot_moments]. rewrite !in_app_iff. right; right; left.
  unfold pvd_moments. change (write_file (pp_files s) (txt "r") (vtu_name (txt "a") 1) [] (txt "r") (pvd_name (txt "a"))) with (Some old). cbv iota.
  change (Nat.ltb (length old) (length pvd_end)) with false. cbv iota. unfold write_moments. apply in_map_iff. exists 20. split; [reflexivity|].
  apply in_seq. split; [lia|]. rewrite app_length. pose proof (entry_long fmt (txt "a1.vtu") 1). change (length pvd_end) with 25 in *. lia.
Qed.
Print Assumptions C113_readable_refuted.

(** a new file may be found empty *)
Theorem C113_empty_file_refuted :
  let fmt := fun _ : R => txt "0" in
  let s := pp_run fmt (fun _ => true) (fun _ _ => None) [ResultDirectory (txt "r"); DefineVisualizer (txt "a")] in
  exists killed, In killed (call_moments fmt s 0 (fun _ => Some [])) /\ killed (txt "r") (pvd_name (txt "a")) = Some [].
Proof.
  intros fmt s. exists (write_file (write_file (pp_files s) (txt "r") (vtu_name (txt "a") 0) []) (txt "r") (pvd_name (txt "a")) []). split; [|apply write_same].
  change (call_moments fmt s 0 (fun _ => Some [])) with (plot_moments fmt (txt "r") 0 0 (fun _ => Some []) [txt "a"] (pp_files s)).
  cbn [plot_moments]. rewrite !in_app_iff. right; right; left.
  unfold pvd_moments. change (write_file (pp_files s) (txt "r") (vtu_name (txt "a") 0) [] (txt "r") (pvd_name (txt "a"))) with (@None text). cbv iota.
  unfold write_moments. apply in_map_iff. exists 0. split; [reflexivity|]. apply in_seq. lia.
Qed.
Print Assumptions C113_empty_file_refuted.

(** the hypotheses of the theorems: the history [one_step], killed before the second Plot wrote anything *)
Example C113_case : used (fun _ => true) one_step (txt "r") /\ (forall v, In (DefineVisualizer v) one_step -> no_digit_end v) /\ (forall c, In c one_step -> no_failure c) /\
  length (l_entries (log_run (fun _ => true) one_step) (txt "r") (txt "a")) = 1.
Proof.
  split; [split; [left; reflexivity|split; [discriminate|reflexivity]]|]. split; [|split; [|reflexivity]].
  - intros v [H|[H|[H|[]]]]; try discriminate. injection H as <-. intros w a E. destruct w as [|x w]; [injection E as <-; unfold is_digit; cbn; lia|destruct w; discriminate].
  - intros c [<-|[<-|[<-|[]]]]; cbn; try exact I. discriminate.
Qed.

(** The moments are all there are: the first is the state before the call, the last the state after it, and from each to the
    next nothing changes, or one file is opened (and is empty then), or one character is put into one file. *)
From Coq Require Import Sorting.Sorted.
Definition one_write (before after : text -> text -> option text) : Prop :=
  (forall d n, after d n = before d n) \/
  exists d n, (forall d' n', (d', n') <> (d, n) -> after d' n' = before d' n') /\
    (after d n = Some [] \/
     exists c p a, p <= length c /\ before d n = Some c /\ after d n = Some (firstn p c ++ a :: skipn (S p) c)).

Lemma sorted_join {A} (R : A -> A -> Prop) l1 x y l2 : Sorted R (l1 ++ [x]) -> Sorted R (y :: l2) -> R x y -> Sorted R ((l1 ++ [x]) ++ y :: l2).
Proof.
  intros H1 H2 HR. induction l1 as [|a l IH]; cbn [app] in *; [constructor; [exact H2|constructor; exact HR]|].
  apply Sorted_inv in H1. destruct H1 as (S1 & S2). constructor; [apply IH; exact S1|].
  destruct l; cbn [app] in *; inversion S2; constructor; assumption.
Qed.
Lemma sorted_seq {A} (R : A -> A -> Prop) (F : nat -> A) m : forall a, (forall k, a <= k -> S k < a + m -> R (F k) (F (S k))) -> Sorted R (map F (seq a m)).
Proof.
  induction m as [|m IH]; intros a H; cbn [seq map]; [constructor|]. constructor; [apply IH; intros k H1 H2; apply H; lia|].
  destruct m; cbn [seq map]; constructor. apply H; lia.
Qed.
Lemma write_at_next c p d k : k < length d -> p <= length c -> exists a, write_at c p (firstn (S k) d)
  = firstn (p + k) (write_at c p (firstn k d)) ++ a :: skipn (S (p + k)) (write_at c p (firstn k d)).
Proof.
  intros Hk Hp. destruct (nth_error d k) as [a|] eqn:E; [|apply nth_error_None in E; lia]. exists a.
  assert (F : firstn (S k) d = firstn k d ++ [a]).
  { clear Hk. revert k E. induction d as [|b d IH]; intros [|k] E; try discriminate; [injection E as ->; reflexivity|]. cbn [firstn app]. f_equal. apply IH. exact E. }
  unfold write_at. rewrite F.
  assert (L : length (firstn p c) = p) by (rewrite firstn_length; lia).
  assert (Lk : length (firstn k d) = k) by (rewrite firstn_length; lia).
  rewrite app_length, Lk. cbn [length].
  assert (L2 : length (firstn p c ++ firstn k d) = p + k) by (rewrite app_length; lia).
  rewrite (app_assoc (firstn p c) (firstn k d) (skipn (p + k) c)).
  assert (T : forall h r : text, length h = p + k -> firstn (p + k) (h ++ r) = h /\ skipn (S (p + k)) (h ++ r) = skipn 1 r).
  { intros h r Lh. rewrite firstn_app, skipn_app, Lh, Nat.sub_diag. rewrite firstn_all2, skipn_all2 by lia.
    replace (S (p + k) - (p + k)) with 1 by lia. cbn [firstn app]. rewrite app_nil_r. split; reflexivity. }
  destruct (T _ (skipn (p + k) c) L2) as (-> & ->). rewrite <- !app_assoc. cbn [app]. do 3 f_equal.
  replace (p + (k + 1)) with (1 + (p + k)) by lia. generalize (p + k) as q. intros q. clear. revert c. induction q as [|q IH]; intros [|x c]; try reflexivity. change (skipn (1 + q) c = skipn 1 (skipn q c)). apply IH.
Qed.
Lemma write_moments_shape f d n base p data : write_moments f d n base p data
  = map (fun k => write_file f d n (write_at base p (firstn k data))) (seq 0 (length data)) ++ [write_file f d n (write_at base p data)].
Proof. unfold write_moments. rewrite seq_S, map_app. cbn [map plus]. rewrite firstn_all. reflexivity. Qed.
Lemma write_moments_sorted f d n base p data : p <= length base -> Sorted one_write (write_moments f d n base p data).
Proof.
  intros Hp. apply sorted_seq. intros k _ Hk. right. exists d, n. split.
  - intros d' n' H. rewrite !write_other by exact H. reflexivity.
  - right. destruct (write_at_next base p data k) as (a & E); [lia|exact Hp|]. exists (write_at base p (firstn k data)), (p + k), a.
    split; [|split; [apply write_same|rewrite write_same, E; reflexivity]].
    unfold write_at. rewrite !app_length, !firstn_length. lia.
Qed.
Lemma write_same_content (f : text -> text -> option text) d n c : f d n = Some c -> forall d' n', write_file f d n c d' n' = f d' n'.
Proof. intros H d' n'. unfold write_file. destruct (text_eq_dec d' d) as [-> |]; [|reflexivity]. destruct (text_eq_dec n' n) as [-> |]; [symmetry; exact H|reflexivity]. Qed.
Lemma opened f d n : one_write f (write_file f d n []).
Proof. right. exists d, n. split; [intros d' n' H; apply write_other; exact H|left; apply write_same]. Qed.
Lemma write_at_empty data : write_at [] 0 data = data.
Proof. unfold write_at. rewrite skipn_nil, app_nil_r. reflexivity. Qed.

Lemma pvd_moments_shape fmt f d n vtu t : exists first l1 last,
  pvd_moments fmt f d n vtu t = l1 ++ [last] /\ hd_error (l1 ++ [last]) = Some first /\ Sorted one_write (l1 ++ [last]) /\ one_write f first /\
  (forall d' n', write_file f d n (add_to_pvd fmt (f d n) vtu t) d' n' = last d' n').
Proof.
  unfold pvd_moments, add_to_pvd. destruct (f d n) as [c|] eqn:E.
  - destruct (Nat.ltb_spec (length c) (length pvd_end)) as [L|L].
    + exists f, [], f. split; [reflexivity|]. split; [reflexivity|]. split; [repeat constructor|]. split; [left; reflexivity|]. apply write_same_content. exact E.
    + set (p := length c - length pvd_end). set (data := pvd_entry fmt vtu t ++ pvd_end).
      exists (write_file f d n (write_at c p (firstn 0 data))). do 2 eexists. split; [apply write_moments_shape|]. rewrite <- write_moments_shape.
      split; [reflexivity|]. split; [apply write_moments_sorted; lia|]. split; [|reflexivity]. left. cbn [firstn]. apply write_same_content. rewrite E.
      unfold write_at. cbn [app length]. rewrite Nat.add_0_r, firstn_skipn. reflexivity.
  - exists (write_file f d n []). do 2 eexists. split; [apply write_moments_shape|]. rewrite <- write_moments_shape. split; [reflexivity|].
    split; [apply write_moments_sorted; cbn; lia|]. split; [apply opened|]. rewrite write_at_empty. reflexivity.
Qed.

Lemma plot_moments_sorted fmt d step t out names : forall f, hd_error (plot_moments fmt d step t out names f) = Some f /\
  Sorted one_write (plot_moments fmt d step t out names f).
Proof.
  induction names as [|v l IH]; intros f; cbn [plot_moments]; [split; [reflexivity|repeat constructor]|].
  destruct (out v) as [c|]; [|split; [reflexivity|repeat constructor]]. cbv zeta. split; [reflexivity|].
  set (f1 := write_file f d (vtu_name v step) c). set (f2 := write_file f1 d (pvd_name v) _).
  destruct (pvd_moments_shape fmt f1 d (pvd_name v) (vtu_name v step) t) as (first & l1 & lst & E & Hh & Hs & Ho & He). rewrite E.
  fold f2 in He. destruct (IH f2) as (I1 & I2).
  destruct (plot_moments fmt d step t out l f2) as [|g r]; [discriminate|]. injection I1 as ->.
  assert (S3 : Sorted one_write ((l1 ++ [lst]) ++ f2 :: r)).
  { apply sorted_join; [exact Hs|exact I2|left; exact He]. }
  assert (S2 : Sorted one_write (write_moments f d (vtu_name v step) [] 0 c ++ (l1 ++ [lst]) ++ f2 :: r)).
  { pose proof (write_moments_sorted f d (vtu_name v step) [] 0 c (Nat.le_refl 0)) as W. rewrite write_moments_shape in W |- *.
    destruct ((l1 ++ [lst]) ++ f2 :: r) as [|g0 r0] eqn:Er; [destruct l1; discriminate|].
    assert (g0 = first) as ->. { destruct l1; cbn [app hd_error] in *; congruence. }
    rewrite <- Er in S3 |- *. rewrite Er in S3 |- *. apply sorted_join; [exact W|exact S3|]. rewrite write_at_empty. exact Ho. }
  cbn [app]. constructor; [exact S2|]. unfold write_moments. cbn [seq map app]. constructor. apply opened.
Qed.

Theorem C113_every_moment fmt usable s t out :
  let moments := call_moments fmt s t out in
  hd_error moments = Some (pp_files s) /\ In (pp_files (pp_call fmt usable s (Plot t out))) moments /\
  (forall d n, last moments (pp_files s) d n = pp_files (pp_call fmt usable s (Plot t out)) d n) /\ Sorted one_write moments.
Proof.
  intros moments. split; [|split; [apply C113_first_and_last_moment|split; [intros d n|]]]; unfold moments, call_moments, pp_call.
  - destruct (Nat.eqb (length (pp_dir s)) 0); [reflexivity|apply plot_moments_sorted].
  - destruct (Nat.eqb (length (pp_dir s)) 0); [reflexivity|]. transitivity (fst (plot_loop fmt (pp_dir s) (pp_step s) t out (pp_names s) (pp_files s)) d n);
      [|destruct (plot_loop fmt (pp_dir s) (pp_step s) t out (pp_names s) (pp_files s)); reflexivity].
    revert d n. generalize (pp_files s) at 2 as z. generalize (pp_files s). induction (pp_names s) as [|v l IH]; intros f z d n; cbn [plot_moments plot_loop]; [reflexivity|].
    destruct (out v) as [c|]; [|reflexivity]. cbv zeta.
    set (f1 := write_file f (pp_dir s) (vtu_name v (pp_step s)) c). set (f2 := write_file f1 (pp_dir s) (pvd_name v) _).
    specialize (IH f2 z d n). pose proof (proj1 (plot_moments_sorted fmt (pp_dir s) (pp_step s) t out l f2)) as Hh.
    destruct (plot_moments fmt (pp_dir s) (pp_step s) t out l f2) as [|g r]; [discriminate|].
    assert (La : forall (l1 : list (text -> text -> option text)) x, last (l1 ++ g :: r) x = last (g :: r) x).
    { induction l1 as [|a l1 J]; intros x; [reflexivity|]. cbn [app]. transitivity (last (l1 ++ g :: r) x); [|apply J]. destruct l1; reflexivity. }
    rewrite !app_assoc, La. exact IH.
  - destruct (Nat.eqb (length (pp_dir s)) 0); [repeat constructor|apply plot_moments_sorted].
Qed.
Print Assumptions C113_every_moment.
