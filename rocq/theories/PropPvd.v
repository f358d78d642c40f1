(** * C54 and C77: the collections of the post process and their result files *)
From Coq Require Import String Ascii List Arith Reals Lia.
From Verif Require Import PvdModel PvdSpec PvdRead PvdProofs.
Import ListNotations.
Local Open Scope list_scope.

(** after any history of calls, whether they throw or not, the .pvd file of a visualizer in a used directory does not exist
    if nothing was plotted, and else is the complete collection of its entries *)
Theorem C54_pvd_complete fmt usable files h d v : used usable h d ->
  pp_files (pp_run fmt usable files h) d (pvd_name v)
  = match l_entries (log_run usable h) d v with [] => None | l => Some (collection fmt v l) end.
Proof.
  intros Hd. pose proof (ag_files _ _ _ _ _ (run_agree fmt usable files h) d v Hd) as H. unfold pvd_file in H. rewrite H.
  destruct (l_entries (log_run usable h) d v); reflexivity.
Qed.
Print Assumptions C54_pvd_complete.

(** the entries: a Plot that does not throw adds one entry, with its time, at the end for each visualizer, and the next step
    has the next number *)
Theorem C54_one_entry_per_plot usable h t out : let l := log_run usable h in
  l_dir l <> [] -> (forall v, out v <> None) ->
  let l' := log_run usable (h ++ [Plot t out]) in
  l_step l' = S (l_step l)
  /\ (forall v, In v (l_names l) -> exists c, out v = Some c /\ l_entries l' (l_dir l) v = l_entries l (l_dir l) v ++ [mkEntry (l_step l) t c])
  /\ (forall d v, d <> l_dir l \/ ~ In v (l_names l) -> l_entries l' d v = l_entries l d v).
Proof.
  cbv zeta. intros Hd Hout.
  pose proof (ag_nodup _ _ _ _ _ (run_agree (fun _ => []) usable (fun _ _ => None) h)) as Hn.
  unfold log_run in *. rewrite fold_left_app. cbn [fold_left log_call]. set (l := fold_left (log_call usable) h _) in *.
  destruct (Nat.eqb_spec (length (l_dir l)) 0) as [E|E]; [destruct (l_dir l); [congruence|discriminate E]|]. cbn [l_step l_names l_entries].
  rewrite plotted_all, Nat.eqb_refl by exact Hout. split; [reflexivity|]. split.
  - intros v Hv. destruct (out v) as [c|] eqn:Ev; [|destruct (Hout v Ev)]. exists c. split; [reflexivity|]. f_equal.
    destruct (text_eq_dec (l_dir l) (l_dir l)); [|congruence]. destruct (filter_plotted out (l_names l) v Hn) as [X|(c' & E' & _ & ->)].
    + exfalso. assert (Y : In (v, c) (plotted out (l_names l))).
      { clear - Hout Hv Ev. induction (l_names l) as [|w n IH]; [contradiction|]. cbn [plotted]. destruct (out w) as [x|] eqn:Ew; [|destruct (Hout w Ew)].
        destruct Hv as [->|Hv]; [left; congruence|right; exact (IH Hv)]. }
      assert (Z : In (v, c) (filter (fun p => if text_eq_dec (fst p) v then true else false) (plotted out (l_names l)))).
      { apply filter_In. split; [exact Y|]. cbn [fst]. destruct (text_eq_dec v v); congruence. }
      rewrite X in Z. contradiction.
    + cbn. rewrite Ev in E'. injection E' as <-. reflexivity.
  - intros d v H. destruct (text_eq_dec d (l_dir l)) as [->|Hne]; [|apply app_nil_r]. destruct H as [H|H]; [congruence|].
    destruct (filter_plotted out (l_names l) v Hn) as [->|(c & _ & Hi & _)]; [apply app_nil_r|contradiction].
Qed.
Print Assumptions C54_one_entry_per_plot.

(** ** The file as a reader sees it *)
Lemma tags_inside (a : text) : ~ In "<"%char a -> ~ In ">"%char a -> forall t s, tags (Some t) (a ++ s) = tags (Some (rev a ++ t)) s.
Proof.
  induction a as [|c a IH]; intros H1 H2 t s; [reflexivity|]. cbn [List.app tags].
  destruct (Ascii.eqb_spec c ">"); [exfalso; apply H2; left; assumption|]. destruct (Ascii.eqb_spec c "<"); [exfalso; apply H1; left; assumption|].
  rewrite IH by (intros X; first [apply H1; right; exact X|apply H2; right; exact X]). cbn [rev]. rewrite <- app_assoc. reflexivity.
Qed.
Lemma tags_line (a s : text) : ~ In "<"%char a -> ~ In ">"%char a -> tags None (txt "<" ++ a ++ txt ">" ++ nl ++ s) = option_map (cons a) (tags None s).
Proof.
  intros H1 H2. change (txt "<" ++ a ++ txt ">" ++ nl ++ s) with ("<"%char :: (a ++ (">"%char :: (newline :: s)))). cbn [tags]. change (Ascii.eqb "<" "<") with true. cbv iota.
  rewrite (tags_inside a H1 H2). cbn [tags]. change (Ascii.eqb ">" ">") with true. cbv iota. change (Ascii.eqb newline "<") with false. change (Ascii.eqb newline newline) with true. cbn [orb].
  rewrite app_nil_r, rev_involutive. reflexivity.
Qed.
Lemma attributes_value (v : text) k : ~ In quotation v -> forall acc s, attributes (Value k acc) (v ++ quotation :: s) = option_map (cons (k, rev acc ++ v)) (attributes Between s).
Proof.
  induction v as [|c v IH]; intros H acc s; cbn [List.app attributes].
  - change (Ascii.eqb quotation quotation) with true. cbv iota. rewrite app_nil_r. reflexivity.
  - destruct (Ascii.eqb_spec c quotation); [exfalso; apply H; left; assumption|]. rewrite IH by (intros X; apply H; right; exact X). cbn [rev]. rewrite <- app_assoc. reflexivity.
Qed.
Definition entry_tag (t f : text) : text := txt "DataSet timestep=" ++ quote_char ++ t ++ quote_char ++ txt " file=" ++ quote_char ++ f ++ quote_char.
Lemma entry_tag_read t f : ~ In quotation t -> ~ In quotation f -> tag_of (entry_tag t f ++ txt "/") = Some (Element (txt "DataSet") [(txt "timestep", t); (txt "file", f)]).
Proof.
  intros Ht Hf. unfold tag_of. assert (R : rev (entry_tag t f ++ txt "/") = "/"%char :: rev (entry_tag t f)) by (rewrite rev_app_distr; reflexivity).
  assert (E : exists r, entry_tag t f ++ txt "/" = "D"%char :: r) by (eexists; reflexivity). destruct E as (r & E). rewrite E at 1. cbv iota. rewrite R. cbv iota beta. rewrite rev_involutive.
  assert (W : word (entry_tag t f) = (txt "DataSet", txt " timestep=" ++ quote_char ++ t ++ quote_char ++ txt " file=" ++ quote_char ++ f ++ quote_char)) by reflexivity.
  rewrite W.
  change (attributes Between (txt " timestep=" ++ quote_char ++ t ++ quote_char ++ txt " file=" ++ quote_char ++ f ++ quote_char))
    with (attributes (Value (txt "timestep") []) (t ++ quotation :: (txt " file=" ++ quote_char ++ f ++ quote_char))).
  rewrite attributes_value by exact Ht.
  change (attributes Between (txt " file=" ++ quote_char ++ f ++ quote_char)) with (attributes (Value (txt "file") []) (f ++ quotation :: [])).
  rewrite attributes_value by exact Hf. reflexivity.
Qed.
Lemma entry_not c t f : ~ In c (txt "DataSet timestep= file=/") -> c <> quotation -> ~ In c t -> ~ In c f -> ~ In c (entry_tag t f ++ txt "/").
Proof.
  intros Hc Hq Ht Hf Hi. unfold entry_tag in Hi. rewrite !in_app_iff in Hi.
  assert (Q : ~ In c quote_char) by (intros [X|[]]; apply Hq; symmetry; exact X).
  assert (A : forall a, (forall x, In x a -> In x (txt "DataSet timestep= file=/")) -> ~ In c a) by (intros a Ha X; apply Hc, Ha, X).
  assert (A1 : ~ In c (txt "DataSet timestep=")) by (apply A; cbn; intuition). assert (A2 : ~ In c (txt " file=")) by (apply A; cbn; intuition). assert (A3 : ~ In c (txt "/")) by (apply A; cbn; intuition).
  tauto.
Qed.
Lemma read_entries fmt v l : (forall e, In e l -> quotable (fmt (e_time e)) /\ quotable (vtu_name v (e_step e))) ->
  exists ts, tags None (flat_map (fun e => pvd_entry fmt (vtu_name v (e_step e)) (e_time e)) l ++ pvd_end) = Some (map (fun e => entry_tag (fmt (e_time e)) (vtu_name v (e_step e)) ++ txt "/") l ++ ts) /\
    ts = [txt "/Collection"; txt "/VTKFile"].
Proof.
  intros H. eexists. split; [|reflexivity]. induction l as [|e l IH].
  - reflexivity.
  - cbn [flat_map map]. destruct (H e (or_introl eq_refl)) as ((T1 & T2 & T3) & (F1 & F2 & F3)). rewrite <- app_assoc.
    set (rest := flat_map _ l ++ pvd_end) in *.
    assert (E : pvd_entry fmt (vtu_name v (e_step e)) (e_time e) ++ rest = txt "<" ++ (entry_tag (fmt (e_time e)) (vtu_name v (e_step e)) ++ txt "/") ++ txt ">" ++ nl ++ rest).
    { unfold pvd_entry, entry_tag. change (txt "<DataSet timestep=") with (txt "<" ++ txt "DataSet timestep="). change (txt "/>") with (txt "/" ++ txt ">"). rewrite <- !app_assoc. reflexivity. }
    rewrite E, tags_line.
    + rewrite IH by (intros e' He'; apply H; right; exact He'). reflexivity.
    + apply entry_not; [cbn; intuition discriminate|discriminate|exact T1|exact F1].
    + apply entry_not; [cbn; intuition discriminate|discriminate|exact T2|exact F2].
Qed.
Lemma read_lemma fmt v l : (forall e, In e l -> quotable (fmt (e_time e)) /\ quotable (vtu_name v (e_step e))) ->
  read_collection (collection fmt v l) = Some (map (fun e => (fmt (e_time e), vtu_name v (e_step e))) l).
Proof.
  intros H. destruct (read_entries fmt v l H) as (ts & E & ->). unfold read_collection, collection.
  set (rest := flat_map _ l ++ pvd_end) in *.
  assert (B : tags None (pvd_begin ++ rest) = option_map (fun t => (txt "?xml version=" ++ quote_char ++ txt "1.0" ++ quote_char ++ txt "?") :: (txt "VTKFile type=" ++ quote_char ++ txt "Collection" ++ quote_char) :: txt "Collection" :: t) (tags None rest)).
  { change (pvd_begin ++ rest) with (txt "<" ++ (txt "?xml version=" ++ quote_char ++ txt "1.0" ++ quote_char ++ txt "?") ++ txt ">" ++ nl ++ txt "<" ++ (txt "VTKFile type=" ++ quote_char ++ txt "Collection" ++ quote_char) ++ txt ">" ++ nl ++ txt "<" ++ txt "Collection" ++ txt ">" ++ nl ++ rest).
    rewrite !tags_line by (cbn; intuition discriminate). destruct (tags None rest); reflexivity. }
  rewrite B, E. cbn [option_map]. cbv iota. cbn [map]. rewrite map_app, map_map. change (map tag_of [txt "/Collection"; txt "/VTKFile"]) with [Some (Closing (txt "Collection")); Some (Closing (txt "VTKFile"))].
  assert (A : all_some (map (fun x => tag_of (entry_tag (fmt (e_time x)) (vtu_name v (e_step x)) ++ txt "/")) l ++ [Some (Closing (txt "Collection")); Some (Closing (txt "VTKFile"))]) =
    Some (map (fun e => Element (txt "DataSet") [(txt "timestep", fmt (e_time e)); (txt "file", vtu_name v (e_step e))]) l ++ [Closing (txt "Collection"); Closing (txt "VTKFile")])).
  { clear E B rest. induction l as [|e l IH]; [reflexivity|]. cbn [map List.app]. destruct (H e (or_introl eq_refl)) as ((_ & _ & T3) & (_ & _ & F3)). rewrite (entry_tag_read _ _ T3 F3). cbn [all_some].
    rewrite IH by (intros e' He'; apply H; right; exact He'). reflexivity. }
  change (tag_of (txt "?xml version=" ++ quote_char ++ txt "1.0" ++ quote_char ++ txt "?")) with (Some (Instruction (txt "?xml version=" ++ quote_char ++ txt "1.0" ++ quote_char ++ txt "?"))).
  change (tag_of (txt "VTKFile type=" ++ quote_char ++ txt "Collection" ++ quote_char)) with (Some (Opening (txt "VTKFile") [(txt "type", txt "Collection")])).
  change (tag_of (txt "Collection")) with (Some (Opening (txt "Collection") [])). cbn [all_some]. rewrite A. cbn [option_map].
  change (String.eqb (string_of_list_ascii (txt "VTKFile")) "VTKFile") with true. change (String.eqb (string_of_list_ascii (txt "type")) "type") with true.
  change (String.eqb (string_of_list_ascii (txt "Collection")) "Collection") with true. cbn [andb].
  clear E B A rest H. induction l as [|e l IH]; [reflexivity|]. cbn [map List.app data_sets].
  change (String.eqb (string_of_list_ascii (txt "DataSet")) "DataSet") with true. change (String.eqb (string_of_list_ascii (txt "timestep")) "timestep") with true.
  change (String.eqb (string_of_list_ascii (txt "file")) "file") with true. cbn [andb]. rewrite IH. reflexivity.
Qed.
Lemma vtu_quotable v k : quotable v -> quotable (vtu_name v k).
Proof.
  intros (H1 & H2 & H3). assert (D : forall c, ~ In c v -> ~ is_digit c -> ~ In c (txt ".vtu") -> ~ In c (vtu_name v k)).
  { intros c A B C Hi. unfold vtu_name in Hi. rewrite !in_app_iff in Hi. destruct Hi as [Hi|[Hi|Hi]]; [tauto| |tauto]. apply B. exact (proj1 (Forall_forall _ _) (digits_are_digits k) c Hi). }
  split; [|split]; apply D; try assumption; try (unfold is_digit; cbn; lia); cbn; intuition discriminate.
Qed.

(** a reader that knows nothing of the writer finds in the .pvd file, after any history of calls, one entry for each step that was plotted, in
    order, with its time and its result file, and nothing else; names and numbers must not contain <, > or quotation marks *)
Theorem C54_readable fmt usable files h d v : used usable h d -> (forall t, quotable (fmt t)) -> quotable v ->
  match pp_files (pp_run fmt usable files h) d (pvd_name v) with
  | None => l_entries (log_run usable h) d v = []
  | Some c => read_collection c = Some (map (fun e => (fmt (e_time e), vtu_name v (e_step e))) (l_entries (log_run usable h) d v))
  end.
Proof.
  intros Hu Hf Hv. rewrite (C54_pvd_complete fmt usable files h d v Hu). destruct (l_entries (log_run usable h) d v) as [|e l] eqn:El; [reflexivity|].
  apply read_lemma. intros x Hx. split; [apply Hf|apply vtu_quotable, Hv].
Qed.
Print Assumptions C54_readable.
Example C54_read_example : quotable (txt "specimen") /\ quotable (txt "0.5") /\
  read_collection (collection (fun _ => txt "0.5") (txt "a") [mkEntry 3 0 []]) = Some [(txt "0.5", txt "a3.vtu")].
Proof. split; [|split]; [unfold quotable; cbn; intuition discriminate..|]. apply (read_lemma (fun _ => txt "0.5") (txt "a") [mkEntry 3 0 []]). intros e [<-|[]]. split; unfold quotable; cbn; intuition discriminate. Qed.

(** two visualizers, two steps *)
Example C54_example fmt t1 t2 : let h := [ResultDirectory (txt "results"); DefineVisualizer (txt "b"); DefineVisualizer (txt "a");
    Plot t1 (fun _ => Some []); Plot t2 (fun _ => Some [])] in
  used (fun _ => true) h (txt "results")
  /\ pp_files (pp_run fmt (fun _ => true) (fun _ _ => None) h) (txt "results") (txt "b.pvd")
     = Some (pvd_begin ++ pvd_entry fmt (txt "b0.vtu") t1 ++ pvd_entry fmt (txt "b1.vtu") t2 ++ pvd_end).
Proof.
  intros h. assert (U : used (fun _ => true) h (txt "results")) by (split; [left; reflexivity|split; [discriminate|reflexivity]]).
  split; [exact U|]. change (txt "b.pvd") with (pvd_name (txt "b")). rewrite C54_pvd_complete by exact U.
  set (l := l_entries _ _ _). change l with [mkEntry 0 t1 []; mkEntry 1 t2 []]. f_equal. unfold collection. cbn [flat_map]. rewrite app_nil_r, <- app_assoc. reflexivity.
Qed.

(** ** C77: every entry of a collection names its own result file *)

(** if no call throws and no name ends with a digit, each entry has its own file, which holds what was plotted at that step *)
Theorem C77_result_files_partial fmt usable files h : (forall v, In (DefineVisualizer v) h -> no_digit_end v) -> (forall c, In c h -> no_failure c) ->
  forall d v i e, nth_error (l_entries (log_run usable h) d v) i = Some e ->
    pp_files (pp_run fmt usable files h) d (vtu_name v (e_step e)) = Some (e_content e)
    /\ forall w j e', nth_error (l_entries (log_run usable h) d w) j = Some e' -> vtu_name w (e_step e') = vtu_name v (e_step e) -> w = v /\ j = i.
Proof.
  intros Hd Hf d v i e Hi. destruct (run_files fmt usable files h Hd Hf) as [F1 F2 F3 F4].
  split; [apply F4; eapply nth_error_In, Hi|]. intros w j e' Hj E. apply vtu_name_inj in E.
  - destruct E as (-> & E). split; [reflexivity|]. eapply F3; [exact Hj|exact Hi|exact E].
  - apply Hd, (names_defined usable). eapply F2, nth_error_In, Hj.
  - apply Hd, (names_defined usable). eapply F2, nth_error_In, Hi.
Qed.
Print Assumptions C77_result_files_partial.

(** visualizers "a" and "a1": step 11 of the first overwrites step 1 of the second *)
Definition overlapping : list call :=
  [ResultDirectory (txt "r"); DefineVisualizer (txt "a"); DefineVisualizer (txt "a1")] ++ repeat (Plot 0 (fun v => Some v)) 12.
Theorem C77_overlapping_names_refuted fmt : (forall c, In c overlapping -> no_failure c) /\
  exists e, nth_error (l_entries (log_run (fun _ => true) overlapping) (txt "r") (txt "a1")) 1 = Some e
    /\ e_content e = txt "a1" /\ pp_files (pp_run fmt (fun _ => true) (fun _ _ => None) overlapping) (txt "r") (vtu_name (txt "a1") (e_step e)) = Some (txt "a").
Proof.
  split.
  - intros c Hc. unfold overlapping in Hc. apply in_app_iff in Hc. destruct Hc as [Hc|Hc].
    + cbn [In] in Hc. destruct Hc as [<-|[<-|[<-|[]]]]; exact I.
    + apply repeat_spec in Hc. subst c. discriminate.
  - eexists. split; [reflexivity|]. split; reflexivity.
Qed.
Print Assumptions C77_overlapping_names_refuted.

(** if the second visualizer throws, the number of the step is used again and the next Plot overwrites the file of the first *)
Definition interrupted : list call :=
  [ResultDirectory (txt "r"); DefineVisualizer (txt "a"); DefineVisualizer (txt "b");
   Plot 0 (fun v => if text_eq_dec v (txt "a") then Some (txt "first") else None); Plot 1 (fun v => Some (txt "second"))].
Theorem C77_interrupted_plot_refuted fmt :
  map (fun e => (e_step e, e_content e)) (l_entries (log_run (fun _ => true) interrupted) (txt "r") (txt "a")) = [(0, txt "first"); (0, txt "second")]
  /\ pp_files (pp_run fmt (fun _ => true) (fun _ _ => None) interrupted) (txt "r") (vtu_name (txt "a") 0) = Some (txt "second").
Proof. split; reflexivity. Qed.
Print Assumptions C77_interrupted_plot_refuted.
