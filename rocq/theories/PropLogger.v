(** * C95: what reaches the log *)
From Coq Require Import String Ascii List Bool Lia.
From Verif Require Import Outcome TextModel LoggerModel.
Import ListNotations.

(** ** Specification: a text with the prefix in front of each line *)
Fixpoint with_prefix (prefix : text) (lineStart : bool) (t : text) : text :=
  match t with
  | [] => []
  | c :: r => (if lineStart then prefix else []) ++ c :: with_prefix prefix (c =? newline)%char r
  end.
(** a message: what it prints *)
Definition printed (c : call) : text :=
  match c with PutChar c => [c] | PutString t | PutCString t | Other t => t | _ => [] end.
Definition is_message (c : call) : Prop := match c with PutChar _ | PutString _ | PutCString _ | Other _ => True | _ => False end.
(** not empty; a newline only as the last character, and not as that of a number or another object *)
Definition single_line (c : call) : Prop :=
  match c with
  | PutChar _ => True
  | PutString t | PutCString t => t <> [] /\ ~ In newline (removelast t)
  | Other t => t <> [] /\ ~ In newline t
  | _ => False
  end.

Definition line_open (lineStart : bool) (t : text) : bool := match t with [] => lineStart | _ => (last t " "%char =? newline)%char end.
Lemma with_prefix_app p b t u : with_prefix p b (t ++ u) = with_prefix p b t ++ with_prefix p (line_open b t) u.
Proof.
  revert b. induction t as [|c t IH]; intro b; [reflexivity|]. cbn [app with_prefix]. rewrite IH, <- app_assoc. f_equal.
  cbn [app]. f_equal. f_equal. f_equal. destruct t; reflexivity.
Qed.
Lemma with_prefix_line p b t : t <> [] -> ~ In newline (removelast t) -> with_prefix p b t = (if b then p else []) ++ t.
Proof.
  intros Hn Hi. destruct t as [|c t]; [congruence|]. cbn [with_prefix]. f_equal. f_equal.
  clear Hn. revert c Hi. induction t as [|c2 t IH]; intros c Hi; [reflexivity|].
  assert (E : (c =? newline)%char = false).
  { apply Ascii.eqb_neq. intro H. apply Hi. change (removelast (c :: c2 :: t)) with (c :: removelast (c2 :: t)). left. exact H. }
  rewrite E. cbn [with_prefix app]. f_equal. apply IH. intro H. apply Hi. change (removelast (c :: c2 :: t)) with (c :: removelast (c2 :: t)). right. exact H.
Qed.
Lemma in_removelast {A} (x : A) t : In x (removelast t) -> In x t.
Proof.
  induction t as [|a t IH]; [intros []|]. destruct t as [|b t]; [intros []|]. change (removelast (a :: b :: t)) with (a :: removelast (b :: t)).
  intros [H|H]; [left; exact H|right; apply IH, H].
Qed.
Lemma last_in (t : text) d : t <> [] -> In (last t d) t.
Proof. induction t as [|a t IH]; [congruence|]. intros _. destruct t as [|b t]; [left; reflexivity|]. right. apply IH. discriminate. Qed.

Lemma step_message readonly l c : single_line c -> exists nl,
  step readonly l c = Ok (out l (printed c) nl) /\ nl = line_open true (printed c) /\
  with_prefix (lg_prefix l) (lg_print l) (printed c) = (if lg_print l then lg_prefix l else []) ++ printed c.
Proof.
  intro H. destruct c as [c|t|t|t|b|f|]; cbn [single_line] in H; try destruct H as [H1 H2]; try contradiction.
  - exists (c =? newline)%char. repeat split.
  - exists (line_open true t). cbn [step printed]. unfold ends_line, line_open. destruct t as [|c t]; [congruence|].
    split; [reflexivity|]. split; [reflexivity|]. apply with_prefix_line; assumption.
  - exists (line_open true t). cbn [step printed]. unfold ends_line, line_open. destruct t as [|c t]; [congruence|].
    split; [reflexivity|]. split; [reflexivity|]. apply with_prefix_line; assumption.
  - exists false. cbn [step printed]. split; [reflexivity|]. split.
    + unfold line_open. destruct t as [|c t]; [congruence|]. symmetry. apply Ascii.eqb_neq. intro E. apply H2. rewrite <- E. apply last_in. discriminate.
    + apply with_prefix_line; [exact H1|]. intro E. apply H2, in_removelast, E.
Qed.

Definition contents (l : logger) : text :=
  match lg_file l with
  | None => []
  | Some f => match find (fun p => (f =? fst p)%string) (lg_disk l) with Some (_, t) => t | None => [] end
  end.
Definition has_file (l : logger) : Prop :=
  match lg_file l with None => True | Some f => find (fun p => (f =? fst p)%string) (lg_disk l) <> None end.
Lemma find_append f t d : find (fun p => (f =? fst p)%string) (append_to f t d)
  = match find (fun p => (f =? fst p)%string) d with Some (g, c) => Some (g, c ++ t) | None => None end.
Proof.
  induction d as [|[g c] d IH]; [reflexivity|]. cbn [append_to find fst]. destruct (f =? g)%string eqn:E; cbn [find fst]; rewrite E; [reflexivity|exact IH].
Qed.

(** ** Messages of one line each, in any order and number: the console and the file get the text with the prefix in front of
    every line *)
Theorem C95_prefix_partial : forall readonly prefix quiet disk file before messages l0 l,
  run readonly (new_logger prefix quiet disk) (match file with Some f => [OpenFile f] | None => [] end) = Ok l0 ->
  before = lg_console l0 -> Forall single_line messages ->
  run readonly l0 messages = Ok l ->
  lg_console l = before ++ (if quiet then [] else with_prefix prefix true (concat (map printed messages))) /\
  (file <> None -> contents l = with_prefix prefix true (concat (map printed messages))).
Proof.
  intros readonly prefix quiet disk file before messages l0 l H0 -> Hm Hr.
  assert (I0 : lg_prefix l0 = prefix /\ lg_print l0 = true /\ lg_quiet l0 = quiet /\ lg_file l0 = file /\ contents l0 = [] /\ has_file l0).
  { destruct file as [f|]; cbn [run step obind new_logger] in H0.
    - destruct (readonly f); [discriminate|]. cbn [obind] in H0. injection H0 as <-. unfold contents, has_file. cbn [lg_prefix lg_print lg_quiet lg_file lg_disk].
      cbn [find fst]. rewrite String.eqb_refl. repeat split. discriminate.
    - injection H0 as <-. repeat split. }
  assert (G : forall ms l1, Forall single_line ms -> lg_prefix l1 = prefix -> lg_quiet l1 = quiet -> lg_file l1 = file -> has_file l1 ->
     run readonly l1 ms = Ok l ->
     lg_console l = lg_console l1 ++ (if quiet then [] else with_prefix prefix (lg_print l1) (concat (map printed ms))) /\
     (file <> None -> contents l = contents l1 ++ with_prefix prefix (lg_print l1) (concat (map printed ms)))).
  { clear. induction ms as [|c ms IH]; intros l1 Hs Hp Hq Hf Hh Hr; cbn [run] in Hr.
    - injection Hr as <-. cbn [map concat with_prefix]. split; [destruct quiet; rewrite app_nil_r; reflexivity|intros _; rewrite app_nil_r; reflexivity].
    - inversion Hs as [|? ? H1 H2]; subst. destruct (step_message readonly l1 c H1) as [nl [E1 [E2 E3]]]. rewrite E1 in Hr. cbn [obind] in Hr.
      assert (Ht : printed c <> []) by (destruct c; cbn [single_line printed] in *; try contradiction; [discriminate| | |]; apply H1).
      assert (NL : forall b, line_open b (printed c) = nl) by (intro b; subst nl; destruct (printed c); [congruence|reflexivity]).
      destruct (IH (out l1 (printed c) nl)) as [I1 I2]; try assumption; try reflexivity.
      { unfold has_file, out in *. cbn [lg_file lg_disk]. destruct (lg_file l1) as [f|]; [|exact I]. rewrite find_append.
        destruct (find _ (lg_disk l1)) as [[g t]|]; [discriminate|exact Hh]. }
      cbn [map concat]. rewrite with_prefix_app, E3, NL. split.
      + rewrite I1. unfold out. cbn [lg_console lg_print]. destruct (lg_quiet l1); [reflexivity|]. rewrite <- !app_assoc. reflexivity.
      + intro Hn. rewrite (I2 Hn). unfold contents, out in *. cbn [lg_file lg_disk lg_print] in *. unfold has_file in Hh. destruct (lg_file l1) as [f|]; [|destruct Hn; reflexivity].
        rewrite find_append. destruct (find _ (lg_disk l1)) as [[g t]|]; [|destruct Hh; reflexivity]. rewrite <- !app_assoc. reflexivity. }
  destruct I0 as [A1 [A2 [A3 [A4 [A5 A6]]]]]. destruct (G messages l0 Hm A1 A3 A4 A6 Hr) as [G1 G2]. rewrite A2 in G1, G2. split; [exact G1|].
  intro Hn. rewrite (G2 Hn), A5. reflexivity.
Qed.
Print Assumptions C95_prefix_partial.

(** such messages are never refused, and never undefined *)
Theorem C95_total_partial : forall readonly messages l0, Forall single_line messages -> exists l, run readonly l0 messages = Ok l.
Proof.
  intros readonly messages l0 H. revert l0. induction H as [|c ms Hc Hm IH]; intro l0; [exists l0; reflexivity|].
  cbn [run]. destruct (step_message readonly l0 c Hc) as [nl [E _]]. rewrite E. apply IH.
Qed.
Print Assumptions C95_total_partial.
Example C95_case : let messages := [PutCString (txt "time "); Other (txt "3"); PutChar newline; PutString (txt "done" ++ [newline])] in
  Forall single_line messages /\
  exists l, run (fun _ => false) (new_logger (txt "Info| ") false []) (OpenFile "log" :: messages) = Ok l /\
  contents l = txt "Info| time 3" ++ newline :: txt "Info| done" ++ [newline].
Proof.
  split.
  - repeat constructor; cbn; try discriminate; intro H; repeat destruct H as [H|H]; try discriminate H; contradiction.
  - eexists. split; reflexivity.
Qed.

(** ** An empty message: the operators read the character in front of the string *)
Theorem C95_empty_refuted : forall readonly l cs, run readonly l (PutString [] :: cs) = UB /\ run readonly l (PutCString [] :: cs) = UB.
Proof. intros. split; reflexivity. Qed.
Print Assumptions C95_empty_refuted.

(** ** A newline inside a message, or at the end of an object that is neither a character nor a string, starts a line without prefix *)
Theorem C95_embedded_refuted : forall readonly disk prefix, prefix <> [] -> exists l1 l2,
  run readonly (new_logger prefix false disk) [PutString [ "a"; newline; "b" ]%char] = Ok l1 /\
  lg_console l1 = prefix ++ [ "a"; newline; "b" ]%char /\ lg_console l1 <> with_prefix prefix true [ "a"; newline; "b" ]%char /\
  run readonly (new_logger prefix false disk) [Other [ "a"; newline ]%char; PutChar "b"] = Ok l2 /\
  lg_console l2 = prefix ++ [ "a"; newline; "b" ]%char.
Proof.
  intros readonly disk prefix Hp. do 2 eexists. split; [reflexivity|]. split; [reflexivity|]. split.
  - cbn [lg_console out new_logger lg_print lg_prefix lg_quiet app with_prefix]. intro H. apply app_inv_head in H. injection H as H.
    change (("a" =? newline)%char) with false in H. change ((newline =? newline)%char) with true in H.
    apply (f_equal (@length _)) in H. cbn [app length] in H. rewrite app_length in H. cbn [length] in H. destruct prefix; [congruence|cbn [length] in H; lia].
  - split; [reflexivity|]. cbn. rewrite <- app_assoc. reflexivity.
Qed.
Print Assumptions C95_embedded_refuted.

(** ** Opening the log file again empties it *)
Theorem C95_reopen_refuted : forall f readonly l t, readonly f = false -> t <> [] ->
  exists l', run readonly l [OpenFile f; PutString t; OpenFile f] = Ok l' /\ contents l' = [].
Proof.
  intros f readonly l t Hf Ht. destruct t as [|c t]; [congruence|]. cbn [run step obind ends_line omap]. rewrite Hf. cbn [obind omap step run]. try rewrite Hf. cbn [obind run].
  eexists. split; [reflexivity|]. unfold contents. cbn [lg_file lg_disk find fst]. rewrite String.eqb_refl. reflexivity.
Qed.
Print Assumptions C95_reopen_refuted.
