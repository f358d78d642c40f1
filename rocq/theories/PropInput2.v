(** * C93: an input file that ends between two entries *)
From Coq Require Import String Ascii List ZArith QArith Bool Lia.
From Verif Require Import TextModel InputModel InputSpec InputProofs PropInput.
Import ListNotations.
Local Open Scope Z_scope.

(** the entries of a file in the documented order *)
Inductive entry_of_file := EString (d : list ascii) | ENumber (x : Q) | EVector (v : list Q) | EBool (b : bool).
Definition entries (c : contents) : list entry_of_file :=
  [EString (c_directory c); ENumber (c_events c); ENumber (c_time_max c); ENumber (c_time_print c); ENumber (c_barrier c);
   ENumber (c_velocity c); ENumber (c_relative c); ENumber (c_absolute c); ENumber (c_threads c); ENumber (c_specimen c);
   EVector (c_box c); EBool (c_is2d c); ENumber (c_sieves c)] ++ map EVector (c_curve c) ++
  [ENumber (c_fraction c); ENumber (c_distance c); ENumber (c_shrinkage c)].
Definition says_entry (e : entry_of_file) : list ascii -> list ascii -> Prop :=
  match e with EString d => says_string d | ENumber x => says_number x | EVector v => says_vector v | EBool b => says_bool b end.
(** the text begins with these entries and goes on with [r] *)
Fixpoint says_entries (l : list entry_of_file) (t r : list ascii) : Prop :=
  match l with [] => t = r | e :: l' => exists t', says_entry e t t' /\ says_entries l' t' r end.

Lemma says_entries_app a b t r : says_entries (a ++ b) t r <-> exists m, says_entries a t m /\ says_entries b m r.
Proof.
  revert t. induction a as [|e a IH]; intros t; cbn [app says_entries].
  - split; [intros H; exists t; auto|intros (m & -> & H); exact H].
  - split.
    + intros (t' & H1 & H2). apply IH in H2. destruct H2 as (m & H2 & H3). exists m. split; [exists t'; auto|exact H3].
    + intros (m & (t' & H1 & H2) & H3). exists t'. split; [exact H1|]. apply IH. exists m. auto.
Qed.
Lemma says_entries_vectors v t r : says_entries (map EVector v) t r <-> says_vectors v t r.
Proof.
  revert t. induction v as [|x v IH]; intros t; cbn [map says_entries says_entry].
  - split; [intros ->; constructor|inversion 1; reflexivity].
  - split; [intros (t' & H1 & H2); econstructor; [exact H1|apply IH, H2]|inversion 1; subst; eexists; split; [eassumption|apply IH; assumption]].
Qed.
(** all entries: the whole file *)
Lemma entries_file c t : (exists r, says_entries (entries c) t r) <-> file_says c t.
Proof.
  unfold entries, file_says. split.
  - intros (r & H). apply says_entries_app in H. destruct H as (m & H & K). apply says_entries_app in K. destruct K as (m' & V & K).
    apply says_entries_vectors in V. cbn [says_entries says_entry] in H, K.
    repeat match goal with H : exists _, _ |- _ => destruct H | H : _ /\ _ |- _ => destruct H end. subst.
    do 17 eexists. repeat (split; [eassumption|]). eassumption.
  - intros H. repeat match goal with H : exists _, _ |- _ => destruct H | H : _ /\ _ |- _ => destruct H end.
    eexists. apply says_entries_app. eexists. split.
    + cbn [says_entries says_entry]. repeat (eexists; split; [eassumption|]). reflexivity.
    + apply says_entries_app. eexists. split; [apply says_entries_vectors; eassumption|].
      cbn [says_entries says_entry]. repeat (eexists; split; [eassumption|]). reflexivity.
Qed.

(** the end of the file: no further equal sign, less than the skip buffer *)
Definition file_ends (r : list ascii) : Prop := ~ In "="%char r /\ (length r <= 998)%nat.

Section Cut.
  Variable rnd : Q -> Q.
  Definition dead (s : istream) : Prop := failbit (skip_to_next_data s) = true.

  Lemma dead_open r : file_ends r -> dead (open_stream r).
  Proof.
    intros (Hr & Hl). assert (T : forall n r, ~ In "="%char r -> (length r <= n)%nat -> take_until n "=" r = (r, [])).
    { clear. induction n as [|n IH]; intros r Hr Hl; destruct r as [|c r]; try reflexivity; [cbn in Hl; lia|]. cbn [take_until].
      assert (Hc : (c =? "=")%char = false) by (apply Ascii.eqb_neq; intro H; apply Hr; left; exact H).
      rewrite Hc, IH; [reflexivity | intro H; apply Hr; right; exact H | cbn in Hl; lia]. }
    unfold dead, skip_to_next_data, get_buffer, open_stream. cbn [good eofbit failbit negb andb rest].
    rewrite T by (try assumption; lia). reflexivity.
  Qed.
  Lemma dead_after r : file_ends r -> dead (after r).
  Proof. intros H. destruct r as [|c r]; [reflexivity|]. exact (dead_open _ H). Qed.
  Lemma dead_good s : dead s -> good (skip_to_next_data s) = false.
  Proof. unfold dead, good. intros ->. apply andb_false_r. Qed.
  Lemma dead_number s : dead s -> read_number rnd s = Undef.
  Proof. intros H. unfold read_number, extract_double. rewrite (dead_good s H). reflexivity. Qed.
  Lemma dead_long s : dead s -> read_long rnd s = Undef.
  Proof. intros H. unfold read_long. rewrite dead_number by exact H. reflexivity. Qed.
  Lemma dead_int s : dead s -> read_int rnd s = Undef.
  Proof. intros H. unfold read_int. rewrite dead_number by exact H. reflexivity. Qed.
  Lemma dead_bool s : dead s -> read_bool s = Undef.
  Proof. intros H. unfold read_bool, extract_char. rewrite (dead_good s H). reflexivity. Qed.
  Lemma dead_vector fuel s : dead s -> read_vector rnd fuel s = Loop.
  Proof. intros H. unfold read_vector. rewrite (loop_failed rnd _ _ _ _ H). reflexivity. Qed.
  Lemma dead_string s : dead s -> read_string s = Exc.
  Proof. intros H. unfold read_string, get_buffer. rewrite (dead_good s H). reflexivity. Qed.

  (** the sieves end early *)
  Lemma sieves_cut fuel v : forall k t r, (k < length v)%nat -> says_entries (firstn k (map EVector v)) t r -> file_ends r -> (length t <= fuel)%nat ->
    Forall (fun x => length x = 3%nat) v -> read_sieves rnd fuel (length v) (open_stream t) = Loop /\ read_sieves rnd fuel (length v) (after t) = Loop.
  Proof.
    induction v as [|x v IH]; intros k t r Hk H He Hf H3; [cbn in Hk; lia|]. cbn [length read_sieves].
    destruct k as [|k]; cbn [map firstn says_entries says_entry] in H.
    - subst. rewrite (dead_vector fuel _ (dead_open _ He)), (dead_vector fuel _ (dead_after _ He)). auto.
    - destruct H as (t' & H1 & H2). apply Forall_cons_iff in H3. destruct H3 as (H3 & H4).
      rewrite (says_label_vector _ _ _ H1), (vector_says rnd _ _ _ _ H1 Hf). cbn [ibind]. rewrite map_length, H3. cbn [Nat.eqb].
      pose proof (says_vector_length _ _ _ H1). cbn [length] in Hk. destruct (IH k t' r ltac:(lia) H2 He ltac:(lia) H4) as (-> & _). auto.
  Qed.
End Cut.

(** A file that stops behind its first [k] entries: without the directory there is an exception, in front of a number or a switch
    the reader uses a variable that was never written, and in front of a vector it never returns. *)
Theorem C93_cut_file_refuted : forall rnd c k t r fuel events threads specimen,
  says_entries (firstn k (entries c)) t r -> file_ends r -> (k < length (entries c))%nat -> (length t <= fuel)%nat ->
  (rnd (c_events c) == inject_Z events)%Q -> - 2 ^ 63 <= events < 2 ^ 63 ->
  (rnd (c_threads c) == inject_Z threads)%Q -> - 2 ^ 31 <= threads < 2 ^ 31 ->
  (rnd (c_specimen c) == inject_Z specimen)%Q -> - 2 ^ 31 <= specimen < 2 ^ 31 ->
  (rnd (c_sieves c) == inject_Z (Z.of_nat (length (c_curve c))))%Q -> Z.of_nat (length (c_curve c)) < 2 ^ 31 ->
  length (c_box c) = 6%nat -> Forall (fun v => length v = 3%nat) (c_curve c) ->
  read_file rnd fuel t = match nth_error (entries c) k with
                         | Some (EString _) => Exc
                         | Some (EVector _) => Loop
                         | _ => Undef
                         end.
Proof.
  intros rnd c k t r fuel events threads specimen H He Hk Hf Hev Hev' Hth Hth' Hsp Hsp' Hsv Hsv' H6 H3.
  unfold entries in *. unfold read_file.
  destruct k as [|k]; cbn [app firstn says_entries says_entry nth_error] in *.
  { subst. rewrite (dead_string _ (dead_open _ He)). reflexivity. }
  destruct H as (t1 & S1 & H). rewrite (string_says _ _ _ S1). cbn [ibind]. pose proof (says_string_length _ _ _ S1).
  destruct k as [|k]; cbn [app firstn says_entries says_entry nth_error] in *.
  { subst. rewrite (dead_long rnd _ (dead_open _ He)). reflexivity. }
  destruct H as (t2 & S2 & H). rewrite (long_says rnd _ _ _ _ S2 Hev Hev'). cbn [ibind]. pose proof (says_number_length _ _ _ S2).
  do 6 (destruct k as [|k]; cbn [app firstn says_entries says_entry nth_error] in *;
    [subst; rewrite (dead_number rnd _ (dead_after _ He)); reflexivity|];
    let S := fresh "S" in let t' := fresh "t" in destruct H as (t' & S & H); rewrite (says_label_number _ _ _ S), (number_says rnd _ _ _ S);
    cbn [ibind]; pose proof (says_number_length _ _ _ S)).
  destruct k as [|k]; cbn [app firstn says_entries says_entry nth_error] in *.
  { subst. rewrite (dead_int rnd _ (dead_after _ He)). reflexivity. }
  destruct H as (t9 & S9 & H). rewrite (says_label_number _ _ _ S9), (int_says rnd _ _ _ _ S9 Hth Hth'). cbn [ibind]. pose proof (says_number_length _ _ _ S9).
  destruct k as [|k]; cbn [app firstn says_entries says_entry nth_error] in *.
  { subst. rewrite (dead_int rnd _ (dead_after _ He)). reflexivity. }
  destruct H as (t10 & S10 & H). rewrite (says_label_number _ _ _ S10), (int_says rnd _ _ _ _ S10 Hsp Hsp'). cbn [ibind]. pose proof (says_number_length _ _ _ S10).
  destruct k as [|k]; cbn [app firstn says_entries says_entry nth_error] in *.
  { subst. rewrite (dead_vector rnd _ _ (dead_after _ He)). reflexivity. }
  destruct H as (t11 & S11 & H). rewrite (says_label_vector _ _ _ S11), (vector_says rnd _ _ _ fuel S11) by lia. cbn [ibind].
  pose proof (says_vector_length _ _ _ S11). rewrite map_length, H6. cbn [Nat.eqb negb].
  destruct k as [|k]; cbn [app firstn says_entries says_entry nth_error] in *.
  { subst. rewrite (dead_bool _ (dead_open _ He)). reflexivity. }
  destruct H as (t12 & S12 & H). rewrite (bool_says _ _ _ S12). cbn [ibind]. pose proof (says_bool_length _ _ _ S12). unfold read_curve.
  destruct k as [|k]; cbn [app firstn says_entries says_entry nth_error] in *.
  { subst. rewrite (dead_int rnd _ (dead_open _ He)). reflexivity. }
  assert (Hn : - 2 ^ 31 <= Z.of_nat (length (c_curve c)) < 2 ^ 31) by lia.
  destruct H as (t13 & S13 & H). rewrite (int_says rnd _ _ _ _ S13 Hsv Hn). cbn [ibind]. pose proof (says_number_length _ _ _ S13).
  destruct (Z.ltb_spec (Z.of_nat (length (c_curve c))) 0) as [Hneg|_]; [lia|]. rewrite Nat2Z.id.
  destruct (Nat.lt_ge_cases k (length (c_curve c))) as [Hlt|Hge].
  - rewrite firstn_app, map_length in H. replace (k - length (c_curve c))%nat with 0%nat in H by lia. cbn [firstn] in H. rewrite app_nil_r in H.
    destruct (sieves_cut rnd fuel (c_curve c) k t13 r Hlt H He ltac:(lia) H3) as (_ & ->). cbn [ibind].
    rewrite nth_error_app1 by (rewrite map_length; exact Hlt). rewrite nth_error_map.
    destruct (nth_error (c_curve c) k) eqn:E; [reflexivity|]. apply nth_error_None in E. lia.
  - rewrite firstn_app, map_length in H. rewrite firstn_all2 in H by (rewrite map_length; exact Hge).
    apply says_entries_app in H. destruct H as (t14 & V & H). apply says_entries_vectors in V.
    rewrite nth_error_app2 by (rewrite map_length; exact Hge). rewrite map_length.
    remember (k - length (c_curve c))%nat as j eqn:Ej. 
    assert (Hj : (j < 3)%nat) by (cbn [length] in Hk; rewrite app_length, map_length in Hk; cbn [length] in Hk; lia).
    assert (Es : read_sieves rnd fuel (length (c_curve c)) (after t13) = Ret (map (map rnd) (c_curve c), match c_curve c with [] => after t14 | _ => open_stream t14 end)).
    { destruct V as [|x l t' t'' r' V1 V2]; [reflexivity|].
      rewrite (says_label_vector _ _ _ V1), (sieves_say rnd _ _ _ fuel (vectors_cons _ _ _ _ _ V1 V2)) by (try assumption; lia). reflexivity. }
    rewrite Es. cbn [ibind]. clear Es.
    destruct j as [|j]; cbn [app firstn says_entries says_entry nth_error] in *.
    { subst t14. assert (D : dead (match c_curve c with [] => after r | _ => open_stream r end)) by (destruct (c_curve c); [apply dead_after|apply dead_open]; exact He).
      rewrite (dead_number rnd _ D). reflexivity. }
    destruct H as (t15 & S15 & H).
    assert (E : (match c_curve c with [] => after t14 | _ => open_stream t14 end) = open_stream t14) by (destruct (c_curve c); [apply (says_label_number _ _ _ S15)|reflexivity]).
    rewrite E, (number_says rnd _ _ _ S15). cbn [ibind].
    destruct j as [|j]; cbn [app firstn says_entries says_entry nth_error] in *.
    { subst. rewrite (dead_number rnd _ (dead_after _ He)). reflexivity. }
    destruct H as (t16 & S16 & H). rewrite (says_label_number _ _ _ S16), (number_says rnd _ _ _ S16). cbn [ibind].
    destruct j as [|j]; [|lia]. cbn [app firstn says_entries says_entry nth_error] in *.
    subst. rewrite (dead_number rnd _ (dead_after _ He)). reflexivity.
Qed.
Print Assumptions C93_cut_file_refuted.

(** a file that stops behind the directory; the box and the sieves are the vectors in front of which the reader hangs *)
Example C93_cut_case : exists c t, says_entries (firstn 1 (entries c)) t [newline] /\ file_ends [newline] /\ (1 < length (entries c))%nat /\
  length (c_box c) = 6%nat /\ Forall (fun v => length v = 3%nat) (c_curve c) /\ c_sieves c = inject_Z (Z.of_nat (length (c_curve c))) /\
  nth_error (entries c) 10 = Some (EVector (c_box c)) /\ nth_error (entries c) 13 = Some (EVector [1; 2; 3]%Q).
Proof.
  exists (mkContents (txt "results") 1 1 1 1 1 1 1 1 1 [0; 1; 0; 1; 0; 1]%Q true 1 [[1; 2; 3]%Q] 1 1 1), (txt "directory = results;" ++ [newline]).
  split; [|split; [split; [intros [H|[]]; discriminate H|cbn; lia]|repeat split; [cbn; lia|repeat constructor]]].
  exists [newline]. split; [|reflexivity].
  refine (string_complete _ _ (txt " results") [] _ _ _ _); [vm_compute; reflexivity | vm_compute; reflexivity | cbn; lia | vm_compute; reflexivity].
Qed.
