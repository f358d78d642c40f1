(** * Proofs for C83 *)
From Coq Require Import List ZArith Arith Bool Lia Reals.
From Verif Require Import Outcome GroupModel GroupSpec GroupProofs DofModel DofSpec DofProofs ConstraintModel ConstraintSpec ConstraintProofs Algebra
  MergerModel MergerSpec MergerProofs AssemblerModel AssemblerSpec AssemblerProofs TdpModel TdpSpec.
Import ListNotations.

Lemma merger_nodes_nodup mesh m d : memo_current mesh m ->
  exists l m', merger_nodes mesh m d = Ok (l, m') /\ memo_current mesh m' /\ NoDup l /\ forall a, In a l <-> in_mesh mesh d a.
Proof.
  intros H. destruct (merger_nodes_spec mesh m d H) as (l & m' & E & Hm & Hl). exists l, m'. split; [exact E|]. split; [exact Hm|]. split; [|exact Hl].
  destruct H as (Hs & H0). unfold merger_nodes in E. destruct (mfind lt_dof d m) as [l0|] eqn:F.
  - injection E as <- <-. apply (H0 d l0 F).
  - unfold nodes_total in E. destruct (group_history (flat_map (fun e => match e d with Some l => l | None => [] end) mesh)) as (g & Eg & Hok & Hd).
    rewrite Eg in E. injection E as <- _. rewrite Hd. apply NoDup_first_occ.
Qed.

Lemma group_of_spec l : NoDup l -> exists g, group_of l = Ok g /\ group_ok g /\ mData g = l.
Proof.
  intros H. destruct (group_history l) as (g & E & Hok & Hd). exists g. unfold group_of. rewrite E. split; [reflexivity|]. split; [exact Hok|].
  rewrite Hd. apply first_occ_NoDup_id; auto.
Qed.

Lemma numbered_of_dof_number h a i n : dof_number h (a, Z.of_nat i) = Ok (Z.of_nat n) -> numbered_as h a i n.
Proof.
  unfold dof_number, numbered_as. cbn [fst snd]. destruct (Z.ltb_spec (Z.of_nat i) 0); [lia|]. rewrite Nat2Z.id.
  destruct (nth_error (h a) i) as [z|]; [|discriminate]. intros E. injection E as ->. reflexivity.
Qed.

(** the numbers after Build *)
Lemma build_numbers (h h' : nodes) (l : list Z) N : NoDup l -> (forall a, length (h' a) = length (h a)) ->
  N = length (all_dofs (fun a => length (h a)) l) ->
  map (dof_number h') (all_dofs (fun a => length (h a)) l) = map (fun i => Ok (Z.of_nat i)) (seq 0 N) ->
  (forall a i, In a l -> i < length (h a) -> exists n, numbered_as h' a i n /\ n < N) /\
  (forall a a' i i' n, In a l -> In a' l -> numbered_as h' a i n -> numbered_as h' a' i' n -> a = a' /\ i = i') /\
  (forall n, n < N -> exists a i, In a l /\ i < length (h a) /\ numbered_as h' a i n).
Proof.
  intros Hn Hlen EN E. set (ks := all_dofs (fun a => length (h a)) l) in *.
  assert (Pos: forall p k, nth_error ks p = Some k -> dof_number h' k = Ok (Z.of_nat p)).
  { intros p k Hp. assert (Lp: p < N) by (rewrite EN; apply nth_error_Some; congruence).
    assert (X: nth_error (map (dof_number h') ks) p = Some (dof_number h' k)) by (rewrite nth_error_map, Hp; reflexivity).
    rewrite E, nth_error_map in X. rewrite (nth_error_nth' _ 0) in X by (rewrite seq_length; exact Lp). rewrite seq_nth in X by exact Lp.
    cbn [option_map] in X. injection X as X. symmetry. exact X. }
  assert (At: forall a i, In a l -> i < length (h a) -> exists p, nth_error ks p = Some (a, Z.of_nat i)).
  { intros a i Ha Hi. apply In_nth_error. unfold ks. apply in_all_dofs. split; [exact Ha|lia]. }
  assert (Num: forall a i, In a l -> i < length (h a) -> exists p, nth_error ks p = Some (a, Z.of_nat i) /\ numbered_as h' a i p).
  { intros a i Ha Hi. destruct (At a i Ha Hi) as (p & Hp). exists p. split; [exact Hp|]. apply numbered_of_dof_number. apply Pos. exact Hp. }
  split; [|split].
  - intros a i Ha Hi. destruct (Num a i Ha Hi) as (p & Hp & Q). exists p. split; [exact Q|]. rewrite EN. apply nth_error_Some. congruence.
  - intros a a' i i' n Ha Ha' H1 H2.
    assert (L1: i < length (h a)) by (rewrite <- Hlen; apply nth_error_Some; unfold numbered_as in H1; congruence).
    assert (L2: i' < length (h a')) by (rewrite <- Hlen; apply nth_error_Some; unfold numbered_as in H2; congruence).
    destruct (Num a i Ha L1) as (p & Hp & Q1). destruct (Num a' i' Ha' L2) as (p' & Hp' & Q2).
    unfold numbered_as in *. assert (p = n) by (rewrite H1 in Q1; injection Q1; lia). assert (p' = n) by (rewrite H2 in Q2; injection Q2; lia).
    subst. rewrite Hp in Hp'. injection Hp' as -> Hi. split; [reflexivity|lia].
  - intros n Hnn. rewrite EN in Hnn. apply nth_error_Some in Hnn. destruct (nth_error ks n) as [[a z]|] eqn:F; [|congruence].
    pose proof (nth_error_In _ _ F) as Hin. unfold ks in Hin. apply in_all_dofs in Hin. destruct Hin as (Ha & Hz).
    exists a, (Z.to_nat z). split; [exact Ha|]. split; [lia|]. apply numbered_of_dof_number. rewrite Z2Nat.id by lia. apply Pos. exact F.
Qed.

Lemma asc_mset {V} k (v : V) m : ascending m -> ascending (mset lt_dof k v m).
Proof. intros H. apply dsorted_ascending, dsorted_mset, dsorted_ascending. exact H. Qed.
Lemma asc_find {V} k k0 (v : V) m : ascending m -> mfind lt_dof k (mset lt_dof k0 v m) = if Z.eqb k k0 then Some v else mfind lt_dof k m.
Proof. intros H. apply dfind_dset, dsorted_ascending. exact H. Qed.

Definition sizes_at (info : dof_info) (d : Z) (N : nat) : Prop :=
  exists a b, mfind lt_dof d (numIndependent info) = Some a /\ mfind lt_dof d (numDependent info) = Some b /\ (a + b = Z.of_nat N)%Z.
Definition info_sorted (info : dof_info) : Prop := ascending (numIndependent info) /\ ascending (numDependent info).

(** what does not belong to the dof types [ds] stays *)
Definition frame (mesh : list felement) (ds : list Z) (s s' : tdp) (new new' : dofvec R_cring) : Prop :=
  (forall a, length (t_nodes s' a) = length (t_nodes s a)) /\
  (forall a, ~ (exists d, In d ds /\ in_mesh mesh d a) -> t_nodes s' a = t_nodes s a) /\
  (forall a j, option_map (@length R) (nth_error (t_values s' a) j) = option_map (@length R) (nth_error (t_values s a) j)) /\
  (forall a i j, j <> 0 \/ ~ (exists d, In d ds /\ in_mesh mesh d a) -> component (t_values s') j a i = component (t_values s) j a i) /\
  (forall d, ~ In d ds -> mfind lt_dof d new' = mfind lt_dof d new) /\
  (forall d, ~ In d ds -> mfind lt_dof d (numIndependent (t_info s')) = mfind lt_dof d (numIndependent (t_info s)) /\
                          mfind lt_dof d (numDependent (t_info s')) = mfind lt_dof d (numDependent (t_info s))).

Definition ready (mesh : list felement) (c : constraints) (old : dofvec R_cring) (s : tdp) (d : Z) : Prop :=
  (forall a, in_mesh mesh d a -> node_complete (t_nodes s) (t_values s) a) /\ old_fits mesh (t_nodes s) old d /\
  (forall k, mentions c d k -> in_mesh mesh d (fst k)).

Lemma num_values_complete h v a : node_complete h v a -> num_values v a = length (h a).
Proof. intros (vs & E & L). unfold num_values. destruct (v a) as [|w ws]; [discriminate|]. injection E as ->. exact L. Qed.

Lemma renumber_one_spec mesh c old garbage d s new : memo_current mesh (t_memo s) -> ascending old -> ascending new -> info_sorted (t_info s) ->
  ready mesh c old s d ->
  exists s' new' N, renumber_one mesh c old garbage d s new = Ok (s', new') /\ memo_current mesh (t_memo s') /\ ascending new' /\
    info_sorted (t_info s') /\ frame mesh [d] s s' new new' /\ sizes_at (t_info s') d N /\
    renumbered mesh old (t_nodes s) (t_values s) d (t_nodes s') (t_values s') new' N.
Proof.
  intros Hm Ho Hn Hi (Hc & Hf & Hk). unfold renumber_one.
  set (h := t_nodes s) in *. set (v := t_values s) in *.
  destruct (@dc_index (list R) [] old d) as [b old1] eqn:Edc.
  (* the merge *)
  assert (M: exists m1 v1, (if Nat.eqb (length b) 0 then Ok (t_memo s, v) else merge mesh h old1 [d] 0 (t_memo s) v) = Ok (m1, v1) /\ memo_current mesh m1 /\
     (forall a j, option_map (@length R) (nth_error (v1 a) j) = option_map (@length R) (nth_error (v a) j)) /\
     (forall a i, in_mesh mesh d a -> i < length (h a) -> exists x, component v1 0 a i = Some x /\ value_before old h v d a i x) /\
     (forall a i j, j <> 0 \/ ~ in_mesh mesh d a -> component v1 j a i = component v j a i)).
  { unfold dc_index in Edc. unfold old_fits in Hf. unfold value_before.
    destruct (mfind lt_dof d old) as [b0|] eqn:F; pose proof F as F'; [change (@mfind Z (list R) lt_dof d old = Some b0) in F'|change (@mfind Z (list R) lt_dof d old = None) in F'];
      rewrite F' in Edc.
    - injection Edc as <- <-. destruct b0 as [|y b0].
      + cbn [length Nat.eqb]. eexists _, _. split; [reflexivity|]. split; [exact Hm|]. split; [auto|]. split; [|auto].
        intros a i Ha Hii. destruct (Hc a Ha) as (vs & Ev & Lv). unfold component. rewrite Ev.
        destruct (nth_error vs i) as [x|] eqn:G; [eauto|]. apply nth_error_None in G. lia.
      + cbn [length Nat.eqb].
        destruct (merge_lemma mesh h old 0 (fun _ => length (y :: b0)) [d] (t_memo s) v Hm) as (m1 & v1 & E & Hm1 & _ & L & Hv & Hfr).
        * split; [repeat constructor; intros []|]. split.
          -- intros d' a [<-|[]] Ha. split; [exact (Hc a Ha)|]. split; [apply num_values_complete; exact (Hc a Ha)|].
             intros i Hii. exact (Hf a i Ha Hii).
          -- intros d1 d2 a [<-|[]] [<-|[]] _ _. reflexivity.
        * intros d' [<-|[]]. unfold size_of. rewrite F. reflexivity.
        * exists m1, v1. split; [exact E|]. split; [exact Hm1|]. split; [exact L|]. split.
          -- intros a i Ha Hii. destruct (Hf a i Ha Hii) as (n & Hnum & Hnl). exists (@val R_cring old d n).
             split; [apply (Hv d a i n); auto; left; auto|]. exists n. split; [exact Hnum|]. apply (nth_error_val old d (y :: b0) n F Hnl).
          -- intros a i j [Hj|Hj]; apply Hfr; [left; exact Hj|right]. intros (d' & [<-|[]] & Ha). auto.
    - injection Edc as <- _. cbn [length Nat.eqb]. eexists _, _. split; [reflexivity|]. split; [exact Hm|]. split; [auto|]. split; [|auto].
      intros a i Ha Hii. destruct (Hc a Ha) as (vs & Ev & Lv). unfold component. rewrite Ev.
      destruct (nth_error vs i) as [x|] eqn:G; [eauto|]. apply nth_error_None in G. lia. }
  destruct M as (m1 & v1 & -> & Hm1 & Lv1 & Val1 & Fr1). cbn [obind fst snd].
  destruct (merger_nodes_nodup mesh m1 d Hm1) as (l & m2 & -> & Hm2 & Hnd & Hl). cbn [obind fst snd].
  destruct (group_of_spec l Hnd) as (g & -> & Hok & Hg). cbn [obind].
  destruct (build_numbering_lemma h g d c Hok) as [((k & Hk1 & Hk2) & _)|(_ & h' & ni & nd & EB & Hmap & Hdep & Hsum & Hlen & Hother)].
  { exfalso. apply Hk2. rewrite Hg. apply Hl. apply Hk. exact Hk1. }
  rewrite EB. cbn [obind]. rewrite Hg in Hmap, Hsum, Hother.
  set (N := length (all_dofs (fun a => length (h a)) l)) in *.
  destruct (Z.ltb_spec (ni + nd) 0) as [|_]; [lia|]. rewrite Hsum, Nat2Z.id.
  destruct (build_numbers h h' l N Hnd Hlen eq_refl Hmap) as (B1 & B2 & B3).
  set (new1 := mset lt_dof d (map (garbage d) (seq 0 N)) new).
  assert (An1: ascending new1) by (apply asc_mset; exact Hn).
  assert (Sz1: @size_of R_cring new1 d = Some N).
  { unfold size_of, new1. rewrite asc_find by exact Hn. rewrite Z.eqb_refl. cbn [option_map]. rewrite map_length, seq_length. reflexivity. }
  destruct (extract_lemma mesh h' v1 0 (fun _ => N) [d] m2 new1 Hm2 An1) as (m3 & new' & E3 & Hm3 & An3 & Sz3 & Fr3 & Val3).
  { split; [repeat constructor; intros []|]. split.
    - intros d' a [<-|[]] Ha. destruct (Hc a Ha) as (vs & Ev & Lvs).
      assert (Cv: node_complete h' v1 a).
      { specialize (Lv1 a 0). rewrite Ev in Lv1. destruct (nth_error (v1 a) 0) as [ws|] eqn:G; [|discriminate]. exists ws. split; [exact G|].
        injection Lv1 as Lv1. rewrite Hlen. congruence. }
      split; [exact Cv|]. split; [apply num_values_complete; exact Cv|]. intros i Hii. apply B1; [apply Hl; exact Ha|rewrite <- Hlen; exact Hii].
    - intros d1 d2 a [<-|[]] [<-|[]] _ _. reflexivity. }
  { intros d' a a' i i' n [<-|[]] Ha Ha'. apply B2; apply Hl; assumption. }
  { intros d' [<-|[]]. exact Sz1. }
  rewrite E3. cbn [omap obind fst snd]. destruct Hi as (Hi1 & Hi2).
  eexists _, new', N. split; [reflexivity|]. cbn [t_memo t_nodes t_values t_info].
  split; [exact Hm3|]. split; [exact An3|]. unfold dof_info_merge. cbn [numIndependent numDependent].
  assert (X: forall z, fst (dc_index 0%Z [(d, z)] d) = z).
  { intros z. unfold dc_index. cbn [mfind]. rewrite ltdof_irrefl. reflexivity. }
  rewrite !X. split; [split; apply asc_mset; assumption|]. split; [|split].
  - split; [exact Hlen|]. cbn [t_nodes t_values t_info numIndependent numDependent]. split; [|split; [exact Lv1|split; [|split]]].
    + intros a Ha. apply Hother. intros F. apply Ha. exists d. split; [left; reflexivity|apply Hl; exact F].
    + intros a i j [Hj|Hj]; apply Fr1; [left; exact Hj|right]. intros F. apply Hj. exists d. split; [left; reflexivity|exact F].
    + intros d' Hd'. rewrite Fr3 by exact Hd'. unfold new1. rewrite asc_find by exact Hn.
      destruct (Z.eqb_spec d' d) as [->|]; [exfalso; apply Hd'; left; reflexivity|reflexivity].
    + intros d' Hd'. rewrite !asc_find by assumption. destruct (Z.eqb_spec d' d) as [->|]; [exfalso; apply Hd'; left; reflexivity|auto].
  - exists ni, nd. cbn [numIndependent numDependent]. rewrite !asc_find, Z.eqb_refl by assumption. auto.
  - split; [rewrite Sz3; exact Sz1|]. split; [|split].
    + intros a i Ha Hii. destruct (B1 a i (proj2 (Hl a) Ha) Hii) as (n & Hnum & HnN). destruct (Val1 a i Ha Hii) as (x & Cx & Vx).
      exists n, x. split; [exact Hnum|]. split; [exact HnN|]. split; [exact Vx|]. split; [|exact Cx].
      pose proof (Val3 d a i n (or_introl eq_refl) Ha Hnum) as E. rewrite Cx in E. injection E as E. symmetry. exact E.
    + intros a a' i i' n Ha Ha'. apply B2; apply Hl; assumption.
    + intros n Hnn. destruct (B3 n Hnn) as (a & i & Ha & Hii & Hnum). exists a, i. split; [apply Hl; exact Ha|]. auto.
Qed.

Definition separate (mesh : list felement) (dofTypes : list Z) : Prop :=
  forall d d' a, In d dofTypes -> In d' dofTypes -> in_mesh mesh d a -> in_mesh mesh d' a -> d = d'.

Lemma node_complete_frame mesh ds s s' new new' a : frame mesh ds s s' new new' -> node_complete (t_nodes s) (t_values s) a ->
  node_complete (t_nodes s') (t_values s') a.
Proof.
  intros (L1 & _ & L2 & _) (vs & E & L). specialize (L2 a 0). rewrite E in L2. destruct (nth_error (t_values s' a) 0) as [ws|] eqn:G; [|discriminate].
  exists ws. split; [exact G|]. injection L2 as L2. rewrite L1. congruence.
Qed.

Lemma value_before_frame mesh ds s s' new new' old d a i x : frame mesh ds s s' new new' -> ~ (exists d, In d ds /\ in_mesh mesh d a) ->
  value_before old (t_nodes s') (t_values s') d a i x -> value_before old (t_nodes s) (t_values s) d a i x.
Proof.
  intros (_ & F1 & _ & F2 & _) Ha. unfold value_before, numbered_as. rewrite (F1 a Ha). rewrite (F2 a i 0) by (right; exact Ha). auto.
Qed.

Lemma renumber_loop_spec mesh c old garbage : ascending old -> forall ds s new, NoDup ds -> separate mesh ds ->
  memo_current mesh (t_memo s) -> ascending new -> info_sorted (t_info s) -> (forall d, In d ds -> ready mesh c old s d) ->
  exists s' new', renumber_loop mesh c old garbage ds s new = Ok (s', new') /\ memo_current mesh (t_memo s') /\ ascending new' /\
    info_sorted (t_info s') /\ frame mesh ds s s' new new' /\
    forall d, In d ds -> exists N, sizes_at (t_info s') d N /\
      renumbered mesh old (t_nodes s) (t_values s) d (t_nodes s') (t_values s') new' N.
Proof.
  intros Ho. induction ds as [|d ds IH]; intros s new Hnd Hsep Hm Hn Hi Hr.
  - exists s, new. split; [reflexivity|]. split; [exact Hm|]. split; [exact Hn|]. split; [exact Hi|]. split; [|intros d []]. repeat split; auto.
  - apply NoDup_cons_iff in Hnd. destruct Hnd as (Hd & Hnd).
    destruct (renumber_one_spec mesh c old garbage d s new Hm Ho Hn Hi (Hr d (or_introl eq_refl))) as (s1 & new1 & N & E1 & Hm1 & Hn1 & Hi1 & F1 & S1 & R1).
    cbn [renumber_loop]. rewrite E1. cbn [obind fst snd].
    assert (Out: forall d' a, In d' ds -> in_mesh mesh d' a -> ~ (exists e, In e [d] /\ in_mesh mesh e a)).
    { intros d' a Hd' Ha (e & [<-|[]] & Hae). apply Hd. rewrite (Hsep d d' a); auto; [left; reflexivity|right; exact Hd']. }
    assert (Out2: forall a, in_mesh mesh d a -> ~ (exists e, In e ds /\ in_mesh mesh e a)).
    { intros a Ha (e & He & Hae). apply (Out e a He Hae). exists d. split; [left; reflexivity|exact Ha]. }
    destruct (IH s1 new1 Hnd) as (s' & new' & E2 & Hm2 & Hn2 & Hi2 & F2 & R2); auto.
    { intros d1 d2 a H1 H2. apply Hsep; right; assumption. }
    { intros d' Hd'. destruct (Hr d' (or_intror Hd')) as (A & B & C). split; [|split; [|exact C]].
      - intros a Ha. apply (node_complete_frame _ _ _ _ _ _ _ F1). apply A. exact Ha.
      - unfold old_fits in *. destruct (mfind lt_dof d' old) as [[|y b]|]; auto. intros a i Ha Hii.
        destruct F1 as (_ & F1 & _). unfold numbered_as. rewrite (F1 a (Out d' a Hd' Ha)) in *. exact (B a i Ha Hii). }
    exists s', new'. split; [exact E2|]. split; [exact Hm2|]. split; [exact Hn2|]. split; [exact Hi2|]. split.
    + destruct F1 as (A1 & A2 & A3 & A4 & A5 & A6). destruct F2 as (B1 & B2 & B3 & B4 & B5 & B6).
      split; [intros a; rewrite B1; apply A1|]. split; [|split; [intros a j; rewrite B3; apply A3|split; [|split]]].
      * intros a Ha. rewrite B2, A2; auto; intros (e & He & Hae); apply Ha; exists e; split; auto; [destruct He as [<-|[]]; left; reflexivity|right; exact He].
      * intros a i j Hj. rewrite B4, A4; auto; destruct Hj as [Hj|Hj]; auto; right; intros (e & He & Hae); apply Hj; exists e; split; auto; [destruct He as [<-|[]]; left; reflexivity|right; exact He].
      * intros d' Hd'. rewrite B5, A5; auto; intros F; apply Hd'; [destruct F as [<-|[]]; left; reflexivity|right; exact F].
      * intros d' Hd'. destruct (B6 d') as (-> & ->); [intros F; apply Hd'; right; exact F|]. apply A6. intros F. apply Hd'. destruct F as [<-|[]]. left; reflexivity.
    + intros d' [<-|Hd'].
      * exists N. destruct F2 as (B1 & B2 & B3 & B4 & B5 & B6). split.
        -- destruct S1 as (x & y & Ex & Ey & Es). destruct (B6 d Hd) as (G1 & G2). exists x, y. rewrite G1, G2. auto.
        -- destruct R1 as (Q1 & Q2 & Q3 & Q4). split; [unfold size_of; rewrite (B5 d Hd); exact Q1|]. split; [|split].
           ++ intros a i Ha Hii. destruct (Q2 a i Ha Hii) as (n & x & Hx1 & Hx2 & Hx3 & Hx4 & Hx5). exists n, x.
              unfold numbered_as. rewrite (B2 a (Out2 a Ha)). split; [exact Hx1|]. split; [exact Hx2|]. split; [exact Hx3|].
              split; [unfold val; rewrite (B5 d Hd); exact Hx4|]. rewrite (B4 a i 0) by (right; apply Out2; exact Ha). exact Hx5.
           ++ intros a a' i i' n Ha Ha'. unfold numbered_as. rewrite (B2 a (Out2 a Ha)), (B2 a' (Out2 a' Ha')). apply Q3; assumption.
           ++ intros n Hnn. destruct (Q4 n Hnn) as (a & i & Ha & Hii & Hx). exists a, i. unfold numbered_as. rewrite (B2 a (Out2 a Ha)). auto.
      * destruct (R2 d' Hd') as (N' & S2 & Q1 & Q2 & Q3 & Q4). exists N'. split; [exact S2|]. 
        pose proof F1 as FF1. destruct F1 as (A1 & A2 & _).
        split; [exact Q1|]. split; [|split; [exact Q3|]].
        -- intros a i Ha Hii. rewrite <- A1 in Hii. destruct (Q2 a i Ha Hii) as (n & x & Hx1 & Hx2 & Hx3 & Hx4 & Hx5). exists n, x.
           split; [exact Hx1|]. split; [exact Hx2|]. split; [|auto]. apply (value_before_frame _ _ _ _ _ _ _ _ _ _ _ FF1); auto. apply (Out d' a Hd' Ha).
        -- intros n Hnn. destruct (Q4 n Hnn) as (a & i & Ha & Hii & Hx). exists a, i. rewrite A1 in Hii. auto.
Qed.

(** ** Gradient *)
Section Gradient.
  Variables (info : dof_info) (threads : nat) (dofs : list Z) (t dt : R) (v : node_values) (h : nodes) (N : Z -> nat).
  Hypothesis Hnd : NoDup dofs.
  Hypothesis Hth : 0 < threads.
  Hypothesis Hsz : sizes_known info dofs N.

  Definition acc_ok (acc : dofvec R_cring) : Prop :=
    ascending acc /\ forall d, @size_of R_cring acc d = None \/ (In d dofs /\ @size_of R_cring acc d = Some (N d)).
  Definition fits_all (fs : list gradient_function) : Prop := forall f, In f fs -> Forall (vcell_fits dofs N) (f t dt v h).

  Lemma acc_add acc g : acc_ok acc -> ascending g ->
    (forall d, @size_of R_cring g d = if existsb (Z.eqb d) dofs then Some (N d) else None) ->
    exists acc', dv_add acc g = Some acc' /\ acc_ok acc' /\ (forall d, In d dofs -> @size_of R_cring acc' d = Some (N d)) /\
      forall d n, @val R_cring acc' d n = @radd R_cring (@val R_cring acc d n) (@val R_cring g d n).
  Proof.
    intros (Ha & Hs) Hg Hgs.
    assert (Hex: forall d, existsb (Z.eqb d) dofs = true <-> In d dofs).
    { intros d. rewrite existsb_exists. split; [intros (x & Hx & E); apply Z.eqb_eq in E; subst; exact Hx|intros H; exists d; split; [exact H|apply Z.eqb_refl]]. }
    destruct (dv_add_lemma (F := R_cring) acc g Ha Hg) as (c & E & Hc & Hcs & Hcv).
    { intros d x y Hx Hy. specialize (Hs d). specialize (Hgs d). unfold size_of in Hs, Hgs. rewrite Hx in Hs. rewrite Hy in Hgs. cbn [option_map] in *.
      destruct (existsb (Z.eqb d) dofs) eqn:Eb; [|discriminate]. destruct Hs as [Hs|(_ & Hs)]; [discriminate|]. congruence. }
    exists c. split; [exact E|]. split; [split; [exact Hc|]|split].
    - intros d. rewrite Hcs, Hgs. destruct (Hs d) as [->|(Hd & ->)].
      + destruct (existsb (Z.eqb d) dofs) eqn:Eb; cbn [osize]; [right; split; [apply Hex; exact Eb|reflexivity]|left; reflexivity].
      + right. split; [exact Hd|reflexivity].
    - intros d Hd. rewrite Hcs, Hgs, (proj2 (Hex d) Hd). destruct (Hs d) as [->|(_ & ->)]; reflexivity.
    - exact Hcv.
  Qed.

  Lemma gradient_loop_spec fs : forall acc, acc_ok acc -> fits_all fs ->
    (exists g, gradient_loop info threads dofs t dt v h fs acc (Ok g)) /\
    forall r, gradient_loop info threads dofs t dt v h fs acc r ->
      exists g, r = Ok g /\ acc_ok g /\ (fs <> [] -> forall d, In d dofs -> @size_of R_cring g d = Some (N d)) /\
        (forall d n, In d dofs -> @val R_cring g d n =
           @radd R_cring (@val R_cring acc d n) (sum_over fs (fun f => sum_over (f t dt v h) (fun c => vcell_contrib c d n)))).
  Proof.
    induction fs as [|f fs IH]; intros acc Hacc Hfit.
    - split; [exists acc; constructor|]. intros r Hr. inversion Hr; subst. exists acc. split; [reflexivity|]. split; [exact Hacc|].
      split; [intros F; congruence|]. intros d n Hd. symmetry. apply (Rplus_0_r).
    - destruct (build_vector_lemma info threads (f t dt v h) dofs N Hnd Hth Hsz (Hfit f (or_introl eq_refl))) as ((g0 & B0) & Ball).
      assert (Hfit' : fits_all fs) by (intros f' Hf'; apply Hfit; right; exact Hf').
      assert (Step: forall g, build_vector info threads (f t dt v h) dofs (Ok g) -> exists acc', dv_add acc g = Some acc' /\ acc_ok acc' /\
          (forall d, In d dofs -> @size_of R_cring acc' d = Some (N d)) /\
          forall d n, In d dofs -> @val R_cring acc' d n = @radd R_cring (@val R_cring acc d n) (sum_over (f t dt v h) (fun c => vcell_contrib c d n))).
      { intros g Bg. destruct (Ball _ Bg) as (g' & Eg & Ag & Sg & Vg). injection Eg as <-.
        destruct (acc_add acc g Hacc Ag Sg) as (acc' & E1 & E2 & E3 & E4). exists acc'. split; [exact E1|]. split; [exact E2|]. split; [exact E3|].
        intros d n Hd. rewrite E4, (Vg d n Hd). reflexivity. }
      assert (Fin: forall acc' g, (forall d, In d dofs -> @size_of R_cring acc' d = Some (N d)) ->
                (fs <> [] -> forall d, In d dofs -> @size_of R_cring g d = Some (N d)) ->
                gradient_loop info threads dofs t dt v h fs acc' (Ok g) -> forall d, In d dofs -> @size_of R_cring g d = Some (N d)).
      { intros acc' g Ha Hg Hl d Hd. destruct fs as [|f' fs']; [inversion Hl; subst; auto|apply Hg; [discriminate|exact Hd]]. }
      split.
      + destruct (Step g0 B0) as (acc' & E1 & E2 & E3 & E4). destruct (IH acc' E2 Hfit') as ((g & Hg) & _).
        exists g. eapply gl_next; eauto.
      + intros r Hr. inversion Hr as [|? ? ? Hb|? ? ? Hb|? ? ? g Hb Hadd|? ? ? g acc1 ? Hb Hadd Hrest]; subst.
        * destruct (Ball _ Hb) as (g' & F & _). discriminate.
        * destruct (Ball _ Hb) as (g' & F & _). discriminate.
        * destruct (Step g Hb) as (acc' & E1 & _). congruence.
        * destruct (Step g Hb) as (acc' & E1 & E2 & E3 & E4). assert (acc1 = acc') by congruence. subst acc1.
          destruct (IH acc' E2 Hfit') as (_ & Hall). destruct (Hall r Hrest) as (g' & -> & G1 & G2 & G3).
          exists g'. split; [reflexivity|]. split; [exact G1|]. split; [intros _; apply (Fin acc' g'); assumption|].
          intros d n Hd. rewrite (G3 d n Hd), (E4 d n Hd). cbn [sum_over map]. apply Rplus_assoc.
  Qed.
End Gradient.

(** ** CellStorage *)
Lemma add_cells_loop_spec es : forall next cells g, group_ok g -> (forall a, In a (mData g) -> (a < Z.of_nat (length cells))%Z) ->
  (next + Z.of_nat (length es) <= INT_MAX)%Z ->
  exists g', add_cells_loop es next cells g =
    Ok (cells ++ map (fun p => mkScell (fst p) (next + Z.of_nat (snd p))) (combine es (seq 0 (length es))), g') /\
    group_ok g' /\ mData g' = mData g ++ map (fun i => Z.of_nat (length cells + i)) (seq 0 (length es)).
Proof.
  induction es as [|e es IH]; intros next cells g Hok Hlt Hmax; cbn [add_cells_loop].
  - exists g. cbn [length seq combine map]. rewrite !app_nil_r. auto.
  - cbn [length] in Hmax. destruct (Z.leb_spec INT_MAX next); [lia|].
    destruct (group_add_spec g (Z.of_nat (length cells)) Hok) as (g1 & -> & Hok1 & Hd1).
    assert (Hd: mData g1 = mData g ++ [Z.of_nat (length cells)]).
    { rewrite Hd1. destruct (in_dec Z.eq_dec (Z.of_nat (length cells)) (mData g)) as [F|_]; [apply Hlt in F; lia|reflexivity]. }
    destruct (IH (next + 1)%Z (cells ++ [mkScell e next]) g1 Hok1) as (g' & E & Hok' & Hd').
    { intros a. rewrite Hd, in_app_iff. rewrite app_length. cbn [length]. intros [Ha|[<-|[]]]; [apply Hlt in Ha|]; lia. }
    { lia. }
    exists g'. rewrite E. split; [|split; [exact Hok'|]].
    + f_equal. f_equal. rewrite <- app_assoc. f_equal. cbn [length seq combine map fst snd]. change (next + Z.of_nat 0)%Z with (next + 0)%Z.
      rewrite Z.add_0_r. cbn [app]. f_equal. rewrite <- seq_shift. 
      clear. generalize (seq 0 (length es)). induction es as [|x es IH]; intros [|n l]; cbn [combine map]; auto. cbn [fst snd]. f_equal; [f_equal; lia|apply IH].
    + rewrite Hd', Hd, <- app_assoc. f_equal. cbn [length seq map app]. rewrite Nat.add_0_r. f_equal. rewrite <- seq_shift, map_map.
      apply map_ext. intros i. rewrite app_length. cbn [length]. f_equal. lia.
Qed.
