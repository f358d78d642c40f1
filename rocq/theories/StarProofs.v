(** * Point in polygon for star-shaped polygons *)
From Coq Require Import Reals ZArith List Bool Arith Lia Lra Psatz Permutation.
From Verif Require Import Outcome AdaptiveModel AdaptiveProofs CollisionModel CollisionProofs2 DelaunayModel DelaunaySpec DelaunayProofs DelaunayProofs2.
Import ListNotations.
Local Open Scope R_scope.

(** ** the parity of one *)
Lemma parity_one : forall (A : Type) (f : A -> bool) l x, NoDup l -> In x l -> f x = true -> (forall y, In y l -> f y = true -> y = x) ->
  parity f l = true.
Proof.
  intros A f l x. induction l as [|z l IH]; intros ND Hx Fx Hu; [destruct Hx|]. cbn [parity]. apply NoDup_cons_iff in ND. destruct ND as (N & ND).
  destruct Hx as [->|Hx].
  - rewrite Fx, (parity_zero _ f l); [reflexivity|]. intros y Hy. destruct (f y) eqn:E; trivial. exfalso. apply N. rewrite <- (Hu y); auto. now right.
  - assert (f z = false) as ->.
    { destruct (f z) eqn:E; trivial. exfalso. apply N. rewrite (Hu z) by (auto; now left). exact Hx. }
    rewrite IH; auto. intros y Hy. apply Hu. now right.
Qed.
Lemma cyclic_nodup ps : NoDup ps -> NoDup (cyclic_edges ps).
Proof.
  destruct ps as [|p ps]; intro ND; [apply NoDup_nil|]. unfold cyclic_edges. revert ND. generalize (p :: ps), (ps ++ [p]).
  induction l as [|x l IH]; intros m ND; [apply NoDup_nil|]. destruct m as [|y m]; [apply NoDup_nil|]. cbn [combine].
  apply NoDup_cons_iff in ND. destruct ND as (N & ND). apply NoDup_cons; [|now apply IH]. intro H. apply N. eapply in_combine_l; exact H.
Qed.
Lemma cyclic_fst (ps : list p2) (A B B' : p2) : NoDup ps -> In (A, B) (cyclic_edges ps) -> In (A, B') (cyclic_edges ps) -> B = B'.
Proof.
  intros ND H H'. apply side_of_edges in H, H'. unfold side_of in *. change (R * R)%type with p2 in *. destruct H as (i & Hi & Hn), H' as (j & Hj & Hm).
  assert (i = j) as <- by (apply (proj1 (NoDup_nth_error ps) ND); [apply nth_error_Some; congruence|congruence]).
  assert (S i = length ps -> nth_error ps (S i) = None) by (intro; apply nth_error_None; lia).
  destruct Hn as [Hn|(L & Hn)], Hm as [Hm|(L' & Hm)]; try congruence; rewrite H in * by assumption; discriminate.
Qed.
Lemma cyclic_before (ps : list p2) (A : p2) : In A ps -> exists Z, In (Z, A) (cyclic_edges ps).
Proof.
  intro H. destruct (In_nth_error _ _ H) as (i & Hi). assert (Li : (i < length ps)%nat) by (apply nth_error_Some; congruence).
  destruct i as [|i].
  - destruct (nth_error ps (length ps - 1)) as [Z|] eqn:E; [|apply nth_error_None in E; lia]. exists Z. apply side_of_edges.
    exists (length ps - 1)%nat. split; [exact E|]. right. split; [change (R * R)%type with p2; lia|exact Hi].
  - destruct (nth_error ps i) as [Z|] eqn:E; [|apply nth_error_None in E; lia]. exists Z. apply side_of_edges. exists i. split; [exact E|]. left. exact Hi.
Qed.
Lemma cyclic_after (ps : list p2) (A : p2) : In A ps -> exists B, In (A, B) (cyclic_edges ps).
Proof.
  intro H. destruct (In_nth_error _ _ H) as (i & Hi). assert (Li : (i < length ps)%nat) by (apply nth_error_Some; congruence).
  destruct (nth_error ps (S i)) as [Z|] eqn:E.
  - exists Z. apply side_of_edges. exists i. split; [exact Hi|]. left. exact E.
  - apply nth_error_None in E. destruct (nth_error ps 0) as [Z|] eqn:E0; [|apply nth_error_None in E0; lia]. exists Z. apply side_of_edges.
    exists i. split; [exact Hi|]. right. split; [change (R * R)%type with p2; lia|exact E0].
Qed.

(** ** the fan around any point *)
Lemma last_snoc : forall (l : list p2) a b, last (l ++ [b]) a = b.
Proof. induction l as [|c l IH]; intros a b; [reflexivity|]. change ((c :: l) ++ [b]) with (c :: (l ++ [b])). rewrite last_cons. apply IH. Qed.
Lemma center_fan P c ps : generic P c -> (forall b, In b ps -> generic P b) -> (forall A, In A ps -> c <> A) ->
  parity (hits P) (cyclic_edges ps) = parity (fun e => in_triangle c (fst e) (snd e) P) (cyclic_edges ps).
Proof.
  intros Gc G N. destruct ps as [|p ps]; [reflexivity|].
  rewrite (parity_ext _ (fun e => in_triangle c (fst e) (snd e) P)
     (fun e => xorb (hits P (c, fst e)) (xorb (hits P (fst e, snd e)) (hits P (snd e, c))))).
  - rewrite cyclic_path. rewrite (fan P c (ps ++ [p]) p Gc).
    + rewrite last_snoc. destruct (hits P (c, p)); cbn [xorb]; destruct (parity _ _); reflexivity.
    + apply G. now left.
    + intros b Hb. apply G. apply in_app_or in Hb. destruct Hb as [Hb|[<-|[]]]; [now right|now left].
  - intros [A B] HAB. cbn [fst snd]. apply cyclic_in in HAB. destruct HAB. symmetry. apply triangle_parity; auto.
Qed.

(** ** a point shifted to the right *)
Definition shift (P : p2) (e : R) : p2 := (px P + e, py P).
Lemma orient_shift A B P e : orient A B (shift P e) = orient A B P - (py B - py A) * e.
Proof. unfold orient, shift, px, py. cbn [fst snd]. ring. Qed.
Lemma small_shift A B P : lft A B P = true -> exists d, 0 < d /\ forall e, 0 < e < d -> 0 < orient A B (shift P e).
Proof.
  intro H. apply lft_true in H. destruct H as [H|(H & Y)].
  - exists (orient A B P / (Rabs (py B - py A) + 1)). pose proof (Rabs_pos (py B - py A)). split; [apply Rdiv_lt_0_compat; lra|].
    intros e (E0 & E1). rewrite orient_shift. apply (Rmult_lt_compat_r (Rabs (py B - py A) + 1)) in E1; [|lra].
    unfold Rdiv in E1. rewrite Rmult_assoc, Rinv_l in E1 by lra. pose proof (Rle_abs (py B - py A)). nra.
  - exists 1. split; [lra|]. intros e He. rewrite orient_shift, H. nra.
Qed.
Lemma min_pos a b : 0 < a -> 0 < b -> exists d, 0 < d /\ d <= a /\ d <= b.
Proof. intros. exists (Rmin a b). split; [now apply Rmin_pos|]. split; [apply Rmin_l|apply Rmin_r]. Qed.

Lemma triangle_shift c A B P : 0 < orient c A B -> in_triangle c A B P = true ->
  0 <= orient c A P /\ 0 <= orient A B P /\ 0 <= orient B c P /\
  exists d, 0 < d /\ forall e, 0 < e < d -> in_open_triangle 1 c A B (shift P e).
Proof.
  intros HO HT. assert (Sum : orient c A P + orient A B P + orient B c P = orient c A B) by (unfold orient; ring).
  unfold in_triangle in HT. destruct (lft c A P) eqn:E1, (lft A B P) eqn:E2, (lft B c P) eqn:E3; cbn in HT; try discriminate.
  - destruct (small_shift _ _ _ E1) as (d1 & D1 & S1), (small_shift _ _ _ E2) as (d2 & D2 & S2), (small_shift _ _ _ E3) as (d3 & D3 & S3).
    apply lft_true in E1, E2, E3. split; [lra|]. split; [lra|]. split; [lra|].
    destruct (min_pos d1 d2 D1 D2) as (d & D & L1 & L2). destruct (min_pos d d3 D D3) as (d' & D' & L1' & L2').
    exists d'. split; [exact D'|]. intros e He. unfold in_open_triangle. specialize (S1 e ltac:(lra)). specialize (S2 e ltac:(lra)).
    specialize (S3 e ltac:(lra)). lra.
  - apply lft_false in E1, E2, E3. lra.
Qed.

Section Star.
Variables (c P : p2) (ps : list p2).
Hypotheses (HN : ps <> []) (ND : NoDup ps) (HO : forall A B, In (A, B) (cyclic_edges ps) -> 0 < orient c A B)
  (HD : forall A B A' B' Q, In (A, B) (cyclic_edges ps) -> In (A', B') (cyclic_edges ps) ->
     in_open_triangle 1 c A B Q -> in_open_triangle 1 c A' B' Q -> A = A')
  (HG : forall A, In A ps -> generic P A).

Lemma center_neq A : In A ps -> c <> A.
Proof. intros H <-. destruct (cyclic_after ps c H) as (B & HB). apply HO in HB. unfold orient in HB. lra. Qed.

Lemma unique_triangle e e' : In e (cyclic_edges ps) -> In e' (cyclic_edges ps) -> in_triangle c (fst e) (snd e) P = true ->
  in_triangle c (fst e') (snd e') P = true -> e = e'.
Proof.
  destruct e as [A B], e' as [A' B']. cbn [fst snd]. intros He He' HT HT'.
  destruct (triangle_shift c A B P (HO _ _ He) HT) as (_ & _ & _ & d & D & S1).
  destruct (triangle_shift c A' B' P (HO _ _ He') HT') as (_ & _ & _ & d' & D' & S2).
  destruct (min_pos d d' D D') as (m & M & L1 & L2).
  assert (A = A') as <- by (apply (HD A B A' B' (shift P (m / 2)) He He'); [apply S1|apply S2]; lra).
  f_equal. eapply cyclic_fst; eassumption.
Qed.

(** the triangle of an inner point, chosen as the code chooses on the common sides *)
Lemma some_triangle A B : generic P c -> In (A, B) (cyclic_edges ps) -> 0 <= orient c A P -> 0 <= orient B c P -> 0 < orient A B P ->
  exists e, In e (cyclic_edges ps) /\ in_triangle c (fst e) (snd e) P = true.
Proof.
  intros Gc He H1 H2 H3. pose proof (HO _ _ He) as HT. destruct (cyclic_in _ _ _ He) as (IA & IB).
  assert (Sum : orient c A P + orient A B P + orient B c P = orient c A B) by (unfold orient; ring).
  assert (NP : ~ (orient c A P = 0 /\ orient B c P = 0)).
  { intros (Z1 & Z2). apply Gc. destruct c as [cx cy], A as [ax ay], B as [bx by_], P as [x y]. unfold orient, py in *. cbn [fst snd] in *.
    assert ((cy - y) * ((ax - cx) * (by_ - cy) - (ay - cy) * (bx - cx)) = 0) as Z.
    { assert (Z3 : (ax - cx) * (y - cy) = (ay - cy) * (x - cx)) by lra. assert (Z4 : (cx - bx) * (y - by_) = (cy - by_) * (x - bx)) by lra.
      assert (Z5 : (bx - cx) * (y - cy) = (by_ - cy) * (x - cx)) by lra.
      replace ((cy - y) * ((ax - cx) * (by_ - cy) - (ay - cy) * (bx - cx)))
        with (- ((ax - cx) * (y - cy)) * (by_ - cy) + (ay - cy) * ((bx - cx) * (y - cy))) by ring.
      rewrite Z3, Z5. ring. }
    apply Rmult_integral in Z. destruct Z; lra. }
  (* in_triangle when the three tests agree *)
  assert (T : forall X Y, lft c X P = true -> lft X Y P = true -> lft Y c P = true -> in_triangle c X Y P = true).
  { intros X Y T1 T2 T3. unfold in_triangle. rewrite T1, T2, T3. reflexivity. }
  destruct (lft c A P) eqn:E1; [destruct (lft B c P) eqn:E2|].
  - exists (A, B). split; [exact He|]. cbn [fst snd]. apply T; auto. now apply lft_pos.
  - (* on the side from B to c: the next triangle *)
    apply lft_false in E2. assert (Z2 : orient B c P = 0) by lra. destruct (cyclic_after ps B IB) as (D & HDn).
    exists (B, D). split; [exact HDn|]. cbn [fst snd]. pose proof (HO _ _ HDn) as HT'.
    assert (Q1 : orient D c P * orient c A B = orient c A P * orient c B D + orient D c A * orient B c P) by (unfold orient; ring).
    assert (Q2 : orient B D P * orient c A B = orient A B P * orient c B D + orient B c P * (orient B D A)) by (unfold orient; ring).
    assert (0 < orient c A P) by (destruct H1 as [H1|H1]; [exact H1|exfalso; apply NP; lra]).
    rewrite Z2 in Q1, Q2. apply T.
    + rewrite lft_swap with (A := B); [|now apply HG|intro X; symmetry in X; revert X; now apply center_neq].
      destruct (lft B c P) eqn:E; [apply lft_true in E; lra|reflexivity].
    + apply lft_pos. assert (0 < orient A B P * orient c B D) by (apply Rmult_lt_0_compat; assumption). nra.
    + apply lft_pos. assert (0 < orient c A P * orient c B D) by (apply Rmult_lt_0_compat; assumption). nra.
  - (* on the side from c to A: the triangle before *)
    apply lft_false in E1. assert (Z1 : orient c A P = 0) by lra. destruct (cyclic_before ps A IA) as (Z & HZ).
    exists (Z, A). split; [exact HZ|]. cbn [fst snd]. pose proof (HO _ _ HZ) as HT'.
    assert (Q1 : orient c Z P * orient c A B = orient B c P * orient c Z A + orient c A P * orient c Z B) by (unfold orient; ring).
    assert (Q2 : orient Z A P * orient c A B = orient A B P * orient c Z A + orient c A P * orient Z A B) by (unfold orient; ring).
    assert (0 < orient B c P) by (destruct H2 as [H2|H2]; [exact H2|exfalso; apply NP; lra]).
    rewrite Z1 in Q1, Q2. apply T.
    + apply lft_pos. assert (0 < orient B c P * orient c Z A) by (apply Rmult_lt_0_compat; assumption). nra.
    + apply lft_pos. assert (0 < orient A B P * orient c Z A) by (apply Rmult_lt_0_compat; assumption). nra.
    + rewrite lft_swap with (A := c); [|exact Gc|now apply center_neq].
      destruct (lft c A P) eqn:E; [apply lft_true in E; lra|reflexivity].
Qed.

Lemma star_true A B : generic P c -> In (A, B) (cyclic_edges ps) -> 0 <= orient c A P -> 0 <= orient B c P -> 0 < orient A B P ->
  parity (hits P) (cyclic_edges ps) = true.
Proof.
  intros Gc He H1 H2 H3. rewrite (center_fan P c) by (auto using center_neq). destruct (some_triangle A B Gc He H1 H2 H3) as (e & Ie & Te).
  apply (parity_one _ _ _ e); auto using cyclic_nodup. intros y Hy Ty. now apply unique_triangle.
Qed.
Lemma star_false : generic P c -> (forall A B, In (A, B) (cyclic_edges ps) -> orient c A P < 0 \/ orient B c P < 0 \/ orient A B P < 0) ->
  parity (hits P) (cyclic_edges ps) = false.
Proof.
  intros Gc H. rewrite (center_fan P c) by (auto using center_neq). apply parity_zero. intros [A B] He. cbn [fst snd].
  destruct (in_triangle c A B P) eqn:E; trivial. exfalso. destruct (triangle_shift c A B P (HO _ _ He) E) as (X & Y & Z & _).
  specialize (H _ _ He). lra.
Qed.
End Star.
