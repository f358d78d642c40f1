(** * C32: linear interpolation; C72: cubic spline interpolation *)
From Coq Require Import List Arith Bool Reals Lra Lia Sorting.Permutation Sorting.Sorted.
From Coquelicot Require Import Coquelicot.
From Verif Require Import Outcome AdaptiveModel AdaptiveProofs TableModel TableSpec TableProofs SplineProofs.
Import ListNotations.
Local Open Scope R_scope.

Lemma neighbours_perm data data' p q : Permutation data data' -> neighbours data p q -> neighbours data' p q.
Proof.
  intros Hp (A & B & C & D). split; [apply (Permutation_in p Hp A)|]. split; [apply (Permutation_in q Hp B)|]. split; auto.
  intros r Hr. apply D. apply (Permutation_in r (Permutation_sym Hp) Hr).
Qed.
Lemma covered_perm data data' x : Permutation data data' -> covered data x -> covered data' x.
Proof.
  intros Hp ((p & A & B) & (q & C & D)). split; [exists p|exists q]; split; auto; eapply Permutation_in; eauto.
Qed.

(** a table needs at least two points *)
Theorem C32_construct sort data : (length data < 2)%nat <-> make_table sort data = Throw.
Proof. unfold make_table. destruct (Nat.ltb_spec (length data) 2); split; auto; try discriminate; lia. Qed.

(** the value is the one of the segment between neighbouring points, whatever the order of the table;
    some segment always exists, at a common point all segments give the same value; outside: exception *)
Theorem C32_linear sort data x : is_sort sort -> distinct_abscissae data -> (2 <= length data)%nat ->
  exists t, make_table sort data = Ok t /\
  (forall p q, neighbours data p q -> fst p <= x <= fst q -> linear_value t x = Ok (on_segment p q x)) /\
  (forall p q, neighbours data p q -> fst p < x <= fst q -> linear_derivative t x = Ok ((snd q - snd p) / (fst q - fst p))) /\
  (forall p, In p data -> linear_value t (fst p) = Ok (snd p)) /\
  (covered data x -> exists p q, neighbours data p q /\ fst p <= x <= fst q) /\
  (~ covered data x -> linear_value t x = Throw /\ linear_derivative t x = Throw).
Proof.
  intros Hs Hd Hl. exists (sort data). unfold make_table. destruct (Nat.ltb_spec (length data) 2); [lia|]. split; auto.
  pose proof (sorted_increasing data sort Hs Hd) as Hi. destruct (Hs data) as (Hp & _). pose proof (Permutation_length Hp) as Hlen.
  assert (Hl' : (2 <= length (sort data))%nat) by lia.
  assert (V : forall x p q, neighbours data p q -> fst p <= x <= fst q -> linear_value (sort data) x = Ok (on_segment p q x)).
  { intros y p q Hn Hx. apply (linear_lemma (sort data) y p q); auto. apply (neighbours_perm data); auto. }
  assert (E : forall x, covered data x -> exists p q, neighbours data p q /\ fst p <= x <= fst q).
  { intros y Hc. destruct (covered_neighbours (sort data) y Hi Hl') as (p & q & Hn & Hx); [apply (covered_perm data); auto|].
    exists p, q. split; auto. apply (neighbours_perm (sort data)); auto. apply Permutation_sym; auto. }
  split; [apply V|]. split; [|split; [|split; [apply E|]]].
  - intros p q Hn Hx. apply (linear_lemma (sort data) x p q); auto; [apply (neighbours_perm data); auto|lra|lra].
  - intros p Hin. destruct (E (fst p)) as (a & b & Hn & Hx); [split; exists p; split; auto; lra|].
    rewrite (V (fst p) a b Hn Hx). f_equal. pose proof Hn as (Ha & Hb & Hlt & Hgap).
    assert (U : forall q, In q data -> fst q = fst p -> q = p).
    { intros q Hq Hf. clear -Hd Hin Hq Hf. unfold distinct_abscissae in Hd. induction data as [|r l IH]; [destruct Hin|].
      simpl in Hd. inversion Hd as [|? ? Hni Hnd]; subst. destruct Hin as [->|Hin], Hq as [->|Hq]; auto.
      - exfalso. apply Hni. rewrite <- Hf. apply in_map. auto.
      - exfalso. apply Hni. rewrite Hf. apply in_map. auto. }
    destruct (Hgap p Hin) as [Hz|Hz].
    + assert (a = p) by (apply U; auto; lra). subst a. unfold on_segment. field. lra.
    + assert (b = p) by (apply U; auto; lra). subst b. unfold on_segment. field. lra.
  - intros Hnc. unfold linear_value, linear_derivative. destruct (in_range (sort data) x) eqn:Er; [|auto].
    exfalso. apply Hnc. apply in_range_spec in Er. apply (covered_perm (sort data)); [apply Permutation_sym; auto|]. apply (covered_range (sort data)); auto.
Qed.
Print Assumptions C32_linear.

(** the reported slope is the derivative of the reported value *)
Theorem C32_derivative sort data t g x p q : is_sort sort -> distinct_abscissae data -> (2 <= length data)%nat ->
  make_table sort data = Ok t -> (forall y, covered data y -> linear_value t y = Ok (g y)) ->
  neighbours data p q -> fst p < x < fst q ->
  exists m, linear_derivative t x = Ok m /\ is_derive g x m.
Proof.
  intros Hs Hd Hl Ht Hg Hn Hx. destruct (C32_linear sort data x Hs Hd Hl) as (t' & Ht' & _ & Hm & _). rewrite Ht in Ht'. injection Ht' as <-.
  exists ((snd q - snd p) / (fst q - fst p)). split; [apply Hm; auto; lra|].
  apply (is_derive_ext_loc (on_segment p q)).
  - assert (Hdel : 0 < Rmin (x - fst p) (fst q - x)) by (apply Rmin_pos; lra).
    exists (mkposreal _ Hdel). intros y Hy. change (Rabs (y - x) < Rmin (x - fst p) (fst q - x)) in Hy.
    assert (Ha : Rabs (y - x) < x - fst p) by (eapply Rlt_le_trans; [exact Hy|apply Rmin_l]).
    assert (Hc : Rabs (y - x) < fst q - x) by (eapply Rlt_le_trans; [exact Hy|apply Rmin_r]). apply Rabs_def2 in Ha, Hc.
    destruct (C32_linear sort data y Hs Hd Hl) as (t' & Ht' & Hv & _). rewrite Ht in Ht'. injection Ht' as <-.
    pose proof Hn as (Hp & Hq & _ & _).
    rewrite Hg in Hv; [|split; [exists p|exists q]; split; auto; lra]. specialize (Hv p q Hn ltac:(lra)). injection Hv as ->. reflexivity.
  - unfold on_segment. auto_derive; [auto|]. field. lra.
Qed.
Print Assumptions C32_derivative.

(** a sorting function exists *)
Fixpoint insert_point (p : R * R) (l : list (R * R)) : list (R * R) :=
  match l with [] => [p] | q :: l' => if Rle_dec (fst p) (fst q) then p :: l else q :: insert_point p l' end.
Definition sort_points (l : list (R * R)) := fold_right insert_point [] l.
Lemma sort_points_ok : is_sort sort_points.
Proof.
  assert (P : forall p l, Permutation (p :: l) (insert_point p l)).
  { intros p l. induction l as [|q l IH]; simpl; [auto|]. destruct (Rle_dec (fst p) (fst q)); [auto|]. eapply perm_trans; [apply perm_swap|]. apply perm_skip. exact IH. }
  assert (S : forall p l, StronglySorted (fun p q : R * R => fst p <= fst q) l -> StronglySorted (fun p q : R * R => fst p <= fst q) (insert_point p l)).
  { intros p l H. induction H as [|q l Hl IH Hf]; simpl; [repeat constructor|]. destruct (Rle_dec (fst p) (fst q)) as [Hle|Hgt].
    - constructor; [constructor; auto|]. constructor; auto. eapply Forall_impl; [|exact Hf]. simpl. intros r Hr. lra.
    - constructor; auto. eapply Permutation_Forall; [apply P|]. constructor; auto. lra. }
  intros l. induction l as [|p l (IH1 & IH2)]; simpl; [split; constructor|]. split; [|apply S; auto].
  eapply perm_trans; [apply perm_skip; exact IH1|apply P].
Qed.

Example C32_example : is_sort sort_points /\ distinct_abscissae [(2, 5); (0, 1); (1, 2)] /\
  neighbours [(2, 5); (0, 1); (1, 2)] (1, 2) (2, 5) /\ on_segment (1, 2) (2, 5) (3/2) = 7/2.
Proof.
  split; [apply sort_points_ok|]. split; [|split].
  - unfold distinct_abscissae. simpl. repeat constructor; simpl; intuition lra.
  - unfold neighbours. simpl. split; [auto|]. split; [auto|]. split; [lra|]. intros r [<-|[<-|[<-|[]]]]; simpl; lra.
  - unfold on_segment. simpl. field.
Qed.

(** C72: the value is a twice continuously differentiable function, its second derivative is linear
    between neighbouring points and zero at both ends, and it passes through every point *)
Theorem C72_natural_spline sort data : is_sort sort -> distinct_abscissae data -> (2 <= length data)%nat ->
  exists t g g1 g2, make_table sort data = Ok t /\
  (forall x, covered data x -> cubic_value t x = Ok (g x)) /\
  (forall x, ~ covered data x -> cubic_value t x = Throw) /\
  (forall p, In p data -> g (fst p) = snd p) /\
  (forall x, (exists p, In p data /\ fst p < x) -> (exists q, In q data /\ x < fst q) ->
     is_derive g x (g1 x) /\ is_derive g1 x (g2 x) /\ continuous g2 x) /\
  (forall p q x, neighbours data p q -> fst p <= x <= fst q -> g2 x = on_segment (fst p, g2 (fst p)) (fst q, g2 (fst q)) x) /\
  (forall p, In p data -> (forall q, In q data -> fst p <= fst q) \/ (forall q, In q data -> fst q <= fst p) -> g2 (fst p) = 0).
Proof.
  intros Hs Hd Hl. set (t := sort data). exists t, (g t), (g1 t), (g2 t).
  unfold make_table. destruct (Nat.ltb_spec (length data) 2); [lia|]. split; auto.
  pose proof (sorted_increasing data sort Hs Hd) as Hi. destruct (Hs data) as (Hp & _). pose proof (Permutation_length Hp) as Hlen.
  fold t in Hi, Hp, Hlen. assert (Hl' : (2 <= length t)%nat) by lia.
  assert (IN : forall p, In p data -> exists i, (i < length t)%nat /\ fst p = px t i /\ snd p = py t i).
  { intros p Hin. apply (Permutation_in p Hp) in Hin. apply In_nth with (d := (0, 0)) in Hin. destruct Hin as (i & Hil & E).
    exists i. split; auto. unfold px, py. rewrite E. auto. }
  assert (INV : forall i, (i < length t)%nat -> In (nth i t (0, 0)) data).
  { intros i Hil. apply (Permutation_in _ (Permutation_sym Hp)). apply nth_In. auto. }
  split; [|split; [|split; [|split; [|split]]]].
  - intros x Hc. apply cubic_value_g. apply (covered_range t); auto. apply (covered_perm data); auto.
  - intros x Hnc. unfold cubic_value. destruct (in_range t x) eqn:Er; [|auto]. exfalso. apply Hnc. apply in_range_spec in Er.
    apply (covered_perm t); [apply Permutation_sym; auto|]. apply (covered_range t); auto.
  - intros p Hin. destruct (IN p Hin) as (i & Hil & -> & ->). apply g_hits; auto.
  - intros x (p & Hpi & Hpx) (q & Hqi & Hqx). apply g_smooth; auto.
    destruct (IN p Hpi) as (i & Hil & Ei & _). destruct (IN q Hqi) as (j & Hjl & Ej & _).
    pose proof (increasing_le t 0 i Hi ltac:(lia) Hil). pose proof (increasing_le t j (length t - 1) Hi ltac:(lia) ltac:(lia)). lra.
  - intros p q x Hn Hx. apply (neighbours_perm data t) in Hn; auto. destruct (neighbours_inv t p q Hi Hn) as (i & Hil & -> & ->).
    apply (g2_linear t Hi Hl' i x Hil Hx).
  - intros p Hin [Hmin|Hmax]; destruct (IN p Hin) as (i & Hil & Ei & _); destruct (g_ends t Hi Hl') as (E0 & E1).
    + assert (px t i = px t 0).
      { apply Rle_antisym; [|apply increasing_le; auto; lia]. rewrite <- Ei. apply (Hmin (nth 0 t (0, 0))). apply INV. lia. }
      rewrite Ei, H0. exact E0.
    + assert (px t i = px t (length t - 1)).
      { apply Rle_antisym; [apply increasing_le; auto; lia|]. rewrite <- Ei. apply (Hmax (nth (length t - 1) t (0, 0))). apply INV. lia. }
      rewrite Ei, H0. exact E1.
Qed.
Print Assumptions C72_natural_spline.

(** FINDING: derivative() of the spline is the slope of the chord, not the derivative of the value:
    for the points (0,0) (1,1) (2,0) at x = 1/2 it returns 1, the derivative is 9/8 *)
Theorem C72_derivative_refuted :
  ~ (forall sort data t g x m, is_sort sort -> distinct_abscissae data -> (2 <= length data)%nat -> make_table sort data = Ok t ->
       (forall y, covered data y -> cubic_value t y = Ok (g y)) -> (exists p q, neighbours data p q /\ fst p < x < fst q) ->
       linear_derivative t x = Ok m -> is_derive g x m).
Proof.
  intros H. set (data := [(0, 0); (1, 1); (2, 0)]).
  assert (Hd : distinct_abscissae data) by (unfold distinct_abscissae; simpl; repeat constructor; simpl; intuition lra).
  assert (Hl : (2 <= length data)%nat) by (simpl; lia).
  assert (Es : sort_points data = data).
  { unfold sort_points, data. cbn [fold_right insert_point fst]. destruct (Rle_dec 1 2) as [_|]; [|lra].
    cbn [insert_point fst]. destruct (Rle_dec 0 1) as [_|]; [|lra]. reflexivity. }
  pose proof (sorted_increasing data sort_points sort_points_ok Hd) as Hi. rewrite Es in Hi.
  assert (Hb : bisection data (1/2) = 0%nat).
  { unfold bisection, data. simpl length. cbn [bisect Nat.sub Nat.ltb Nat.leb Nat.add Nat.div2].
    unfold px. cbn [nth fst]. destruct (rltb_spec 1 (1/2)) as [(_ & ?)|(-> & _)]; [lra|]. reflexivity. }
  assert (Hm : linear_derivative data (1/2) = Ok 1).
  { unfold linear_derivative. rewrite (proj2 (in_range_spec data (1/2))); [|unfold data, px; simpl; lra]. rewrite Hb. unfold data, px, py. simpl. f_equal. field. }
  assert (D1 : is_derive (g data) (1/2) 1).
  { apply (H sort_points data data (g data) (1/2) 1 sort_points_ok Hd Hl).
    - unfold make_table. destruct (Nat.ltb_spec (length data) 2) as [Hx|_]; [simpl in Hx; lia|]. rewrite Es. reflexivity.
    - intros y Hy. apply cubic_value_g. apply covered_range; auto.
    - exists (0, 0), (1, 1). split; [|simpl; lra]. unfold neighbours, data. simpl. split; [auto|]. split; [auto|]. split; [lra|]. intros r [<-|[<-|[<-|[]]]]; simpl; lra.
    - exact Hm. }
  destruct (g_smooth data Hi Hl (1/2)) as (D2 & _); [unfold data, px; simpl; lra|].
  pose proof (is_derive_unique _ _ _ D1) as U1. pose proof (is_derive_unique _ _ _ D2) as U2. rewrite U1 in U2.
  unfold g1 in U2. rewrite Hb in U2. unfold C1, ddy, data, px, py in U2. cbn in U2. field_simplify in U2; lra.
Qed.
Print Assumptions C72_derivative_refuted.
