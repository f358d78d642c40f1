From Coq Require Import Reals ZArith List Bool Arith Lia Lra Psatz Permutation.
From Verif Require Import Outcome AdaptiveModel AdaptiveProofs CollisionModel CollisionProofs2 DelaunayModel DelaunaySpec DelaunayProofs.
Import ListNotations.
Local Open Scope R_scope.

(** ** parities *)
Fixpoint parity {A : Type} (f : A -> bool) (l : list A) : bool :=
  match l with [] => false | x :: l' => xorb (f x) (parity f l') end.
Lemma parity_count : forall (A : Type) (f : A -> bool) l, Nat.eqb (length (filter f l) mod 2) 1 = parity f l.
Proof.
  intros A f l. induction l as [|x l IH]; [reflexivity|]. cbn [filter parity].
  destruct (f x); cbn [length]; [|rewrite IH; now destruct (parity f l)].
  rewrite <- IH. set (n := length (filter f l)). clearbody n.
  pose proof (Nat.mod_upper_bound n 2 ltac:(lia)). pose proof (Nat.mod_upper_bound (S n) 2 ltac:(lia)).
  pose proof (Nat.div_mod n 2 ltac:(lia)). pose proof (Nat.div_mod (S n) 2 ltac:(lia)).
  destruct (Nat.eqb_spec (S n mod 2) 1), (Nat.eqb_spec (n mod 2) 1); trivial; lia.
Qed.
Lemma parity_app : forall (A : Type) (f : A -> bool) l m, parity f (l ++ m) = xorb (parity f l) (parity f m).
Proof. intros A f l m. induction l as [|x l IH]; cbn [List.app parity]; [now destruct (parity f m)|]. rewrite IH. now rewrite xorb_assoc. Qed.
Lemma parity_perm : forall (A : Type) (f : A -> bool) l m, Permutation l m -> parity f l = parity f m.
Proof.
  intros A f l m H. induction H; cbn [parity]; try congruence.
  now rewrite <- !xorb_assoc, (xorb_comm (f y)).
Qed.
Lemma parity_ext : forall (A : Type) (f g : A -> bool) l, (forall x, In x l -> f x = g x) -> parity f l = parity g l.
Proof.
  intros A f g l. induction l as [|x l IH]; intro H; cbn [parity]; [reflexivity|].
  rewrite H by now left. f_equal. apply IH. intros. apply H. now right.
Qed.
Lemma parity_zero : forall (A : Type) (f : A -> bool) l, (forall x, In x l -> f x = false) -> parity f l = false.
Proof.
  intros A f l. induction l as [|x l IH]; intro H; cbn [parity]; [reflexivity|].
  rewrite H by now left. rewrite IH; [reflexivity|]. intros. apply H. now right.
Qed.

(** ** paths *)
Fixpoint path (a : p2) (l : list p2) : list edge :=
  match l with [] => [] | b :: l' => (a, b) :: path b l' end.
Lemma path_app : forall l a b m, path a (l ++ b :: m) = path a (l ++ [b]) ++ path b m.
Proof. induction l as [|c l IH]; intros a b m; cbn [List.app path]; [reflexivity|]. now rewrite IH. Qed.
Lemma cyclic_path : forall p ps, cyclic_edges (p :: ps) = path p (ps ++ [p]).
Proof.
  intros p ps. unfold cyclic_edges.
  assert (G : forall l a, combine (a :: l) (l ++ [p]) = path a (l ++ [p])).
  { induction l as [|b l IH]; intro a; [reflexivity|]. cbn [List.app combine path]. f_equal. apply IH. }
  apply G.
Qed.
Lemma cyclic_rotate : forall p ps, Permutation (cyclic_edges (p :: ps)) (cyclic_edges (ps ++ [p])).
Proof.
  intros p ps. destruct ps as [|q ps]; [apply Permutation_refl|].
  change ((q :: ps) ++ [p]) with (q :: ps ++ [p]). rewrite !cyclic_path. cbn [List.app path].
  rewrite <- app_assoc. cbn [List.app]. rewrite (path_app ps q p [q]). cbn [path]. apply Permutation_cons_append.
Qed.
Lemma side_of_edges : forall (ps : list p2) (A B : p2), side_of ps A B <-> In (A, B) (cyclic_edges ps).
Proof.
  intros ps A B. unfold side_of, cyclic_edges. change (R * R)%type with p2 in *. destruct ps as [|p ps].
  { split; [intros (i & H & _); destruct i; discriminate|intros []]. }
  assert (G : forall (l m : list p2), length l = length m -> forall a b, In (a, b) (combine l m) <->
    exists i, nth_error l i = Some a /\ nth_error m i = Some b).
  { induction l as [|x l IH]; intros [|y m] HL a b; try discriminate.
    - split; [intros []|]. intros ([|i] & H & _); discriminate.
    - cbn [combine In]. rewrite IH by now injection HL. split.
      + intros [E|(i & H & H')]; [injection E as <- <-; exists 0%nat; auto|]. exists (S i). auto.
      + intros ([|i] & H & H'); [left; cbn in *; congruence|]. right. exists i. auto. }
  rewrite G by (rewrite app_length; cbn [length]; lia). split; intros (i & H & H'); exists i; split; trivial.
  - destruct H' as [H'|(HL & H')].
    + cbn [nth_error] in H'. rewrite nth_error_app1; trivial. apply nth_error_Some. intro Z. discriminate (eq_trans (eq_sym H') Z).
    + cbn [length] in HL. injection HL as HL. rewrite nth_error_app2 by lia. replace (i - length ps)%nat with 0%nat by lia. exact H'.
  - cbn [nth_error]. destruct (Nat.lt_ge_cases i (length ps)) as [L|L].
    + left. rewrite nth_error_app1 in H' by trivial. exact H'.
    + right. rewrite nth_error_app2 in H' by trivial. 
      assert (i < length (p :: ps))%nat by (apply nth_error_Some; congruence). cbn [length] in *.
      replace (i - length ps)%nat with 0%nat in H' by lia. split; [lia|exact H'].
Qed.

(** ** the fan *)
Lemma last_indep : forall (l : list p2) x a b, last (x :: l) a = last (x :: l) b.
Proof. induction l as [|y l IH]; intros; [reflexivity|]. cbn [last] in *. apply (IH y). Qed.
Lemma last_cons : forall (l : list p2) a b, last (b :: l) a = last l b.
Proof. intros [|c l] a b; [reflexivity|]. change (last (b :: c :: l) a) with (last (c :: l) a). apply last_indep. Qed.
Lemma fan : forall P v0 l a, generic P v0 -> generic P a -> (forall b, In b l -> generic P b) ->
  parity (hits P) (path a l) =
  xorb (xorb (hits P (v0, a)) (hits P (v0, last l a)))
    (parity (fun e => xorb (hits P (v0, fst e)) (xorb (hits P (fst e, snd e)) (hits P (snd e, v0)))) (path a l)).
Proof.
  intros P v0 l. induction l as [|b l IH]; intros a G0 Ga Gl.
  - cbn [path parity last]. now destruct (hits P (v0, a)).
  - assert (Gb : generic P b) by (apply Gl; now left).
    cbn [path parity fst snd]. rewrite (IH b G0 Gb) by (intros; apply Gl; now right).
    rewrite last_cons.
    rewrite (hits_swap P v0 b) by trivial.
    destruct (hits P (v0, a)), (hits P (a, b)), (hits P (v0, b)), (hits P (v0, last l b));
      match goal with |- context [parity ?f (path b l)] => destruct (parity f (path b l)) end; reflexivity.
Qed.
Lemma polygon_fan : forall P v0 v1 rest, (forall b, In b (v0 :: v1 :: rest) -> generic P b) ->
  NoDup (v0 :: v1 :: rest) ->
  parity (hits P) (cyclic_edges (v0 :: v1 :: rest)) = parity (fun e => in_triangle v0 (fst e) (snd e) P) (path v1 rest).
Proof.
  intros P v0 v1 rest G ND. rewrite cyclic_path. cbn [List.app path parity].
  assert (E : path v1 (rest ++ [v0]) = path v1 rest ++ [(last rest v1, v0)]).
  { clear. revert v1. induction rest as [|b l IH]; intro v1; [reflexivity|]. cbn [List.app path]. rewrite IH, last_cons.
    reflexivity. }
  rewrite E, parity_app. cbn [parity]. 
  assert (G0 : generic P v0) by (apply G; now left). assert (G1 : generic P v1) by (apply G; right; now left).
  assert (GL : generic P (last rest v1)).
  { apply G. right. destruct rest as [|b l]; [now left|]. right. rewrite last_cons.
    clear. revert b. induction l as [|c l IH]; intro b; [now left|]. right. rewrite last_cons. apply IH. }
  rewrite (fan P v0 rest v1 G0 G1) by (intros; apply G; right; now right).
  rewrite (hits_swap P v0 (last rest v1)) by trivial.
  rewrite (parity_ext _ (fun e => in_triangle v0 (fst e) (snd e) P)
     (fun e => xorb (hits P (v0, fst e)) (xorb (hits P (fst e, snd e)) (hits P (snd e, v0))))).
  - destruct (hits P (v0, v1)), (hits P (v0, last rest v1));
      match goal with |- context [parity ?f (path v1 rest)] => destruct (parity f (path v1 rest)) end; reflexivity.
  - intros [b c] Hbc. cbn [fst snd]. symmetry.
    assert (Hin : forall l a b' c', In (b', c') (path a l) -> In b' (a :: l) /\ In c' l).
    { induction l as [|d l IH]; intros a b' c'; cbn [path In]; [intros []|]. intros [E'|H]; [injection E' as <- <-; auto|].
      apply IH in H. cbn [In] in *. tauto. }
    apply Hin in Hbc. destruct Hbc as (Hb & Hc).
    apply triangle_parity; trivial.
    + apply G. right. exact Hb.
    + apply G. right. now right.
    + intros <-. apply NoDup_cons_iff in ND. destruct ND as (ND & _). now apply ND.
Qed.
Lemma path_in : forall l a b c, In (b, c) (path a l) -> In b (a :: l) /\ In c l.
Proof.
  induction l as [|d l IH]; intros a b c; cbn [path In]; [intros []|]. intros [E'|H]; [injection E' as <- <-; auto|].
  apply IH in H. cbn [In] in *. tauto.
Qed.
Lemma path_neq : forall l a b c, NoDup (a :: l) -> In (b, c) (path a l) -> c <> a /\ b <> c.
Proof.
  induction l as [|d l IH]; intros a b c ND; cbn [path In]; [intros []|].
  pose proof ND as ND'. apply NoDup_cons_iff in ND. destruct ND as (N1 & N2). intros [E'|H].
  - injection E' as <- <-. assert (a <> d) by (intros ->; apply N1; now left). split; congruence.
  - apply path_in in H as HI. destruct HI as (Hb & Hc). destruct (IH d b c N2 H) as (X & Y). split; trivial.
    intros ->. apply N1. now right.
Qed.
Lemma stays_false : forall (g : p2 -> bool) l a, (forall b c, In (b, c) (path a l) -> g b = false -> g c = false) ->
  g a = false -> g (last l a) = false.
Proof.
  intros g l. induction l as [|b l IH]; intros a H Ha; [exact Ha|]. rewrite last_cons. apply IH.
  - intros x y Hxy. apply H. now right.
  - apply (H a b); trivial. now left.
Qed.
(** a sequence that goes from true to false and never back *)
Lemma one_change : forall (g : p2 -> bool) l a, (forall b c, In (b, c) (path a l) -> g b = false -> g c = false) ->
  parity (fun e => andb (g (fst e)) (negb (g (snd e)))) (path a l) = andb (g a) (negb (g (last l a))).
Proof.
  intros g l. induction l as [|b l IH]; intros a H; cbn [path parity fst snd].
  - cbn [last]. now destruct (g a).
  - rewrite IH by (intros; eapply H; [right; eassumption|trivial]).
    rewrite last_cons.
    destruct (g a) eqn:Ea; cbn [andb].
    + destruct (g b) eqn:Eb; cbn [negb andb xorb]; [now destruct (g (last l b))|].
      rewrite (stays_false g l b); trivial. intros x y Hxy. apply H. now right.
    + rewrite (H a b) by (trivial; now left). reflexivity.
Qed.

(** ** convex polygons, counterclockwise *)
Lemma path_edges : forall v0 v1 rest b c, In (b, c) (path v1 rest) -> In (b, c) (cyclic_edges (v0 :: v1 :: rest)).
Proof.
  intros v0 v1 rest b c H. rewrite cyclic_path. cbn [List.app path]. right.
  revert v1 H. induction rest as [|d l IH]; intros v1 H; [destruct H|]. cbn [List.app path In] in *. destruct H as [H|H]; auto.
Qed.
Lemma last_edge : forall v0 v1 rest, In (last rest v1, v0) (cyclic_edges (v0 :: v1 :: rest)).
Proof.
  intros v0 v1 rest. rewrite cyclic_path. cbn [List.app path]. right.
  revert v1. induction rest as [|b l IH]; intro v1; [now left|]. cbn [List.app path]. right.
  rewrite last_cons.
  apply IH.
Qed.
Definition ccw (ps : list p2) : Prop :=
  forall A B C, In (A, B) (cyclic_edges ps) -> In C ps -> C <> A -> C <> B -> 0 < orient A B C.
Lemma orient_cycle : forall A B C, orient A B C = orient B C A.
Proof. intros. unfold orient. ring. Qed.

Lemma inside_true : forall v0 v1 rest P, NoDup (v0 :: v1 :: rest) -> rest <> [] -> ccw (v0 :: v1 :: rest) ->
  (forall b, In b (v0 :: v1 :: rest) -> generic P b) ->
  (forall A B, In (A, B) (cyclic_edges (v0 :: v1 :: rest)) -> 0 < orient A B P) ->
  parity (hits P) (cyclic_edges (v0 :: v1 :: rest)) = true.
Proof.
  intros v0 v1 rest P ND HR HC HG HI. rewrite polygon_fan by trivial.
  pose proof ND as ND'. apply NoDup_cons_iff in ND'. destruct ND' as (N0 & N1).
  assert (E01 : In (v0, v1) (cyclic_edges (v0 :: v1 :: rest))) by (rewrite cyclic_path; now left).
  rewrite (parity_ext _ _ (fun e => andb (lft v0 (fst e) P) (negb (lft v0 (snd e) P)))).
  - rewrite (one_change (fun b => lft v0 b P)).
    + rewrite (lft_pos v0 v1) by (now apply HI). cbn [andb]. rewrite lft_neg; [reflexivity|].
      rewrite orient_swap. pose proof (HI _ _ (last_edge v0 v1 rest)). lra.
    + intros b c Hbc Hb. apply lft_neg. apply lft_false in Hb.
      destruct (path_in _ _ _ _ Hbc) as (Ib & Ic). destruct (path_neq _ _ _ _ N1 Hbc) as (Nc & Nbc).
      pose proof (path_edges v0 v1 rest b c Hbc) as Ebc.
      assert (Nb0 : v0 <> b) by (intros <-; now apply N0). assert (Nc0 : v0 <> c) by (intros <-; apply N0; now right).
      assert (Hp : 0 < orient v0 v1 P) by now apply HI.
      destruct (p2_dec b v1) as [->|Nb1]; [lra|].
      assert (X1 : 0 < orient v0 v1 b) by (apply HC; auto; now right).
      assert (X2 : 0 < orient v0 v1 c) by (apply HC; auto; right; now right).
      assert (X3 : 0 < orient v0 b c) by (rewrite orient_cycle; apply HC; auto; now left).
      assert (Id : orient v0 c P * orient v0 v1 b = orient v0 b P * orient v0 v1 c - orient v0 b c * orient v0 v1 P).
      { unfold orient. ring. }
      assert (Hb' : orient v0 b P <= 0) by lra. set (x := orient v0 c P) in *. set (p := orient v0 b P) in *.
      clearbody x p. set (k1 := orient v0 v1 b) in *. set (k2 := orient v0 v1 c) in *. set (k3 := orient v0 b c) in *.
      set (k4 := orient v0 v1 P) in *. clearbody k1 k2 k3 k4.
      assert (0 < k3 * k4) by (apply Rmult_lt_0_compat; trivial). nra.
  - intros [b c] Hbc. cbn [fst snd]. unfold in_triangle.
    destruct (path_in _ _ _ _ Hbc) as (Ib & Ic).
    rewrite (lft_pos b c) by (apply HI; now apply path_edges).
    rewrite (lft_swap v0 c) by ((apply HG; now left) || (intros <-; apply N0; now right)).
    destruct (lft v0 b P), (lft v0 c P); reflexivity.
Qed.

Lemma outside_false : forall v0 v1 rest P, NoDup (v0 :: v1 :: rest) -> rest <> [] -> ccw (v0 :: v1 :: rest) ->
  (forall b, In b (v0 :: v1 :: rest) -> generic P b) -> orient v0 v1 P < 0 ->
  parity (hits P) (cyclic_edges (v0 :: v1 :: rest)) = false.
Proof.
  intros v0 v1 rest P ND HR HC HG HO. rewrite polygon_fan by trivial. apply parity_zero. intros [b c] Hbc. cbn [fst snd].
  pose proof ND as ND'. apply NoDup_cons_iff in ND'. destruct ND' as (N0 & N1).
  assert (E01 : In (v0, v1) (cyclic_edges (v0 :: v1 :: rest))) by (rewrite cyclic_path; now left).
  destruct (path_in _ _ _ _ Hbc) as (Ib & Ic). destruct (path_neq _ _ _ _ N1 Hbc) as (Nc & Nbc).
  pose proof (path_edges v0 v1 rest b c Hbc) as Ebc.
  assert (Nb0 : v0 <> b) by (intros <-; now apply N0). assert (Nc0 : v0 <> c) by (intros <-; apply N0; now right).
  assert (X1 : 0 <= orient v0 v1 b).
  { destruct (p2_dec b v1) as [->|Nb1]; [unfold orient; lra|]. left. apply HC; auto. now right. }
  assert (X2 : 0 < orient v0 v1 c) by (apply HC; auto; right; now right).
  assert (X3 : 0 < orient v0 b c) by (rewrite orient_cycle; apply HC; auto; now left).
  assert (Id : orient v0 v1 P * orient v0 b c = orient c v0 P * orient v0 v1 b + orient v0 b P * orient v0 v1 c) by (unfold orient; ring).
  assert (Sum : orient v0 b P + orient b c P + orient c v0 P = orient v0 b c) by (unfold orient; ring).
  unfold in_triangle.
  destruct (lft v0 b P) eqn:L1, (lft b c P) eqn:L2, (lft c v0 P) eqn:L3; cbn [andb orb negb]; try reflexivity; exfalso;
  (apply lft_true in L1 || apply lft_false in L1); (apply lft_true in L2 || apply lft_false in L2);
  (apply lft_true in L3 || apply lft_false in L3).
  - assert (0 <= orient c v0 P) by lra. assert (0 <= orient v0 b P) by lra.
    set (x1 := orient c v0 P) in *. set (x2 := orient v0 b P) in *. clearbody x1 x2.
    set (k1 := orient v0 v1 b) in *. set (k2 := orient v0 v1 c) in *. set (k3 := orient v0 b c) in *.
    set (k4 := orient v0 v1 P) in *. clearbody k1 k2 k3 k4.
    assert (0 <= x1 * k1) by (apply Rmult_le_pos; lra). assert (0 <= x2 * k2) by (apply Rmult_le_pos; lra). nra.
  - lra.
Qed.

Lemma rotate_many : forall l2 l1, Permutation (cyclic_edges (l1 ++ l2)) (cyclic_edges (l2 ++ l1)).
Proof.
  intros l2 l1. revert l2. induction l1 as [|x l1 IH]; intro l2; [rewrite app_nil_r; apply Permutation_refl|].
  change ((x :: l1) ++ l2) with (x :: l1 ++ l2). eapply Permutation_trans; [apply cyclic_rotate|].
  rewrite <- app_assoc. eapply Permutation_trans; [apply IH|]. rewrite <- app_assoc. apply Permutation_refl.
Qed.
Lemma ccw_perm : forall ps qs, Permutation (cyclic_edges ps) (cyclic_edges qs) -> Permutation ps qs -> ccw ps -> ccw qs.
Proof.
  intros ps qs HE HP H A B C HA HC. apply H.
  - eapply Permutation_in; [apply Permutation_sym; exact HE|trivial].
  - eapply Permutation_in; [apply Permutation_sym; exact HP|trivial].
Qed.
Lemma convex_ccw : forall ps P, (3 <= length ps)%nat -> NoDup ps -> ccw ps -> (forall b, In b ps -> generic P b) ->
  ((forall A B, In (A, B) (cyclic_edges ps) -> 0 < orient A B P) -> parity (hits P) (cyclic_edges ps) = true) /\
  (forall A B, In (A, B) (cyclic_edges ps) -> orient A B P < 0 -> parity (hits P) (cyclic_edges ps) = false).
Proof.
  intros ps P HL ND HC HG. split.
  - destruct ps as [|v0 [|v1 [|v2 rest]]]; cbn [length] in HL; try lia. intro HI. apply inside_true; trivial. discriminate.
  - intros A B HE HO. apply side_of_edges in HE. unfold side_of in HE. change (R * R)%type with p2 in HE. destruct HE as (i & Hi & Hn).
    assert (Li : (i < length ps)%nat) by (apply nth_error_Some; congruence).
    destruct (nth_error_split _ _ Hi) as (l1 & l2 & E & El).
    pose proof (rotate_many (A :: l2) l1) as RM. rewrite <- E in RM.
    assert (PM : Permutation ps ((A :: l2) ++ l1)) by (rewrite E; apply Permutation_app_comm).
    rewrite (parity_perm _ _ _ _ RM).
    assert (HB : exists rest, l2 ++ l1 = B :: rest).
    { destruct Hn as [Hn|(Hl & Hn)].
      - rewrite E in Hn. rewrite nth_error_app2 in Hn by lia. replace (S i - length l1)%nat with 1%nat in Hn by lia.
        destruct l2 as [|b l2]; [discriminate|]. cbn [nth_error] in Hn. injection Hn as ->. now exists (l2 ++ l1).
      - rewrite E, app_length in Hl. cbn [length] in Hl. assert (length l2 = 0%nat) by lia. destruct l2; [|discriminate].
        rewrite E in Hn. destruct l1 as [|b l1]; cbn [List.app nth_error] in Hn.
        + exfalso. rewrite E in HL. cbn [List.app length] in HL. lia.
        + injection Hn as ->. now exists l1. }
    destruct HB as (rest & HB). cbn [List.app] in *. rewrite HB in *.
    apply outside_false; trivial.
    + eapply Permutation_NoDup; eassumption.
    + intros ->. apply Permutation_length in PM. cbn [length] in PM. lia.
    + eapply ccw_perm; eassumption.
    + intros b Hb. apply HG. eapply Permutation_in; [apply Permutation_sym; exact PM|trivial].
Qed.

(** mirror image *)
Definition mirror (p : p2) : p2 := (px p, - py p).
Lemma mirror_mirror : forall p, mirror (mirror p) = p.
Proof. intros [x y]. unfold mirror, px, py. cbn [fst snd]. f_equal. ring. Qed.
Lemma orient_mirror : forall A B C, orient (mirror A) (mirror B) (mirror C) = - orient A B C.
Proof. intros. unfold orient, mirror, px, py. cbn [fst snd]. ring. Qed.
Lemma hits_mirror : forall P A B, generic P A -> generic P B -> A <> B -> hits (mirror P) (mirror A, mirror B) = hits P (A, B).
Proof.
  intros P A B GA GB HAB.
  assert (GA' : generic (mirror P) (mirror A)) by (unfold generic, mirror, py in *; cbn [snd]; lra).
  assert (GB' : generic (mirror P) (mirror B)) by (unfold generic, mirror, py in *; cbn [snd]; lra).
  rewrite !hits_generic by trivial.
  assert (Bl : forall X, generic P X -> below (mirror X) (mirror P) = negb (below X P)).
  { intros X G. unfold below, generic, mirror, py in *. cbn [snd]. destruct (rltb_spec (snd X) (snd P)) as [(-> & L)|(-> & L)].
    - destruct (rltb_spec (- snd X) (- snd P)) as [(_ & L')|(-> & _)]; [lra|reflexivity].
    - destruct (rltb_spec (- snd X) (- snd P)) as [(-> & _)|(_ & L')]; [reflexivity|lra]. }
  rewrite !Bl by trivial.
  destruct (below_cases A P GA) as [(-> & SA)|(-> & SA)], (below_cases B P GB) as [(-> & SB)|(-> & SB)]; cbn [xorb andb negb]; try reflexivity;
  destruct (lft A B P) eqn:E; destruct (lft (mirror A) (mirror B) (mirror P)) eqn:E'; trivial; exfalso;
  (apply lft_true in E || apply lft_false in E); (apply lft_true in E' || apply lft_false in E');
  rewrite orient_mirror in E'; unfold mirror, py in *; cbn [snd] in E'; lra.
Qed.
Lemma cyclic_map : forall (f : p2 -> p2) ps, cyclic_edges (map f ps) = map (fun e => (f (fst e), f (snd e))) (cyclic_edges ps).
Proof.
  intros f [|p ps]; [reflexivity|]. cbn [map]. rewrite !cyclic_path. change (f p :: nil) with (map f [p]). 
  rewrite <- map_app. generalize (ps ++ [p]). intro l. generalize p. induction l as [|b l IH]; intro a; [reflexivity|].
  cbn [map path fst snd]. f_equal. apply IH.
Qed.
Lemma parity_map : forall (A B : Type) (g : A -> B) (f : B -> bool) l, parity f (map g l) = parity (fun x => f (g x)) l.
Proof. intros A B g f l. induction l as [|x l IH]; cbn [map parity]; congruence. Qed.
Lemma cyclic_in : forall ps A B, In (A, B) (cyclic_edges ps) -> In A ps /\ In B ps.
Proof.
  intros [|p ps] A B; [intros []|]. rewrite cyclic_path. intro H. apply path_in in H. destruct H as (HA & HB).
  cbn [In] in *. rewrite in_app_iff in *. cbn [In] in *. tauto.
Qed.
Lemma cyclic_neq : forall ps A B, NoDup ps -> (2 <= length ps)%nat -> In (A, B) (cyclic_edges ps) -> A <> B.
Proof.
  intros ps A B ND HL HE. apply side_of_edges in HE. unfold side_of in HE. change (R * R)%type with p2 in HE. destruct HE as (i & Hi & Hn). intros <-.
  assert (Li : (i < length ps)%nat) by (apply nth_error_Some; congruence).
  destruct Hn as [Hn|(Hl & Hn)].
  - assert (i = S i) by (apply (proj1 (NoDup_nth_error ps) ND); [trivial|congruence]). lia.
  - assert (i = 0%nat) by (apply (proj1 (NoDup_nth_error ps) ND); [trivial|congruence]). lia.
Qed.
Lemma convex_cw : forall ps P, (3 <= length ps)%nat -> NoDup ps ->
  (forall A B C, In (A, B) (cyclic_edges ps) -> In C ps -> C <> A -> C <> B -> orient A B C < 0) -> (forall b, In b ps -> generic P b) ->
  ((forall A B, In (A, B) (cyclic_edges ps) -> orient A B P < 0) -> parity (hits P) (cyclic_edges ps) = true) /\
  (forall A B, In (A, B) (cyclic_edges ps) -> 0 < orient A B P -> parity (hits P) (cyclic_edges ps) = false).
Proof.
  intros ps P HL ND HC HG.
  assert (E : parity (hits P) (cyclic_edges ps) = parity (hits (mirror P)) (cyclic_edges (map mirror ps))).
  { rewrite cyclic_map, parity_map. apply parity_ext. intros [A B] HAB. cbn [fst snd]. symmetry.
    destruct (cyclic_in _ _ _ HAB). apply hits_mirror; auto. eapply cyclic_neq; [exact ND|lia|exact HAB]. }
  assert (Inj : forall a b, mirror a = mirror b -> a = b) by (intros a b H; rewrite <- (mirror_mirror a), H; apply mirror_mirror).
  destruct (convex_ccw (map mirror ps) (mirror P)) as (C1 & C2).
  - now rewrite map_length.
  - apply FinFun.Injective_map_NoDup; trivial.
  - intros A B C HA HC' N1 N2. rewrite cyclic_map in HA. apply in_map_iff in HA. destruct HA as ([a b] & E1 & HA). cbn [fst snd] in E1.
    injection E1 as <- <-. apply in_map_iff in HC'. destruct HC' as (c & <- & Hc). 
    change (0 < orient (mirror a) (mirror b) (mirror c)). rewrite orient_mirror.
    assert (orient a b c < 0); [|lra]. apply HC; trivial; intros ->; [now apply N1|now apply N2].
  - intros b Hb. apply in_map_iff in Hb. destruct Hb as (c & <- & Hc). specialize (HG c Hc).
    unfold generic, mirror, py in *. cbn [snd]. lra.
  - rewrite E. split.
    + intro HI. apply C1. intros A B HA. rewrite cyclic_map in HA. apply in_map_iff in HA. destruct HA as ([a b] & E1 & HA).
      cbn [fst snd] in E1. injection E1 as <- <-. change (0 < orient (mirror a) (mirror b) (mirror P)). rewrite orient_mirror.
      specialize (HI a b HA). lra.
    + intros A B HA HO. apply (C2 (mirror A) (mirror B)).
      * rewrite cyclic_map. apply in_map_iff. now exists (A, B).
      * rewrite orient_mirror. lra.
Qed.
