From Coq Require Import Reals ZArith List Bool Arith Lia Lra Psatz Permutation.
From Verif Require Import Outcome AdaptiveModel AdaptiveProofs CollisionModel CollisionProofs2 DelaunayModel DelaunaySpec.
Import ListNotations.
Local Open Scope R_scope.

Lemma p2_eqb_spec : forall a b, p2_eqb a b = true <-> a = b.
Proof.
  intros [ax ay] [bx by_]. unfold p2_eqb, px, py. cbn [fst snd]. rewrite andb_true_iff. unfold reqb.
  destruct (Req_EM_T ax bx), (Req_EM_T ay by_); split; try (intros (? & ?)); try (intros [=]); try discriminate; try congruence; split; congruence.
Qed.
Lemma p2_eqb_refl : forall a, p2_eqb a a = true. Proof. intro. now apply p2_eqb_spec. Qed.
Lemma p2_neqb : forall a b, a <> b -> p2_eqb a b = false.
Proof. intros a b H. apply not_true_is_false. intro E. apply H. now apply p2_eqb_spec. Qed.
Lemma p2_dec : forall a b : p2, {a = b} + {a <> b}.
Proof. intros a b. destruct (p2_eqb a b) eqn:E; [left; now apply p2_eqb_spec|right; intros ->; rewrite p2_eqb_refl in E; discriminate]. Qed.

(** ** which edges the ray meets *)
Definition below (A P : p2) : bool := rltb (py A) (py P).
Definition lft (A B P : p2) : bool := orb (rltb 0 (orient A B P)) (andb (reqb (orient A B P) 0) (rltb (py B) (py A))).
Lemma lft_true : forall A B P, lft A B P = true -> 0 < orient A B P \/ (orient A B P = 0 /\ py B < py A).
Proof.
  intros A B P. unfold lft. rewrite orb_true_iff, andb_true_iff. unfold reqb.
  destruct (rltb_spec 0 (orient A B P)) as [(-> & L)|(-> & L)]; [now left|]. intros [|(H & H')]; [discriminate|].
  destruct (Req_EM_T (orient A B P) 0); [|discriminate]. destruct (rltb_spec (py B) (py A)) as [(Z & L')|(Z & L')]; [auto|congruence].
Qed.
Lemma lft_false : forall A B P, lft A B P = false -> orient A B P < 0 \/ (orient A B P = 0 /\ py A <= py B).
Proof.
  intros A B P. unfold lft. rewrite orb_false_iff. unfold reqb.
  destruct (rltb_spec 0 (orient A B P)) as [(-> & L)|(-> & L)]; [intros (? & _); discriminate|]. intros (_ & H).
  destruct (Req_EM_T (orient A B P) 0) as [E|E]; [|lra]. right. split; trivial. cbn [andb] in H.
  destruct (rltb_spec (py B) (py A)) as [(Z & L')|(Z & L')]; [congruence|lra].
Qed.
Lemma lft_pos : forall A B P, 0 < orient A B P -> lft A B P = true.
Proof. intros A B P H. destruct (lft A B P) eqn:E; trivial. apply lft_false in E. lra. Qed.
Lemma lft_neg : forall A B P, orient A B P < 0 -> lft A B P = false.
Proof. intros A B P H. destruct (lft A B P) eqn:E; trivial. apply lft_true in E. lra. Qed.
Definition generic (P A : p2) : Prop := py A <> py P.

Lemma hits_generic : forall P A B, generic P A -> generic P B ->
  hits P (A, B) = andb (xorb (below A P) (below B P)) (if below A P then lft A B P else negb (lft A B P)).
Proof.
  intros [x y] [ax ay] [bx by_]. unfold generic, hits, line_parameter, below, lft, sub2, orient, px, py. cbn [fst snd].
  intros GA GB.
  replace ((bx - ax) * 0 - (by_ - ay) * 1) with (- (by_ - ay)) by ring.
  replace ((x - ax) * 0 - (y - ay) * 1) with (- (y - ay)) by ring.
  replace (- - (by_ - ay)) with (by_ - ay) by ring.
  set (o := (bx - ax) * (y - ay) - (by_ - ay) * (x - ax)).
  replace ((y - ay) * (bx - ax) - (x - ax) * (by_ - ay)) with o by (unfold o; ring).
  clearbody o. unfold reqb at 1. destruct (Req_EM_T (- (by_ - ay)) 0) as [E|E].
  { replace by_ with ay by lra. rewrite xorb_nilpotent. reflexivity. }
  assert (HE : - (y - ay) / - (by_ - ay) = (y - ay) / (by_ - ay)) by (field; lra). rewrite HE.
  destruct (Rlt_le_dec ay by_) as [U|D].
  - assert (Pos : 0 < / (by_ - ay)) by (apply Rinv_0_lt_compat; lra).
    destruct (Rlt_le_dec y ay) as [L1|L1].
    { replace (rltb ((y - ay) / (by_ - ay)) 0) with true.
      - cbn [orb]. destruct (rltb_spec 0 (-1)) as [(_ & Z)|(-> & _)]; [lra|].
        destruct (rltb_spec ay y) as [(_ & Z)|(-> & _)]; [lra|]. destruct (rltb_spec by_ y) as [(_ & Z)|(-> & _)]; [lra|]. reflexivity.
      - symmetry. destruct (rltb_spec ((y - ay) / (by_ - ay)) 0) as [(-> & _)|(_ & Z)]; trivial. unfold Rdiv in Z. nra. }
    destruct (Rlt_le_dec by_ y) as [L2|L2].
    { replace (orb (rltb ((y - ay) / (by_ - ay)) 0) (rltb 1 ((y - ay) / (by_ - ay)))) with true.
      - destruct (rltb_spec 0 (-1)) as [(_ & Z)|(-> & _)]; [lra|].
        destruct (rltb_spec ay y) as [(-> & _)|(_ & Z)]; [|lra]. destruct (rltb_spec by_ y) as [(-> & _)|(_ & Z)]; [|lra]. reflexivity.
      - symmetry. rewrite orb_true_iff. right. destruct (rltb_spec 1 ((y - ay) / (by_ - ay))) as [(-> & _)|(_ & Z)]; trivial.
        assert (1 = (by_ - ay) / (by_ - ay)) by (field; lra). unfold Rdiv in *. nra. }
    assert (0 <= (y - ay) / (by_ - ay) <= 1).
    { assert (1 = (by_ - ay) / (by_ - ay)) by (field; lra). unfold Rdiv in *. nra. }
    destruct (rltb_spec ((y - ay) / (by_ - ay)) 0) as [(_ & Z)|(-> & _)]; [lra|].
    destruct (rltb_spec 1 ((y - ay) / (by_ - ay))) as [(_ & Z)|(-> & _)]; [lra|]. cbn [orb].
    destruct (rltb_spec ay y) as [(-> & _)|(_ & Z)]; [|lra]. destruct (rltb_spec by_ y) as [(_ & Z)|(-> & _)]; [lra|].
    cbn [xorb andb]. destruct (rltb_spec by_ ay) as [(_ & Z)|(-> & _)]; [lra|]. rewrite andb_false_r, orb_false_r.
    destruct (rltb_spec 0 o) as [(-> & Z)|(-> & Z)].
    + destruct (rltb_spec 0 (o / (by_ - ay))) as [(-> & _)|(_ & Z')]; trivial. unfold Rdiv in Z'. nra.
    + destruct (rltb_spec 0 (o / (by_ - ay))) as [(_ & Z')|(-> & _)]; trivial. unfold Rdiv in Z'. nra.
  - assert (Neg : / (by_ - ay) < 0) by (apply Rinv_lt_0_compat; lra).
    destruct (Rlt_le_dec ay y) as [L1|L1].
    { replace (rltb ((y - ay) / (by_ - ay)) 0) with true.
      - cbn [orb]. destruct (rltb_spec 0 (-1)) as [(_ & Z)|(-> & _)]; [lra|].
        destruct (rltb_spec ay y) as [(-> & _)|(_ & Z)]; [|lra]. destruct (rltb_spec by_ y) as [(-> & _)|(_ & Z)]; [|lra]. reflexivity.
      - symmetry. destruct (rltb_spec ((y - ay) / (by_ - ay)) 0) as [(-> & _)|(_ & Z)]; trivial. unfold Rdiv in Z. nra. }
    destruct (Rlt_le_dec y by_) as [L2|L2].
    { replace (orb (rltb ((y - ay) / (by_ - ay)) 0) (rltb 1 ((y - ay) / (by_ - ay)))) with true.
      - destruct (rltb_spec 0 (-1)) as [(_ & Z)|(-> & _)]; [lra|].
        destruct (rltb_spec ay y) as [(_ & Z)|(-> & _)]; [lra|]. destruct (rltb_spec by_ y) as [(_ & Z)|(-> & _)]; [lra|]. reflexivity.
      - symmetry. rewrite orb_true_iff. right. destruct (rltb_spec 1 ((y - ay) / (by_ - ay))) as [(-> & _)|(_ & Z)]; trivial.
        assert (1 = (by_ - ay) / (by_ - ay)) by (field; lra). unfold Rdiv in *. nra. }
    assert (0 <= (y - ay) / (by_ - ay) <= 1).
    { assert (1 = (by_ - ay) / (by_ - ay)) by (field; lra). unfold Rdiv in *. nra. }
    destruct (rltb_spec ((y - ay) / (by_ - ay)) 0) as [(_ & Z)|(-> & _)]; [lra|].
    destruct (rltb_spec 1 ((y - ay) / (by_ - ay))) as [(_ & Z)|(-> & _)]; [lra|]. cbn [orb].
    destruct (rltb_spec ay y) as [(_ & Z)|(-> & _)]; [lra|]. destruct (rltb_spec by_ y) as [(-> & _)|(_ & Z)]; [|lra].
    cbn [xorb andb]. destruct (rltb_spec by_ ay) as [(-> & _)|(_ & Z)]; [|lra]. rewrite andb_true_r.
    destruct (rltb_spec 0 o) as [(-> & Z)|(-> & Z)]; cbn [orb negb].
    + destruct (rltb_spec 0 (o / (by_ - ay))) as [(_ & Z')|(-> & _)]; trivial. unfold Rdiv in Z'. nra.
    + unfold reqb. destruct (Req_EM_T o 0) as [Eo|Eo]; cbn [negb].
      * rewrite Eo. destruct (rltb_spec 0 (0 / (by_ - ay))) as [(_ & Z')|(-> & _)]; trivial. unfold Rdiv in Z'. nra.
      * destruct (rltb_spec 0 (o / (by_ - ay))) as [(-> & _)|(_ & Z')]; trivial. unfold Rdiv in Z'. nra.
Qed.
Lemma orient_swap : forall A B P, orient B A P = - orient A B P.
Proof. intros A B P. unfold orient. ring. Qed.
Lemma lft_swap : forall A B P, generic P A -> A <> B -> lft B A P = negb (lft A B P).
Proof.
  intros A B P GA HAB. destruct (lft A B P) eqn:E; cbn [negb].
  - apply lft_true in E. destruct (lft B A P) eqn:E'; trivial. apply lft_true in E'. rewrite orient_swap in E'. lra.
  - apply lft_false in E. destruct (lft B A P) eqn:E'; trivial. apply lft_false in E'. rewrite orient_swap in E'. exfalso.
    assert (orient A B P = 0 /\ py A = py B) as (O & Y) by lra. apply HAB. destruct A as [ax ay], B as [bx by_], P as [x y].
    unfold orient, py, generic in *. cbn [fst snd] in *. subst by_. f_equal. unfold py in GA. cbn [snd] in GA.
    assert ((bx - ax) * (y - ay) = 0) as Z by lra. apply Rmult_integral in Z. lra.
Qed.
Lemma hits_swap : forall P A B, generic P A -> generic P B -> hits P (B, A) = hits P (A, B).
Proof.
  intros P A B GA GB. destruct (p2_dec A B) as [->|HAB]; [reflexivity|].
  rewrite !hits_generic by trivial. rewrite lft_swap by trivial.
  destruct (below A P), (below B P), (lft A B P); reflexivity.
Qed.

(** ** a triangle *)
Definition in_triangle (A B C P : p2) : bool :=
  orb (andb (lft A B P) (andb (lft B C P) (lft C A P))) (andb (negb (lft A B P)) (andb (negb (lft B C P)) (negb (lft C A P)))).
Lemma below_cases : forall A P, generic P A -> (below A P = true /\ py A - py P < 0) \/ (below A P = false /\ 0 < py A - py P).
Proof. intros A P G. unfold below, generic in *. destruct (rltb_spec (py A) (py P)) as [(-> & L)|(-> & L)]; [left|right]; split; trivial; lra. Qed.
Lemma triangle_parity : forall A B C P, generic P A -> generic P B -> generic P C -> A <> B ->
  xorb (hits P (A, B)) (xorb (hits P (B, C)) (hits P (C, A))) = in_triangle A B C P.
Proof.
  intros A B C P GA GB GC HAB. rewrite !hits_generic by trivial. unfold in_triangle.
  assert (Rel : orient A B P * (py C - py P) + orient B C P * (py A - py P) + orient C A P * (py B - py P) = 0).
  { unfold orient, py. ring. }
  assert (HZ : orient A B P = 0 -> py A = py B -> False).
  { intros O Y. apply HAB. destruct A as [ax ay], B as [bx by_], P as [x y]. unfold orient, generic, py in *. cbn [fst snd] in *.
    subst by_. f_equal. assert ((bx - ax) * (y - ay) = 0) as Z by lra. apply Rmult_integral in Z. lra. }
  destruct (below_cases A P GA) as [(-> & SA)|(-> & SA)], (below_cases B P GB) as [(-> & SB)|(-> & SB)],
    (below_cases C P GC) as [(-> & SC)|(-> & SC)];
  destruct (lft A B P) eqn:E1, (lft B C P) eqn:E2, (lft C A P) eqn:E3; cbn [xorb andb orb negb]; try reflexivity; exfalso;
  (apply lft_true in E1 || apply lft_false in E1); (apply lft_true in E2 || apply lft_false in E2);
  (apply lft_true in E3 || apply lft_false in E3);
  set (o1 := orient A B P) in *; set (o2 := orient B C P) in *; set (o3 := orient C A P) in *; clearbody o1 o2 o3;
  set (a := py A) in *; set (b := py B) in *; set (c := py C) in *; set (y := py P) in *; clearbody a b c y;
  destruct E1 as [E1|(E1 & F1)], E2 as [E2|(E2 & F2)], E3 as [E3|(E3 & F3)]; try subst o1; try subst o2; try subst o3; try lra; try nra;
  try (apply HZ; lra).
Qed.
