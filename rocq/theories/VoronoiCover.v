(** The points that are closest to an inner point of a triangulation lie in the hull of the circumcenters around it. *)
From Coq Require Import Reals ZArith List Bool Arith Lia Lra Psatz Permutation.
From Verif Require Import Outcome AdaptiveModel AdaptiveProofs CollisionModel DelaunaySpec DelaunayModel PolygonModel VoronoiCellModel VoronoiCellSpec VoronoiCellProofs.
Import ListNotations.
Local Open Scope R_scope.

(** ** A number between two finite sets *)
Lemma list_max (l : list R) : l = [] \/ exists m, In m l /\ forall x, In x l -> x <= m.
Proof.
  induction l as [|a l IH]; [auto|right]. destruct IH as [->|(m & Hm & Q)].
  - exists a. split; [now left|]. intros x [<-|[]]. lra.
  - destruct (Rle_or_lt a m) as [L|L].
    + exists m. split; [now right|]. intros x [<-|Hx]; auto.
    + exists a. split; [now left|]. intros x [<-|Hx]; [lra|]. pose proof (Q x Hx). lra.
Qed.
Lemma list_min (l : list R) : l = [] \/ exists m, In m l /\ forall x, In x l -> m <= x.
Proof.
  induction l as [|a l IH]; [auto|right]. destruct IH as [->|(m & Hm & Q)].
  - exists a. split; [now left|]. intros x [<-|[]]. lra.
  - destruct (Rle_or_lt m a) as [L|L].
    + exists m. split; [now right|]. intros x [<-|Hx]; auto.
    + exists a. split; [now left|]. intros x [<-|Hx]; [lra|]. pose proof (Q x Hx). lra.
Qed.
Lemma between (L U : list R) : (forall l u, In l L -> In u U -> l < u) -> exists a, (forall l, In l L -> l < a) /\ (forall u, In u U -> a < u).
Proof.
  intros H. destruct (list_max L) as [->|(m & Hm & Qm)], (list_min U) as [->|(k & Hk & Qk)].
  - exists 0. split; intros ? [].
  - exists (k - 1). split; [intros ? []|]. intros u Hu. pose proof (Qk u Hu). lra.
  - exists (m + 1). split; [|intros ? []]. intros l Hl. pose proof (Qm l Hl). lra.
  - exists ((m + k) / 2). pose proof (H m k Hm Hk). split; [intros l Hl; pose proof (Qm l Hl); lra|intros u Hu; pose proof (Qk u Hu); lra].
Qed.

(** ** Separation in the plane *)
Section Separate.
  Variables (l : list point) (x : point).
  Let X (c : point) := fst c - fst x.
  Let Y (c : point) := snd c - snd x.
  Let H := hull (fun c => In c l).
  (** the point above or below x on the line through two corners *)
  Let E : list R :=
    map Y (filter (fun c => if Req_EM_T (X c) 0 then true else false) l) ++
    flat_map (fun i => map (fun j => (X i * Y j - X j * Y i) / (X i - X j)) (filter (fun j => if Rlt_dec (X j) 0 then true else false) l))
      (filter (fun i => if Rlt_dec 0 (X i) then true else false) l).

  Lemma E_hull e : In e E -> H (fst x, snd x + e).
  Proof.
    unfold E. rewrite in_app_iff, in_map_iff, in_flat_map. intros [(c & <- & Hc)|(i & Hi & Hj)].
    - apply filter_In in Hc. destruct Hc as (Hc & Hx). destruct (Req_EM_T (X c) 0) as [Z|]; [|discriminate].
      replace (fst x, snd x + Y c) with c; [apply hull_in; exact Hc|]. unfold X, Y in *. destruct c, x. cbn [fst snd] in *. f_equal; lra.
    - apply in_map_iff in Hj. destruct Hj as (j & <- & Hj). apply filter_In in Hi, Hj. destruct Hi as (Hi & Pi), Hj as (Hj & Pj).
      destruct (Rlt_dec 0 (X i)) as [Xi|]; [|discriminate]. destruct (Rlt_dec (X j) 0) as [Xj|]; [|discriminate].
      assert (S: 0 <= X i / (X i - X j) <= 1).
      { split; [apply Rmult_le_pos; [lra|left; apply Rinv_0_lt_compat; lra]|]. apply (Rmult_le_reg_r (X i - X j)); [lra|].
        unfold Rdiv. rewrite Rmult_assoc, Rinv_l by lra. lra. }
      assert (G: H (fst i + X i / (X i - X j) * (fst j - fst i), snd i + X i / (X i - X j) * (snd j - snd i)))
        by (apply hull_mid; [apply hull_in; exact Hi|apply hull_in; exact Hj|exact S]).
      replace (fst x, snd x + (X i * Y j - X j * Y i) / (X i - X j))
        with (fst i + X i / (X i - X j) * (fst j - fst i), snd i + X i / (X i - X j) * (snd j - snd i)); [exact G|].
      unfold X, Y in *. f_equal; field; lra.
  Qed.
  Lemma E_zero c : In c l -> X c = 0 -> In (Y c) E.
  Proof.
    intros Hc Z. unfold E. apply in_app_iff. left. apply in_map. apply filter_In. split; [exact Hc|]. destruct (Req_EM_T (X c) 0); [reflexivity|contradiction].
  Qed.
  Lemma E_pair i j : In i l -> In j l -> 0 < X i -> X j < 0 -> In ((X i * Y j - X j * Y i) / (X i - X j)) E.
  Proof.
    intros Hi Hj Pi Pj. unfold E. apply in_app_iff. right. apply in_flat_map. exists i. split.
    - apply filter_In. split; [exact Hi|]. destruct (Rlt_dec 0 (X i)); [reflexivity|contradiction].
    - apply (in_map (fun j => (X i * Y j - X j * Y i) / (X i - X j))). apply filter_In. split; [exact Hj|]. destruct (Rlt_dec (X j) 0); [reflexivity|contradiction].
  Qed.
  (** if all these points are on one side of x, a line separates x from the corners *)
  Lemma one_side (b : R) : b = 1 \/ b = -1 -> (forall e, In e E -> b * e < 0) -> exists a, forall c, In c l -> a * X c + b * Y c < 0.
  Proof.
    intros Hb HE.
    destruct (between (map (fun c => - (b * Y c) / X c) (filter (fun j => if Rlt_dec (X j) 0 then true else false) l))
                      (map (fun c => - (b * Y c) / X c) (filter (fun j => if Rlt_dec 0 (X j) then true else false) l))) as (a & HL & HU).
    - intros lo up Hl Hu. apply in_map_iff in Hl, Hu. destruct Hl as (j & <- & Hj), Hu as (i & <- & Hi). apply filter_In in Hi, Hj.
      destruct Hi as (Hi & Pi), Hj as (Hj & Pj). destruct (Rlt_dec 0 (X i)) as [Xi|]; [|discriminate]. destruct (Rlt_dec (X j) 0) as [Xj|]; [|discriminate].
      pose proof (HE _ (E_pair i j Hi Hj Xi Xj)) as Q.
      assert (Q': b * (X i * Y j - X j * Y i) < 0).
      { apply (Rmult_lt_reg_r (/ (X i - X j))); [apply Rinv_0_lt_compat; lra|]. rewrite Rmult_0_l. unfold Rdiv in Q. lra. }
      apply (Rmult_lt_reg_r (X i * - X j)); [apply Rmult_lt_0_compat; lra|].
      replace (- (b * Y j) / X j * (X i * - X j)) with (b * Y j * X i) by (field; lra).
      replace (- (b * Y i) / X i * (X i * - X j)) with (b * Y i * X j) by (field; lra). lra.
    - exists a. intros c Hc. destruct (Rtotal_order (X c) 0) as [L|[Z|G]].
      + assert (Q: - (b * Y c) / X c < a).
        { apply HL. apply (in_map (fun c => - (b * Y c) / X c)). apply filter_In. split; [exact Hc|]. destruct (Rlt_dec (X c) 0); [reflexivity|contradiction]. }
        apply (Rmult_lt_compat_r (- X c)) in Q; [|lra]. replace (- (b * Y c) / X c * - X c) with (b * Y c) in Q by (field; lra). lra.
      + rewrite Z. pose proof (HE _ (E_zero c Hc Z)). lra.
      + assert (Q: a < - (b * Y c) / X c).
        { apply HU. apply (in_map (fun c => - (b * Y c) / X c)). apply filter_In. split; [exact Hc|]. destruct (Rlt_dec 0 (X c)); [reflexivity|contradiction]. }
        apply (Rmult_lt_compat_r (X c)) in Q; [|lra]. replace (- (b * Y c) / X c * X c) with (- (b * Y c)) in Q by (field; lra). lra.
  Qed.
  Lemma separate : hull (fun c => In c l) x \/ exists a b, forall c, In c l -> a * (fst c - fst x) + b * (snd c - snd x) < 0.
  Proof.
    destruct (Forall_Exists_dec (fun e => e < 0) (fun e => Rlt_dec e 0) E) as [F1|F1].
    { right. destruct (one_side 1 (or_introl eq_refl)) as (a & Ha).
      - intros e He. rewrite List.Forall_forall in F1. specialize (F1 e He). lra.
      - exists a, 1. exact Ha. }
    destruct (Forall_Exists_dec (fun e => 0 < e) (fun e => Rlt_dec 0 e) E) as [F2|F2].
    { right. destruct (one_side (-1) (or_intror eq_refl)) as (a & Ha).
      - intros e He. rewrite List.Forall_forall in F2. specialize (F2 e He). lra.
      - exists a, (-1). exact Ha. }
    left. apply List.Exists_exists in F1, F2. destruct F1 as (e & He & P1), F2 as (d & Hd & P2). apply E_hull in He, Hd. fold H.
    destruct (Req_dec e d) as [Q|Q].
    - assert (Z: e = 0) by lra. rewrite Z in He. replace x with (fst x, snd x + 0); [exact He|]. destruct x. cbn [fst snd]. f_equal. ring.
    - assert (S: 0 <= e / (e - d) <= 1).
      { split; [apply Rmult_le_pos; [lra|left; apply Rinv_0_lt_compat; lra]|]. apply (Rmult_le_reg_r (e - d)); [lra|]. unfold Rdiv. rewrite Rmult_assoc, Rinv_l by lra. lra. }
      pose proof (hull_mid _ _ _ _ He Hd S) as G. cbn [fst snd] in G. fold H in G.
      match type of G with H ?p => replace p with x in G; [exact G|] end. destruct x. cbn [fst snd]. f_equal; field; lra.
  Qed.
End Separate.

(** ** The cell *)
Lemma equal_distance c p q : sq c p = sq c q ->
  2 * ((fst c - fst p) * (fst q - fst p) + (snd c - snd p) * (snd q - snd p)) = sq q p.
Proof. destruct c, p, q. unfold sq. cbn [fst snd]. intros. nra. Qed.
Lemma closer c p q : sq c p <= sq c q ->
  2 * ((fst c - fst p) * (fst q - fst p) + (snd c - snd p) * (snd q - snd p)) <= sq q p.
Proof. destruct c, p, q. unfold sq. cbn [fst snd]. intros. nra. Qed.

(** the corners surround p: every direction from p lies between the sides of a triangle whose circumcenter is a corner *)
Lemma cover (l : list point) (p x : point) (N : point -> Prop) :
  (forall a b, exists q q' c s t, N q /\ N q' /\ In c l /\ sq c p = sq c q /\ sq c p = sq c q' /\ 0 <= s /\ 0 <= t /\
     a = s * (fst q - fst p) + t * (fst q' - fst p) /\ b = s * (snd q - snd p) + t * (snd q' - snd p)) ->
  (forall q, N q -> sq x p <= sq x q) -> hull (fun c => In c l) x.
Proof.
  intros HS HN. destruct (separate l x) as [?|(a & b & U)]; [assumption|exfalso].
  destruct (HS a b) as (q & q' & c & s & t & Nq & Nq' & Hc & E1 & E2 & S & T & Ea & Eb). specialize (U c Hc).
  pose proof (closer x p q (HN q Nq)). pose proof (closer x p q' (HN q' Nq')). pose proof (equal_distance c p q E1). pose proof (equal_distance c p q' E2).
  set (dx := fst q - fst p) in *. set (dy := snd q - snd p) in *. set (ex := fst q' - fst p) in *. set (ey := snd q' - snd p) in *.
  subst a b.
  assert (A1: s * ((fst c - fst x) * dx + (snd c - snd x) * dy) >= 0) by (apply Rle_ge, Rmult_le_pos; lra).
  assert (A2: t * ((fst c - fst x) * ex + (snd c - snd x) * ey) >= 0) by (apply Rle_ge, Rmult_le_pos; lra). lra.
Qed.
