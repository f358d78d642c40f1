(** C71: memoization by natural coordinates is transparent. *)
From Coq Require Import Reals List Bool Arith Lia Lra Sorted.
From Verif Require Import Outcome AdaptiveModel AdaptiveProofs MemoModel.
Import ListNotations.
Local Open Scope R_scope.

(** numbers without NaN *)
Definition reals (l : list R) : coords := map Some l.
Definition real_coords (d : nat) (v : coords) : Prop := exists x, v = reals x /\ length x = d.

(** the order *)
Fixpoint lex (l r : list R) : bool :=
  match l, r with
  | a :: l', b :: r' => orb (rltb a b) (andb (negb (rltb b a)) (lex l' r'))
  | _, _ => false
  end.
Lemma compare_lex : forall d x y, (1 <= d <= 3)%nat -> length x = d -> length y = d -> compare (reals x) (reals y) = Ok (lex x y).
Proof.
  intros d x y Hd Hx Hy.
  destruct x as [|a [|b [|c [|]]]], y as [|a' [|b' [|c' [|]]]]; cbn [length] in *; try lia; cbn [reals map compare lex];
    unfold tie2; cbn [coord_lt]; rewrite ?andb_false_r, ?orb_false_r; reflexivity.
Qed.
Lemma lex_irrefl : forall x, lex x x = false.
Proof. induction x as [|a x IH]; cbn [lex]; trivial. rewrite IH. destruct (rltb_spec a a) as [(-> & H)|(-> & H)]; [lra|reflexivity]. Qed.
Lemma lex_trans : forall x y z, length x = length y -> length y = length z -> lex x y = true -> lex y z = true -> lex x z = true.
Proof.
  induction x as [|a x IH]; intros [|b y] [|c z] H1 H2 A B; cbn [lex length] in *; try discriminate.
  injection H1 as H1. injection H2 as H2. specialize (IH y z H1 H2).
  destruct (rltb_spec a b) as [(E1 & X1)|(E1 & X1)], (rltb_spec b a) as [(E2 & X2)|(E2 & X2)],
    (rltb_spec b c) as [(E3 & X3)|(E3 & X3)], (rltb_spec c b) as [(E4 & X4)|(E4 & X4)]; rewrite E1, E2 in A; rewrite E3, E4 in B; cbn [orb andb negb] in *;
    try discriminate; try lra; destruct (rltb_spec a c) as [(-> & X5)|(-> & X5)], (rltb_spec c a) as [(-> & X6)|(-> & X6)];
    cbn [orb andb negb]; trivial; try lra; auto.
Qed.
Lemma lex_total : forall x y, length x = length y -> lex x y = false -> lex y x = false -> x = y.
Proof.
  induction x as [|a x IH]; intros [|b y] H A B; cbn [lex length] in *; try discriminate; trivial. injection H as H.
  destruct (rltb_spec a b) as [(E1 & X1)|(E1 & X1)], (rltb_spec b a) as [(E2 & X2)|(E2 & X2)]; rewrite E1, E2 in *; cbn [orb andb negb] in *;
    try discriminate; f_equal; [lra|auto].
Qed.
Lemma reals_inj : forall x y, reals x = reals y -> x = y.
Proof. induction x as [|a x IH]; intros [|b y] H; try discriminate; trivial. injection H as -> H. f_equal. now apply IH. Qed.

(** The comparison sends every pair of distinct coordinates of one, two or three numbers one way and identifies only equal ones. *)
Theorem C71_comparison : forall d v w, (1 <= d <= 3)%nat -> real_coords d v -> real_coords d w ->
  exists b c, compare v w = Ok b /\ compare w v = Ok c /\ andb b c = false /\ (b = false /\ c = false <-> v = w).
Proof.
  intros d v w Hd (x & -> & Hx) (y & -> & Hy). exists (lex x y), (lex y x). rewrite !(compare_lex d) by trivial.
  split; [trivial|]. split; [trivial|]. split.
  - destruct (lex x y) eqn:A, (lex y x) eqn:B; trivial. exfalso. assert (lex x x = true) by (apply (lex_trans x y x); congruence).
    rewrite lex_irrefl in H. discriminate.
  - split; [intros (A & B); f_equal; apply lex_total; congruence|]. intro E. apply reals_inj in E. subst y. now rewrite lex_irrefl.
Qed.
Print Assumptions C71_comparison.

Section Proofs.
Context {V : Type}.
Variables (f : coords -> V) (d : nat).
Hypothesis Hd : (1 <= d <= 3)%nat.

Definition lt_node (n m : @node V) : Prop := compare (key n) (key m) = Ok true.
Definition good (l : list (@node V)) : Prop :=
  StronglySorted lt_node l /\ (forall n, In n l -> real_coords d (key n) /\ value n = f (key n)).
Lemma good_tail : forall n l, good (n :: l) -> good l.
Proof. intros n l (A & B). apply StronglySorted_inv in A. split; [tauto|]. intros m Hm. apply B. now right. Qed.
Lemma compare_cases : forall v w, real_coords d v -> real_coords d w ->
  (compare v w = Ok true /\ v <> w) \/ (compare v w = Ok false /\ compare w v = Ok true /\ v <> w) \/
  (compare v w = Ok false /\ compare w v = Ok false /\ v = w).
Proof.
  intros v w Hv Hw. destruct (C71_comparison d v w Hd Hv Hw) as (b & c & A & B & C & D). rewrite A, B.
  destruct b, c; try discriminate; [left|right; left|right; right].
  - split; trivial. intro E. apply D in E. now destruct E.
  - split; trivial. split; trivial. intro E. apply D in E. now destruct E.
  - split; trivial. split; trivial. now apply D.
Qed.
Lemma compare_trans : forall u v w, real_coords d u -> real_coords d v -> real_coords d w ->
  compare u v = Ok true -> compare v w = Ok true -> compare u w = Ok true.
Proof.
  intros u v w (x & -> & Hx) (y & -> & Hy) (z & -> & Hz). rewrite !(compare_lex d) by trivial. intros A B.
  injection A as A. injection B as B. f_equal. apply (lex_trans x y z); congruence.
Qed.
Lemma compare_irrefl : forall v, real_coords d v -> compare v v = Ok false.
Proof. intros v (x & -> & Hx). rewrite (compare_lex d) by trivial. f_equal. apply lex_irrefl. Qed.

Lemma find_spec : forall l v, good l -> real_coords d v ->
  (exists n, map_find l v = Ok (Some n) /\ In n l /\ key n = v) \/
  (map_find l v = Ok None /\ forall n, In n l -> key n <> v).
Proof.
  induction l as [|n l IH]; intros v HG Hv; cbn [map_find].
  - right. split; [trivial|]. intros n [].
  - pose proof HG as (HS & HV). apply StronglySorted_inv in HS. destruct HS as (_ & HF). rewrite Forall_forall in HF.
    destruct (HV n ltac:(now left)) as (Kn & _).
    destruct (compare_cases (key n) v Kn Hv) as [(E & N)|[(E & E' & N)|(E & E' & N)]]; rewrite E; cbn [obind].
    + destruct (IH v (good_tail _ _ HG) Hv) as [(m & A & B & C)|(A & B)].
      * left. exists m. split; [trivial|]. split; [now right|trivial].
      * right. split; [trivial|]. intros m [<-|Hm]; [trivial|now apply B].
    + rewrite E'. cbn [obind]. right. split; [trivial|]. intros m [<-|Hm]; [trivial|]. intro Em.
      destruct (HV m ltac:(now right)) as (Km & _). specialize (HF m Hm). unfold lt_node in HF. rewrite Em in HF.
      rewrite E in HF. discriminate.
    + rewrite E'. cbn [obind]. left. exists n. split; [trivial|]. split; [now left|trivial].
Qed.
Lemma insert_spec : forall l n, good l -> real_coords d (key n) -> value n = f (key n) ->
  (exists l', map_insert l n = Ok (l', n) /\ good l' /\ (forall m, In m l' <-> m = n \/ In m l) /\ (forall m, In m l -> key m <> key n)) \/
  (exists m, map_insert l n = Ok (l, m) /\ In m l /\ key m = key n).
Proof.
  induction l as [|m l IH]; intros n HG Hn Hv; cbn [map_insert].
  - left. exists [n]. split; [trivial|]. split; [split; [constructor; [constructor|constructor]|]|].
    + intros k [<-|[]]. auto.
    + split; [|intros m []]. intro k. cbn [In]. intuition.
  - pose proof HG as (HS & HV). apply StronglySorted_inv in HS. destruct HS as (HS & HF). rewrite Forall_forall in HF.
    destruct (HV m ltac:(now left)) as (Km & _).
    destruct (compare_cases (key m) (key n) Km Hn) as [(E & N)|[(E & E' & N)|(E & E' & N)]]; rewrite E; cbn [obind].
    + destruct (IH n (good_tail _ _ HG) Hn Hv) as [(l' & A & B & C & D)|(k & A & B & C)]; rewrite A; cbn [obind fst snd].
      * left. exists (m :: l'). split; [trivial|]. split; [split|].
        -- constructor; [apply B|]. apply Forall_forall. intros k Hk. apply C in Hk. destruct Hk as [->|Hk]; [exact E|auto].
        -- intros k [<-|Hk]; [apply HV; now left|now apply B].
        -- split; [intro k; cbn [In]; rewrite C; intuition|]. intros k [<-|Hk]; [trivial|now apply D].
      * right. exists k. split; [trivial|]. split; [now right|trivial].
    + rewrite E'. cbn [obind]. left. exists (n :: m :: l). split; [trivial|]. split; [split|].
      * constructor; [constructor; trivial; now apply Forall_forall|]. constructor; [exact E'|]. apply Forall_forall. intros k Hk.
        unfold lt_node. apply (compare_trans _ (key m)); trivial; [apply HV; now right|]. now apply HF.
      * intros k [<-|Hk]; [auto|now apply HV].
      * split; [intro k; cbn [In]; intuition|]. intros k [<-|Hk]; [trivial|]. intro Ek. specialize (HF k Hk). unfold lt_node in HF.
        rewrite Ek, E in HF. discriminate.
    + rewrite E'. cbn [obind]. right. exists m. split; [trivial|]. split; [now left|trivial].
Qed.

(** memoizer states *)
Definition wf (m : @memo V) : Prop :=
  good (cache m) /\ NoDup (map addr (cache m)) /\ (forall n, In n (cache m) -> (addr n < next m)%nat).
Lemma find_addr : forall (l : list (@node V)) n, NoDup (map addr l) -> In n l -> find (fun k => Nat.eqb (addr k) (addr n)) l = Some n.
Proof.
  induction l as [|k l IH]; intros n ND Hn; [destruct Hn|]. cbn [map] in ND. apply NoDup_cons_iff in ND. destruct ND as (N1 & N2).
  cbn [find]. destruct Hn as [->|Hn]; [now rewrite Nat.eqb_refl|].
  destruct (Nat.eqb_spec (addr k) (addr n)) as [E|E]; [|auto]. exfalso. apply N1. rewrite E. now apply in_map.
Qed.
Lemma insert_addr : forall (l : list (@node V)) n l' k, map_insert l n = Ok (l', k) -> (forall m, In m l -> (addr m < addr n)%nat) -> NoDup (map addr l) ->
  NoDup (map addr l').
Proof.
  induction l as [|m l IH]; intros n l' k E HB ND; cbn [map_insert] in E.
  - injection E as <- <-. constructor; [intros []|constructor].
  - cbn [map] in ND. apply NoDup_cons_iff in ND. destruct ND as (N1 & N2).
    assert (Sub : forall n' l'' k', map_insert l n' = Ok (l'', k') -> forall a, In a (map addr l'') -> a = addr n' \/ In a (map addr l)).
    { clear. induction l as [|m l IH]; intros n' l'' k' E a Ha; cbn [map_insert] in E.
      - injection E as <- <-. destruct Ha as [<-|[]]; auto.
      - destruct (compare (key m) (key n')) as [[|]| |]; cbn [obind] in E; try discriminate.
        + destruct (map_insert l n') as [[l1 k1]| |] eqn:E1; cbn [obind fst snd] in E; try discriminate. injection E as <- <-.
          destruct Ha as [<-|Ha]; [right; now left|]. destruct (IH _ _ _ E1 a Ha) as [H|H]; [now left|right; now right].
        + destruct (compare (key n') (key m)) as [[|]| |]; cbn [obind] in E; try discriminate; injection E as <- <-; cbn [map In] in *; intuition. }
    destruct (compare (key m) (key n)) as [[|]| |]; cbn [obind] in E; try discriminate.
    + destruct (map_insert l n) as [[l1 k1]| |] eqn:E1; cbn [obind fst snd] in E; try discriminate. injection E as <- <-.
      cbn [map]. constructor.
      * intro H. destruct (Sub _ _ _ E1 _ H) as [H'|H']; [|contradiction]. specialize (HB m ltac:(now left)). lia.
      * eapply IH; [exact E1| |exact N2]. intros q Hq. apply HB. now right.
    + destruct (compare (key n) (key m)) as [[|]| |]; cbn [obind] in E; try discriminate; injection E as <- <-.
      * cbn [map]. constructor; [|now constructor]. intro H. change (In (addr n) (map addr (m :: l))) in H. apply in_map_iff in H.
        destruct H as (q & Eq & Hq). specialize (HB q Hq). lia.
      * now constructor.
Qed.
Lemma get_spec : forall m v, wf m -> real_coords d v -> exists m' n,
  get f m v = Ok (m', addr n) /\ wf m' /\ In n (cache m') /\ key n = v /\ (forall k, In k (cache m) -> In k (cache m')) /\
  (forall w, In w (map key (cache m')) <-> w = v \/ In w (map key (cache m))) /\
  ((In v (map key (cache m)) /\ m' = m) \/ (~ In v (map key (cache m)) /\ calls m' = calls m ++ [v])).
Proof.
  intros m v (HG & ND & HB) Hv. unfold get. destruct (find_spec (cache m) v HG Hv) as [(n & E & Hn & Kn)|(E & HN)]; rewrite E; cbn [obind].
  - exists m, n. split; [trivial|]. split; [now split|]. split; trivial. split; trivial. split; [auto|].
    assert (Iv : In v (map key (cache m))) by (rewrite <- Kn; now apply in_map).
    split; [|left; auto]. intro w. split; [auto|]. intros [->|H]; trivial.
  - destruct (insert_spec (cache m) (Node (next m) v (f v)) HG Hv eq_refl) as [(l' & E' & HG' & HI & _)|(k & E' & Hk & Kk)].
    + rewrite E'. cbn [obind fst snd]. eexists _, _. split; [reflexivity|]. cbn [cache].
      assert (Nv : ~ In v (map key (cache m))) by (intro H; apply in_map_iff in H; destruct H as (k & Kk & Hk); now apply (HN k)).
      split; [split; [trivial|split]|].
      * eapply insert_addr; [exact E'| |exact ND]. exact HB.
      * cbn [next cache]. intros k Hk. apply HI in Hk. destruct Hk as [->|Hk]; [cbn [addr]; lia|]. specialize (HB k Hk). lia.
      * split; [apply HI; now left|]. split; [reflexivity|]. split; [intros k Hk; apply HI; now right|]. split; [|right; auto].
        intro w. rewrite !in_map_iff. split.
        -- intros (k & <- & Hk). apply HI in Hk. destruct Hk as [->|Hk]; [now left|right; eauto].
        -- intros [->|(k & <- & Hk)]; [exists (Node (next m) v (f v)); split; [trivial|]; apply HI; now left|].
           exists k. split; trivial. apply HI. now right.
    + exfalso. exact (HN k Hk Kk).
Qed.
Lemma deref_spec : forall m n, wf m -> In n (cache m) -> deref m (addr n) = Ok (f (key n)).
Proof.
  intros m n ((_ & HV) & ND & _) Hn. unfold deref. rewrite find_addr by trivial. f_equal. now apply HV.
Qed.
Lemma clear_wf : forall m, wf m -> wf (clear_cache m).
Proof. intros m H. split; [split; [constructor|intros n []]|]. split; [constructor|intros n []]. Qed.
Lemma empty_wf : wf empty_memo.
Proof. split; [split; [constructor|intros n []]|]. split; [constructor|intros n []]. Qed.

Definition asked (r : request) : list coords := match r with Get v => [v] | Clear => [] end.
Lemma history_spec : forall rs m, wf m -> (forall r v, In r rs -> In v (asked r) -> real_coords d v) ->
  exists m', history f m rs = Ok (m', map f (flat_map asked rs)) /\ wf m' /\
  (~ In Clear rs -> forall n, In n (cache m) -> In n (cache m')).
Proof.
  induction rs as [|r rs IH]; intros m W HR; cbn [history flat_map map].
  - exists m. auto.
  - destruct r as [v|].
    + destruct (get_spec m v W (HR _ v (or_introl eq_refl) (or_introl eq_refl))) as (m1 & n & E & W1 & Hn & Kn & Keep & _).
      rewrite E. cbn [obind fst snd]. rewrite (deref_spec m1 n W1 Hn), Kn. cbn [obind].
      destruct (IH m1 W1) as (m2 & E2 & W2 & K2); [intros r' v' H1 H2; apply (HR r' v'); trivial; now right|].
      rewrite E2. cbn [obind fst snd asked List.app map]. exists m2. split; trivial. split; trivial.
      intros NC k Hk. apply K2; [intro H; apply NC; now right|]. now apply Keep.
    + destruct (IH (clear_cache m) (clear_wf m W)) as (m2 & E2 & W2 & K2); [intros r' v' H1 H2; apply (HR r' v'); trivial; now right|].
      cbn [asked List.app]. exists m2. split; [exact E2|]. split; trivial. intro NC. exfalso. apply NC. now left.
Qed.

(** ** threads *)
Definition twf (s : @shared V) : Prop :=
  wf (memory s) /\ (forall i, (forall v, In v (pending (threads s i)) -> real_coords d v) /\
    (forall v, ph (threads s i) = Searching v \/ ph (threads s i) = Missed v \/ ph (threads s i) = Inserting v -> real_coords d v) /\
    (forall v y, In (v, y) (results (threads s i)) -> y = f v)) /\
  (locked s = false -> forall i v, ph (threads s i) <> Inserting v) /\
  (forall i j v w, ph (threads s i) = Inserting v -> ph (threads s j) = Inserting w -> i = j).
Ltac thr := match goal with |- context [set_thread ?s ?i ?t ?j] => unfold set_thread; destruct (Nat.eqb_spec j i) as [->|?] end.
Lemma step_twf : forall s s', twf s -> step f s s' -> twf s'.
Proof.
  intros s s' (W & T & L & U) H.
  assert (NoIns : forall i v t, ph (threads s i) = Idle \/ (exists w, ph (threads s i) = Searching w) \/ (exists w, ph (threads s i) = Missed w) ->
    ph t = Idle \/ (exists w, ph t = Searching w) \/ (exists w, ph t = Missed w) -> forall j, ph (set_thread s i t j) = Inserting v -> ph (threads s j) = Inserting v /\ j <> i).
  { intros i v t Hi Ht j. unfold set_thread. destruct (Nat.eqb_spec j i) as [->|N]; [|auto].
    intro E. rewrite E in Ht. destruct Ht as [Ht|[(w & Ht)|(w & Ht)]]; discriminate. }
  destruct H as [i v rest HP HI|i v n HP HF|i v HP HF|i v HP HL|i v l n HP HF]; (split; [|split; [|split]]); cbn [memory threads locked] in *; trivial.
  - intro j. unfold set_thread. destruct (Nat.eqb_spec j i) as [->|N]; [|apply T]. destruct (T i) as (A & B & C). cbn [pending ph results].
    rewrite HP in A. split; [intros w Hw; apply A; now right|]. split; [|exact C]. intros w [E|[E|E]]; try discriminate. injection E as <-. apply A. now left.
  - intros HL j w E. apply NoIns in E; [|auto|cbn [ph]; eauto]. destruct E as (E & _). exact (L HL j w E).
  - intros j k w w' E1 E2. apply NoIns in E1; [|auto|cbn [ph]; eauto]. apply NoIns in E2; [|auto|cbn [ph]; eauto].
    eapply U; [apply E1|apply E2].
  - intro j. unfold set_thread. destruct (Nat.eqb_spec j i) as [->|N]; [|apply T]. destruct (T i) as (A & B & C). cbn [pending ph results].
    split; [exact A|]. split; [intros w [E|[E|E]]; discriminate|]. intros w y Hy. apply in_app_iff in Hy. destruct Hy as [Hy|[Hy|[]]]; [auto|].
    injection Hy as <- <-. destruct W as (HG & _). destruct (find_spec _ v HG (B v (or_introl HP))) as [(n' & E & Hn & Kn)|(E & _)]; [|congruence].
    assert (n' = n) by congruence. subst n'. rewrite <- Kn. now apply HG.
  - intros HL j w E. apply NoIns in E; [|eauto|cbn [ph]; eauto]. destruct E as (E & _). exact (L HL j w E).
  - intros j k w w' E1 E2. apply NoIns in E1; [|eauto|cbn [ph]; eauto]. apply NoIns in E2; [|eauto|cbn [ph]; eauto].
    eapply U; [apply E1|apply E2].
  - intro j. unfold set_thread. destruct (Nat.eqb_spec j i) as [->|N]; [|apply T]. destruct (T i) as (A & B & C). cbn [pending ph results].
    split; [exact A|]. split; [|exact C]. intros w [E|[E|E]]; try discriminate. injection E as <-. apply B. now left.
  - intros HL j w E. apply NoIns in E; [|eauto|cbn [ph]; eauto]. destruct E as (E & _). exact (L HL j w E).
  - intros j k w w' E1 E2. apply NoIns in E1; [|eauto|cbn [ph]; eauto]. apply NoIns in E2; [|eauto|cbn [ph]; eauto].
    eapply U; [apply E1|apply E2].
  - intro j. unfold set_thread. destruct (Nat.eqb_spec j i) as [->|N]; [|apply T]. destruct (T i) as (A & B & C). cbn [pending ph results].
    split; [exact A|]. split; [|exact C]. intros w [E|[E|E]]; try discriminate. injection E as <-. apply B. auto.
  - discriminate.
  - intros j k w w'. unfold set_thread. destruct (Nat.eqb_spec j i) as [->|N], (Nat.eqb_spec k i) as [->|N']; cbn [ph]; trivial; intros E1 E2.
    + exfalso. exact (L HL k w' E2).
    + exfalso. exact (L HL j w E1).
    + exfalso. exact (L HL j w E1).
  - destruct (T i) as (_ & B & _). assert (Kv : real_coords d v) by (apply B; auto). destruct W as (HG & ND & HB).
    destruct (insert_spec _ (Node (next (memory s)) v (f v)) HG Kv eq_refl) as [(l' & E' & HG' & HI & _)|(k & E' & Hk & Kk)];
      rewrite E' in HF; injection HF as <- <-.
    + split; [exact HG'|]. cbn [cache next]. split; [eapply insert_addr; [exact E'|exact HB|exact ND]|].
      intros k Hk. apply HI in Hk. destruct Hk as [->|Hk]; [cbn [addr]; lia|]. specialize (HB k Hk). lia.
    + split; [exact HG|]. split; [exact ND|]. cbn [cache next]. intros q Hq. specialize (HB q Hq). lia.
  - intro j. unfold set_thread. destruct (Nat.eqb_spec j i) as [->|N]; [|apply T]. destruct (T i) as (A & B & C). cbn [pending ph results].
    assert (Kv : real_coords d v) by (apply B; auto). destruct W as (HG & ND & HB).
    split; [exact A|]. split; [intros w [E|[E|E]]; discriminate|]. intros w y Hy. apply in_app_iff in Hy. destruct Hy as [Hy|[Hy|[]]]; [auto|].
    injection Hy as <- <-.
    destruct (insert_spec _ (Node (next (memory s)) v (f v)) HG Kv eq_refl) as [(l' & E' & HG' & HI & _)|(k & E' & Hk & Kk)];
      rewrite E' in HF; injection HF as <- <-; [reflexivity|]. cbn [key] in Kk. rewrite <- Kk. now apply HG.
  - intros _ j w. unfold set_thread. destruct (Nat.eqb_spec j i) as [->|N]; cbn [ph]; [discriminate|]. intro E. apply N. eapply U; eassumption.
  - intros j k w w'. unfold set_thread. destruct (Nat.eqb_spec j i) as [->|N], (Nat.eqb_spec k i) as [->|N']; cbn [ph]; try discriminate; trivial. apply U.
Qed.
Lemma reaches_twf : forall s s', twf s -> reaches f s s' -> twf s'.
Proof. intros s s' W H. induction H; trivial. eapply step_twf; [apply IHreaches|]; eassumption. Qed.
Lemma initial_twf : forall q m, wf m -> (forall i v, In v (q i) -> real_coords d v) -> twf (initial q m).
Proof.
  intros q m W HQ. split; [exact W|]. split; [|split; [intros _ i v; discriminate|intros i j v w E; discriminate]].
  intro i. cbn [initial threads pending ph results]. split; [apply HQ|]. split; [intros v [E|[E|E]]; discriminate|intros v y []].
Qed.
End Proofs.

(** ** the theorems *)
(** Whatever was requested and cleared before: every Get succeeds, the value read through its reference is the function's value at
    the requested coordinates, and the reference stays valid through later requests until the cache is cleared. *)
Theorem C71_sequential : forall V (f : coords -> V) d before v after, (1 <= d <= 3)%nat ->
  (forall w, In (Get w) (before ++ Get v :: after) -> real_coords d w) -> ~ In Clear after ->
  exists m1 a m2 m3,
    history f empty_memo before = Ok (m1, map f (flat_map asked before)) /\
    get f m1 v = Ok (m2, a) /\ deref m2 a = Ok (f v) /\
    history f m2 after = Ok (m3, map f (flat_map asked after)) /\ deref m3 a = Ok (f v).
Proof.
  intros V f d before v after Hd HR NC.
  assert (HR' : forall rs, (forall r, In r rs -> In r (before ++ Get v :: after)) -> forall r w, In r rs -> In w (asked r) -> real_coords d w).
  { intros rs Hrs r w Hr Hw. destruct r as [u|]; [|destruct Hw]. destruct Hw as [<-|[]]. apply HR. now apply Hrs. }
  destruct (history_spec f d Hd before empty_memo (empty_wf f d)) as (m1 & E1 & W1 & _).
  { apply HR'. intros r Hr. apply in_app_iff. now left. }
  destruct (get_spec f d Hd m1 v W1) as (m2 & n & E2 & W2 & Hn & Kn & _); [apply HR; apply in_app_iff; right; now left|].
  destruct (history_spec f d Hd after m2 W2) as (m3 & E3 & W3 & K3).
  { apply HR'. intros r Hr. apply in_app_iff. right. now right. }
  exists m1, (addr n), m2, m3. split; [trivial|]. split; [trivial|]. split; [rewrite (deref_spec f d m2 n W2 Hn); now rewrite Kn|].
  split; [trivial|]. rewrite (deref_spec f d m3 n W3 (K3 NC n Hn)). now rewrite Kn.
Qed.
Print Assumptions C71_sequential.

(** Between two clears the function is called once for each distinct coordinate and never again. *)
Fixpoint gets {V} (f : coords -> V) (m : memo) (vs : list coords) : outcome memo :=
  match vs with [] => Ok m | v :: r => obind (get f m v) (fun x => gets f (fst x) r) end.
Lemma gets_calls : forall V (f : coords -> V) d vs m, (1 <= d <= 3)%nat -> wf f d m -> (forall v, In v vs -> real_coords d v) ->
  NoDup (calls m) -> (forall v, In v (calls m) <-> In v (map key (cache m))) ->
  exists m', gets f m vs = Ok m' /\ NoDup (calls m') /\ forall v, In v (calls m') <-> In v (calls m) \/ In v vs.
Proof.
  intros V f d vs. induction vs as [|v vs IH]; intros m Hd W HR ND HC; cbn [gets].
  - exists m. split; trivial. split; trivial. intro v. cbn [In]. tauto.
  - destruct (get_spec f d Hd m v W (HR v ltac:(now left))) as (m1 & n & E & W1 & Hn & Kn & _ & HK & Cases). rewrite E. cbn [obind fst].
    assert (G : NoDup (calls m1) /\ (forall w, In w (calls m1) <-> w = v \/ In w (calls m)) /\ (forall w, In w (calls m1) <-> In w (map key (cache m1)))).
    { destruct Cases as [(Iv & ->)|(Nv & Ec)].
      - split; trivial. split; [|exact HC]. intro w. split; [auto|]. intros [->|H]; trivial. now apply HC.
      - rewrite Ec. assert (ND1 : NoDup (calls m ++ [v])).
        { apply NoDup_rev in ND. rewrite <- (rev_involutive (calls m ++ [v])). apply NoDup_rev. rewrite rev_app_distr. cbn [rev List.app].
          constructor; trivial. intro H. apply in_rev in H. apply Nv. now apply HC. }
        split; trivial. assert (X : forall w, In w (calls m ++ [v]) <-> w = v \/ In w (calls m)).
        { intro w. rewrite in_app_iff. cbn [In]. intuition. }
        split; trivial. intro w. rewrite X, HK, HC. tauto. }
    destruct G as (G1 & G2 & G3). destruct (IH m1 Hd W1) as (m2 & E2 & N2 & H2); trivial; [intros w Hw; apply HR; now right|].
    exists m2. split; trivial. split; trivial. intro w. rewrite H2, G2. cbn [In]. intuition.
Qed.
Theorem C71_one_call_per_coordinate : forall V (f : coords -> V) d vs, (1 <= d <= 3)%nat -> (forall v, In v vs -> real_coords d v) ->
  exists m, gets f empty_memo vs = Ok m /\ NoDup (calls m) /\ forall v, In v (calls m) <-> In v vs.
Proof.
  intros V f d vs Hd HR. destruct (gets_calls V f d vs empty_memo Hd (empty_wf f d) HR) as (m & A & B & C); [constructor|intro v; cbn; tauto|].
  exists m. split; trivial. split; trivial. intro v. rewrite C. cbn [calls empty_memo In]. tauto.
Qed.
Print Assumptions C71_one_call_per_coordinate.

(** Threads, any schedule: every completed request has the function's value, and two insertions never happen at once. *)
Theorem C71_threads_partial : forall V (f : coords -> V) d requests vs m s, (1 <= d <= 3)%nat ->
  (forall i v, In v (requests i) -> real_coords d v) -> (forall v, In v vs -> real_coords d v) ->
  gets f empty_memo vs = Ok m -> reaches f (initial requests m) s ->
  (forall i v y, In (v, y) (results (threads s i)) -> y = f v) /\ ~ write_race s.
Proof.
  intros V f d requests vs m s Hd HQ HV HM HS.
  assert (W : wf f d m).
  { clear HS. revert HM. generalize (empty_wf f d). generalize (@empty_memo V). revert HV. clear HQ. induction vs as [|v vs IH]; intros HV m0 W0 E; cbn [gets] in E.
    - now injection E as <-.
    - destruct (get_spec f d Hd m0 v W0 (HV v ltac:(now left))) as (m1 & n & E1 & W1 & _). rewrite E1 in E. cbn [obind fst] in E.
      apply (IH (fun w Hw => HV w (or_intror Hw)) m1); trivial. }
  destruct (reaches_twf f d Hd _ _ (initial_twf f d requests m W HQ) HS) as (_ & T & _ & U). split.
  - intros i v y H. destruct (T i) as (_ & _ & C). eauto.
  - intros (i & j & v & w & N & A & B). apply N. eapply U; eassumption.
Qed.
Print Assumptions C71_threads_partial.
(** Once every coordinate that is going to be requested is in the cache, no thread ever changes the tree. *)
Theorem C71_warm_cache_partial : forall V (f : coords -> V) d requests vs m s, (1 <= d <= 3)%nat ->
  (forall i v, In v (requests i) -> In v vs) -> (forall v, In v vs -> real_coords d v) ->
  gets f empty_memo vs = Ok m -> reaches f (initial requests m) s -> memory s = m /\ ~ data_race s.
Proof.
  intros V f d requests vs m s Hd HQ HV HM HS.
  assert (W : wf f d m /\ forall v, In v vs -> In v (map key (cache m))).
  { clear HS HQ. revert HM.
    assert (G : forall vs m0 m, (forall v, In v vs -> real_coords d v) -> wf f d m0 -> gets f m0 vs = Ok m ->
       wf f d m /\ (forall k, In k (map key (cache m0)) -> In k (map key (cache m))) /\ forall v, In v vs -> In v (map key (cache m))).
    { clear - Hd. induction vs as [|v vs IH]; intros m0 m HV W0 E; cbn [gets] in E.
      - injection E as <-. split; trivial. split; [auto|intros v []].
      - destruct (get_spec f d Hd m0 v W0 (HV v ltac:(now left))) as (m1 & n & E1 & W1 & Hn & Kn & _ & HK & _). rewrite E1 in E. cbn [obind fst] in E.
        destruct (IH m1 m (fun w Hw => HV w (or_intror Hw)) W1 E) as (A & B & C). split; trivial.
        split; [intros k Hk; apply B, HK; now right|]. intros w [<-|Hw]; [apply B, HK; now left|auto]. }
    intro HM. destruct (G vs empty_memo m HV (empty_wf f d) HM) as (A & _ & C). auto. }
  destruct W as (W & HK).
  assert (I : memory s = m /\ forall i, (forall v, In v (pending (threads s i)) -> In v vs) /\
     (ph (threads s i) = Idle \/ exists v, ph (threads s i) = Searching v /\ In v vs)).
  { induction HS as [|s1 s2 HS IH H].
    - split; [reflexivity|]. intro i. cbn [initial threads pending ph]. split; [apply HQ|now left].
    - destruct IH as (EM & T). destruct H as [i v rest HP HI|i v n HP HF|i v HP HF|i v HP HL|i v l n HP HF]; cbn [memory threads].
      + split; trivial. intro j. unfold set_thread. destruct (Nat.eqb_spec j i) as [->|N]; [|apply T]. destruct (T i) as (A & _). rewrite HP in A.
        cbn [pending ph]. split; [intros w Hw; apply A; now right|]. right. exists v. split; [trivial|]. apply A. now left.
      + split; trivial. intro j. unfold set_thread. destruct (Nat.eqb_spec j i) as [->|N]; [|apply T]. destruct (T i) as (A & _).
        cbn [pending ph]. auto.
      + exfalso. destruct (T i) as (_ & [B|(w & B & Hw)]); rewrite HP in B; [discriminate|]. injection B as <-.
        rewrite EM in HF. destruct W as (HG & _). destruct (find_spec f d Hd (cache m) v HG (HV v Hw)) as [(n & E & _)|(E & HN)]; [congruence|].
        specialize (HK v Hw). apply in_map_iff in HK. destruct HK as (n & Kn & Hn). exact (HN n Hn Kn).
      + exfalso. destruct (T i) as (_ & [B|(w & B & Hw)]); rewrite HP in B; discriminate.
      + exfalso. destruct (T i) as (_ & [B|(w & B & Hw)]); rewrite HP in B; discriminate. }
  destruct I as (EM & T). split; trivial. intros (i & j & v & w & _ & _ & B).
  destruct (T j) as (_ & [C|(u & C & _)]); rewrite B in C; discriminate.
Qed.
Print Assumptions C71_warm_cache_partial.
Example C71_example : exists m, gets (fun v => v) empty_memo [reals [1; 2]; reals [0; 1]; reals [1; 2]] = Ok m /\
  NoDup (calls m) /\ (forall v, In v (calls m) <-> In v [reals [1; 2]; reals [0; 1]; reals [1; 2]]).
Proof.
  apply (C71_one_call_per_coordinate _ _ 2); [lia|]. intros v [<-|[<-|[<-|[]]]]; eexists; split; reflexivity.
Qed.

(** From an empty cache two threads can read and change the tree at the same time: the search is outside the critical section. *)
Theorem C71_search_unprotected_refuted : forall V (f : coords -> V) v w,
  exists s, reaches f (initial (fun i => if Nat.eqb i 0 then [v] else [w]) empty_memo) s /\ data_race s.
Proof.
  intros V f v w.
  set (s0 := initial (V := V) (fun i => if Nat.eqb i 0 then [v] else [w]) empty_memo).
  set (s1 := Shared (set_thread s0 0 (Thread [] (Searching v) [])) false empty_memo).
  set (s2 := Shared (set_thread s1 0 (Thread [] (Missed v) [])) false empty_memo).
  set (s3 := Shared (set_thread s2 0 (Thread [] (Inserting v) [])) true empty_memo).
  set (s4 := Shared (set_thread s3 1 (Thread [] (Searching w) [])) true empty_memo).
  exists s4. split.
  - eapply reaches_step; [eapply reaches_step; [eapply reaches_step; [eapply reaches_step; [apply reaches_refl|]|]|]|].
    + exact (step_start f s0 0 v [] eq_refl eq_refl).
    + exact (step_miss f s1 0 v eq_refl eq_refl).
    + exact (step_enter f s2 0 v eq_refl eq_refl).
    + exact (step_start f s3 1 w [] eq_refl eq_refl).
  - exists 1%nat, 0%nat, w, v. split; [discriminate|]. split; reflexivity.
Qed.
Print Assumptions C71_search_unprotected_refuted.
(** A coordinate that is not a number gets the value of another coordinate. *)
Theorem C71_nan_refuted : forall V (f : coords -> V) x,
  exists m, history f empty_memo [Get [Some x]; Get [None]] = Ok (m, [f [Some x]; f [Some x]]).
Proof. intros V f x. eexists. reflexivity. Qed.
Print Assumptions C71_nan_refuted.
(** Four coordinates: the first request works, the second one terminates the program. *)
Theorem C71_four_coordinates_refuted : forall V (f : coords -> V) v w, length v = 4%nat -> length w = 4%nat ->
  history f empty_memo [Get v; Get w] = Throw.
Proof.
  intros V f v w Hv Hw. destruct v as [|v0 [|v1 [|v2 [|v3 [|]]]]]; try discriminate.
  destruct w as [|w0 [|w1 [|w2 [|w3 [|]]]]]; try discriminate. reflexivity.
Qed.
Print Assumptions C71_four_coordinates_refuted.
