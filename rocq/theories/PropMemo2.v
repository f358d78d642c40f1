(** * C71: memoizing a function that throws for some coordinates *)
From Coq Require Import Reals List Bool Arith Lia.
From Verif Require Import Outcome AdaptiveModel MemoModel MemoModel2 PropMemo.
Import ListNotations.
Local Open Scope R_scope.

(** what a direct call answers: a value or an exception *)
Definition direct {V} (g : coords -> outcome V) (v : coords) : option V := match g v with Ok y => Some y | _ => None end.

Section Proofs.
Context {V : Type} (g : coords -> outcome V) (d : nat) (dflt : V).
Hypothesis Hd : (1 <= d <= 3)%nat.
Definition total (v : coords) : V := match g v with Ok y => y | _ => dflt end.
(** only coordinates for which the function has a value are in the cache *)
Definition stored (m : @memo V) : Prop := forall n, In n (cache m) -> exists y, g (key n) = Ok y.

Lemma get_ok m v : wf total d m -> stored m -> real_coords d v -> (exists y, g v = Ok y) ->
  exists m' a, (forall b, get_may_throw g b m v = Ok (m', a)) /\ deref m' a = Ok (total v) /\ wf total d m' /\ stored m'.
Proof.
  intros W S Hv (y & Hy). destruct (get_spec total d Hd m v W Hv) as (m' & n & E & W' & In' & K & _ & HK & C).
  assert (Ty : total v = y) by (unfold total; rewrite Hy; reflexivity).
  exists m', (addr n). split; [|split; [|split]].
  - intros b. unfold get_may_throw, get in *. destruct (map_find (cache m) v) as [[k|]| |]; cbn [obind] in *; try discriminate; [exact E|].
    rewrite Hy. rewrite Ty in E. exact E.
  - rewrite (deref_spec total d) by assumption. rewrite K. reflexivity.
  - exact W'.
  - intros k Hk. assert (H : In (key k) (map key (cache m'))) by (apply in_map; exact Hk). apply HK in H. destruct H as [-> |H]; [exists y; exact Hy|].
    apply in_map_iff in H. destruct H as (k' & Ek & Hk'). rewrite <- Ek. apply S. exact Hk'.
Qed.
Lemma get_throw m v b : wf total d m -> stored m -> real_coords d v -> g v = Throw -> get_may_throw g b m v = if b then UB else Throw.
Proof.
  intros W S Hv Hy. unfold get_may_throw. destruct W as (G & W'). destruct (find_spec total d Hd (cache m) v G Hv) as [(n & E & Hn & Kn)|(E & HN)].
  - exfalso. destruct (S n Hn) as (y & Hy'). congruence.
  - rewrite E. cbn [obind]. rewrite Hy. reflexivity.
Qed.
Lemma catching m vs : wf total d m -> stored m -> (forall v, In v vs -> real_coords d v /\ g v <> UB) ->
  exists m', history_catching g false m vs = Ok (m', map (direct g) vs) /\ wf total d m' /\ stored m'.
Proof.
  revert m. induction vs as [|v vs IH]; intros m W S H; [exists m; auto|]. cbn [history_catching map].
  destruct (H v (or_introl eq_refl)) as (Hv & NU). assert (H' : forall w, In w vs -> real_coords d w /\ g w <> UB) by (intros w Hw; apply H; right; exact Hw).
  destruct (g v) as [y| |] eqn:E; [| |congruence].
  - destruct (get_ok m v W S Hv (ex_intro _ y E)) as (m1 & a & G & D & W1 & S1). rewrite G, D. cbn [obind].
    destruct (IH m1 W1 S1 H') as (m2 & -> & W2 & S2). exists m2. cbn [obind fst snd]. unfold direct at 2, total. rewrite E. auto.
  - rewrite (get_throw m v false W S Hv E). destruct (IH m W S H') as (m2 & -> & W2 & S2). exists m2. cbn [obind fst snd]. unfold direct at 2. rewrite E. auto.
Qed.
Lemma first_throw m vs : wf total d m -> stored m -> (forall v, In v vs -> real_coords d v /\ g v <> UB) -> (exists v, In v vs /\ g v = Throw) ->
  history_catching g true m vs = UB.
Proof.
  revert m. induction vs as [|v vs IH]; intros m W S H (w & Hw & E); [destruct Hw|]. cbn [history_catching].
  destruct (H v (or_introl eq_refl)) as (Hv & NU). destruct (g v) as [y| |] eqn:Ev; [| |congruence].
  - destruct (get_ok m v W S Hv (ex_intro _ y Ev)) as (m1 & a & G & D & W1 & S1). rewrite G, D. cbn [obind].
    destruct Hw as [<-|Hw]; [congruence|]. rewrite (IH m1 W1 S1); [reflexivity|intros x Hx; apply H; right; exact Hx|exists w; auto].
  - rewrite (get_throw m v true W S Hv Ev). reflexivity.
Qed.
End Proofs.

(** Without OpenMP the memoizer is transparent for exceptions as well: every request answers what a direct call would answer, an
    exception each time the function throws, and exceptions disturb no later request. *)
Theorem C71_exceptions_partial : forall V (g : coords -> outcome V) (some : V) d vs, (1 <= d <= 3)%nat ->
  (forall v, In v vs -> real_coords d v /\ g v <> UB) ->
  exists m, history_catching g false empty_memo vs = Ok (m, map (direct g) vs).
Proof.
  intros V g dflt d vs Hd H. destruct (catching g d dflt Hd empty_memo vs) as (m & E & _); [apply empty_wf|intros n []|exact H|]. exists m. exact E.
Qed.
Print Assumptions C71_exceptions_partial.

(** With OpenMP the first exception ends the program instead of reaching the caller. *)
Theorem C71_exceptions_refuted : forall V (g : coords -> outcome V) (some : V) d vs, (1 <= d <= 3)%nat ->
  (forall v, In v vs -> real_coords d v /\ g v <> UB) -> (exists v, In v vs /\ g v = Throw) ->
  history_catching g true empty_memo vs = UB.
Proof. intros V g dflt d vs Hd H E. apply (first_throw g d dflt Hd); [apply empty_wf|intros n []|exact H|exact E]. Qed.
Print Assumptions C71_exceptions_refuted.

(** a function that throws for points outside of an interval; three requests, one of them outside *)
Example C71_exceptions_case : exists (g : coords -> outcome nat) vs, length vs = 3%nat /\ (forall v, In v vs -> real_coords 1 v /\ g v <> UB) /\
  map (direct g) vs = [Some 1%nat; None; Some 1%nat].
Proof.
  exists (fun v => match v with [Some x] => if Rlt_dec x 1 then Ok 1%nat else Throw | _ => Throw end), [reals [0]; reals [2]; reals [0]].
  split; [reflexivity|]. split.
  - intros v [<-|[<-|[<-|[]]]]; (split; [eexists; split; reflexivity|]); cbn [reals map]; destruct (Rlt_dec _ 1); discriminate.
  - cbn [map]. unfold direct. cbn [reals map]. destruct (Rlt_dec 0 1) as [_|N]; [|exfalso; apply N, Rlt_0_1].
    destruct (Rlt_dec 2 1) as [L|_]; [exfalso; apply (Rlt_asym _ _ L); apply (Rlt_plus_1 1)|reflexivity].
Qed.
