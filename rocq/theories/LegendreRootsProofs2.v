(** * Proofs for C107, the whole list of roots *)
From Coq Require Import List Arith Bool Reals Lra Lia.
From Coquelicot Require Import Coquelicot.
From Verif Require Import RSum Outcome LegendreModel LegendreSpec LegendreProofs PolyProofs QuadratureProofs PhaseProofs LegendreZeroProofs NewtonZoneProofs LegendreRootsModel LegendreRootsProofs LegendreRootsSpec.
Import ListNotations.
Local Open Scope R_scope.

Lemma find_root_fuel n k r : forall fuel fuel' x, (fuel <= fuel')%nat -> find_root fuel n k x = Ok (Some r) -> find_root fuel' n k x = Ok (Some r).
Proof.
  induction fuel as [|fuel IH]; intros fuel' x Hf H; [discriminate H|]. destruct fuel' as [|fuel']; [lia|]. cbn [find_root] in *.
  destruct (legendre n x k) as [v| |]; cbn [obind] in *; try discriminate H.
  destruct (legendre n x (k + 1)) as [s| |]; cbn [obind] in *; try discriminate H.
  destruct (Req_EM_T s 0); [discriminate H|]. destruct (Rlt_dec _ _); [exact H|]. apply IH; [lia|exact H].
Qed.

Lemma half_roots m : exists z r : nat -> R, forall i, (1 <= i)%nat -> (2 * i <= S m + 1)%nat ->
  P (S m) (z i) = 0 /\ 0 <= z i < 1 /\ ((2 * i <= S m)%nat -> 0 < z i) /\
  (forall fuel, (27 <= fuel)%nat -> find_root fuel (S m) 0 (cos (gangle (S m) i)) = Ok (Some (r i))) /\
  z i <= r i < 1 /\ r i - z i <= 2 / 5 * (1 / 10 ^ 15) /\ D (S m) (r i) <> 0 /\ (forall j, (1 <= j < i)%nat -> r i < z j).
Proof.
  destruct (zero_angle m) as (th & Hth). pose proof PI_RGT_0 as HPI. set (n := S m) in *. pose proof (half_pos n) as HN.
  assert (Hg0 : forall i, (1 <= i)%nat -> 0 < gangle n i).
  { intros i Hi. unfold gangle. apply Rmult_lt_0_compat; [|apply Rinv_0_lt_compat; exact HN]. apply Rmult_lt_0_compat; [|lra]. apply le_INR in Hi. simpl in Hi. lra. }
  assert (Each : forall i, (1 <= i)%nat -> (2 * i <= n + 1)%nat -> exists r,
    find_root 27 n 0 (cos (gangle n i)) = Ok (Some r) /\ cos (th i) <= r < 1 /\ r - cos (th i) <= 2 / 5 * (1 / 10 ^ 15) /\ D n r <> 0 /\
    (forall j, (1 <= j < i)%nat -> r < cos (th j))).
  { intros i Hi Hin. destruct (Hth i Hi Hin) as (Hr & HP & Hb & Hlt & Hord). pose proof (Hg0 i Hi) as Hgi.
    assert (Hdec : forall j, (1 <= j < i)%nat -> cos (th i) < cos (th j)).
    { intros j Hj. destruct (Hth j) as (Hrj & _); [lia|lia|]. pose proof (Hg0 j ltac:(lia)). apply cos_decreasing_1; try lra. apply Hord; lia. }
    destruct (le_dec (2 * i) n) as [H2|H2].
    - specialize (Hlt H2).
      destruct (guess_zone m i (th i) Hi H2 ltac:(fold n; lra) HP Hb) as (Zx & Zg & Zd & Zs & Zp). fold n in Zx, Zg, Zd, Zs, Zp.
      destruct (find_root_zone n 0 (P n) (D n) (2 / 5) (cos (th i)) (cos (gangle n i)) (legendre_0 n) (legendre_1 n) ltac:(lra) Zs 26 27 (cos (gangle n i))) as (r & Er & Hr1 & Hr2); [lia|lra| |].
      + apply Rle_lt_trans with (1 / 9); [exact Zd|]. simpl. lra.
      + exists r. split; [exact Er|]. split; [lra|]. split; [exact Hr2|]. split; [apply (Zs r); lra|].
        intros j Hj. pose proof (Hdec j Hj) as Hd. destruct (Rle_or_lt (cos (th j)) (cos (gangle n i))) as [Hle|Hgt]; [|lra].
        exfalso. apply (Zp (cos (th j))); [lra|]. apply Hth; lia.
    - assert (E2 : (2 * i = n + 1)%nat) by lia.
      assert (Eg : gangle n i = PI / 2).
      { unfold gangle. assert (Ei : 2 * INR i = INR n + 1) by (rewrite <- (mult_INR 2 i : INR (2 * i) = 2 * INR i), E2, plus_INR; reflexivity).
        replace (INR i) with ((INR n + 1) / 2) by lra. unfold half in *. field. lra. }
      assert (Et : th i = PI / 2) by lra. rewrite Et, cos_PI2 in HP. rewrite Eg, Et, cos_PI2. exists 0.
      pose proof (simple m 0 HP) as Hs. fold n in Hs.
      split; [|split; [lra|split; [|split; [exact Hs|]]]].
      + cbn [find_root]. rewrite legendre_0. cbn [obind]. change (0 + 1)%nat with 1%nat. rewrite legendre_1. cbn [obind].
        destruct (Req_EM_T (D n 0) 0) as [E|_]; [contradiction|]. rewrite HP.
        assert (EZ : 0 - 0 / D n 0 = 0) by (field; exact Hs). rewrite EZ. rewrite Rminus_0_r, Rabs_R0.
        destruct (Rlt_dec 0 (1 / 10 ^ 15)) as [_|C]; [reflexivity|]. exfalso. apply C. simpl. lra.
      + simpl. lra.
      + intros j Hj. pose proof (Hdec j Hj) as Hd. rewrite Et, cos_PI2 in Hd. exact Hd. }
  destruct (finite_choice (fun i r => (1 <= i)%nat -> (2 * i <= n + 1)%nat ->
    find_root 27 n 0 (cos (gangle n i)) = Ok (Some r) /\ cos (th i) <= r < 1 /\ r - cos (th i) <= 2 / 5 * (1 / 10 ^ 15) /\ D n r <> 0 /\
    (forall j, (1 <= j < i)%nat -> r < cos (th j))) (S n)) as (r & Hr).
  { intros i _. destruct (le_dec 1 i) as [H1|H1]; [|exists 0; intros; lia]. destruct (le_dec (2 * i) (n + 1)) as [H2|H2]; [|exists 0; intros; lia].
    destruct (Each i H1 H2) as (t & Ht). exists t. auto. }
  exists (fun i => cos (th i)), r. intros i Hi Hin. destruct (Hth i Hi Hin) as (Ht & HP & Hb & Hlt & Hord). pose proof (Hg0 i Hi) as Hgi.
  destruct (Hr i ltac:(lia) Hi Hin) as (Er & Hr1 & Hr2 & Hr3 & Hr4).
  split; [exact HP|]. split.
  { split; [apply cos_ge_0; lra|]. lra. }
  split; [intros H2; apply cos_gt_0; [lra|apply Hlt; exact H2]|]. split.
  { intros fuel Hf. apply (find_root_fuel n 0 (r i) 27 fuel); [exact Hf|exact Er]. }
  split; [exact Hr1|]. split; [exact Hr2|]. split; [exact Hr3|exact Hr4].
Qed.

Lemma gangle_opp n i : (i <= n + 1)%nat -> cos (gangle n (n + 1 - i)) = - cos (gangle n i).
Proof.
  intros Hi.
  replace (gangle n (n + 1 - i)) with (- gangle n i + PI).
  - rewrite neg_cos, cos_neg. reflexivity.
  - unfold gangle. rewrite minus_INR by exact Hi. rewrite plus_INR. change (INR 1) with 1. unfold half. field. pose proof (pos_INR n). lra.
Qed.
Lemma guess_angle n i : cos (PI * (4 * INR i - 1) / (4 * INR n + 2)) = cos (gangle n i).
Proof. f_equal. unfold gangle, half. field. pose proof (pos_INR n). lra. Qed.

(** ** sorting *)
Lemma insert_last x l : (forall y, In y l -> y < x) -> insert_number x l = l ++ [x].
Proof.
  induction l as [|y l IH]; intros H; [reflexivity|]. cbn [insert_number]. destruct (Rlt_dec y x) as [_|C]; [|exfalso; apply C; apply H; left; reflexivity].
  rewrite IH by (intros z Hz; apply H; right; exact Hz). reflexivity.
Qed.
Lemma sort_descending (r : nat -> R) : forall k s, (forall i j, (s <= i < j)%nat -> (j < s + k)%nat -> r j < r i) ->
  sort_numbers (map r (seq s k)) = map (fun i => r (s + k - 1 - i)%nat) (seq 0 k).
Proof.
  induction k as [|k IH]; intros s H; [reflexivity|]. cbn [seq map]. unfold sort_numbers. cbn [fold_right]. fold (sort_numbers (map r (seq (S s) k))).
  rewrite (IH (S s)) by (intros i j Hi Hj; apply H; lia). rewrite insert_last.
  - change (r (s + S k - 1 - 0)%nat :: map (fun i => r (s + S k - 1 - i)%nat) (seq 1 k)) with (map (fun i => r (s + S k - 1 - i)%nat) (seq 0 (S k))).
    rewrite seq_S, map_app. f_equal.
    + apply map_ext. intros i. f_equal. lia.
    + cbn [map]. f_equal. f_equal. lia.
  - intros y Hy. apply in_map_iff in Hy. destruct Hy as (i & <- & Hi). apply in_seq in Hi. apply H; lia.
Qed.

Lemma find_each_map fuel n k (g r : nat -> R) l : (forall i, In i l -> find_root fuel n k (g i) = Ok (Some (r i))) ->
  find_each fuel n k (map g l) = Ok (Some (map r l)).
Proof.
  induction l as [|i l IH]; intros H; [reflexivity|]. cbn [map find_each]. rewrite (H i) by (left; reflexivity). cbn [obind].
  rewrite IH by (intros; apply H; right; assumption). reflexivity.
Qed.

Lemma nth_map_seq0 (f : nat -> R) k i : (i < k)%nat -> nth i (map f (seq 0 k)) 0 = f i.
Proof. intros H. rewrite (nth_indep _ 0 (f 0%nat)) by (rewrite map_length, seq_length; exact H). rewrite map_nth, seq_nth by exact H. reflexivity. Qed.

(** ** from the nonnegative zeros to all of them *)
Section Whole.
Variables (n k M fuel0 : nat) (val slope : R -> R) (g : nat -> R) (sg tol : R).
Hypothesis Hval : forall x, legendre n x k = Ok (val x).
Hypothesis Hslope : forall x, legendre n x (k + 1) = Ok (slope x).
Hypothesis Hsg : sg <> 0.
Hypothesis Pval : forall x, val (- x) = sg * val x.
Hypothesis Pslope : forall x, slope (- x) = - sg * slope x.
Hypothesis Pg : forall i, (1 <= i <= M)%nat -> g (M + 1 - i)%nat = - g i.
Hypothesis Poly : polylt (S M) val.
Hypothesis One : val 1 <> 0.
Variables (z0 r0 : nat -> R).
Hypothesis Half : forall i, (1 <= i)%nat -> (2 * i <= M + 1)%nat ->
  val (z0 i) = 0 /\ 0 <= z0 i < 1 /\ ((2 * i <= M)%nat -> 0 < z0 i) /\
  find_root fuel0 n k (g i) = Ok (Some (r0 i)) /\
  z0 i <= r0 i < 1 /\ r0 i - z0 i <= tol /\ slope (r0 i) <> 0 /\ (forall j, (1 <= j < i)%nat -> r0 i < z0 j).

Lemma all_roots : exists z r : nat -> R, forall i, (1 <= i <= M)%nat ->
  val (z i) = 0 /\ -1 < z i < 1 /\
  (forall fuel, (fuel0 <= fuel)%nat -> find_root fuel n k (g i) = Ok (Some (r i))) /\
  -1 < r i < 1 /\ Rabs (r i - z i) <= tol /\ slope (r i) <> 0 /\ (forall j, (i < j <= M)%nat -> z j < z i /\ r j < r i).
Proof.
  exists (fun i => if Nat.leb (2 * i) (M + 1) then z0 i else - z0 (M + 1 - i)%nat), (fun i => if Nat.leb (2 * i) (M + 1) then r0 i else - r0 (M + 1 - i)%nat).
  intros i Hi. destruct (Nat.leb_spec (2 * i) (M + 1)) as [Hl|Hl].
  - destruct (Half i ltac:(lia) Hl) as (A & B & B2 & C & E & F & G & K). split; [exact A|]. split; [lra|].
    split; [intros fuel Hf; apply (find_root_fuel n k (r0 i) fuel0 fuel); [exact Hf|exact C]|].
    split; [lra|]. split; [rewrite Rabs_right; lra|]. split; [exact G|].
    intros j Hj. destruct (Nat.leb_spec (2 * j) (M + 1)) as [Hl'|Hl'].
    + destruct (Half j ltac:(lia) Hl') as (A' & B' & B2' & C' & E' & F' & G' & K'). pose proof (K' i ltac:(lia)). lra.
    + destruct (Half (M + 1 - j)%nat ltac:(lia) ltac:(lia)) as (A' & B' & B2' & C' & E' & F' & G' & K'). pose proof (B2' ltac:(lia)). lra.
  - destruct (Half (M + 1 - i)%nat ltac:(lia) ltac:(lia)) as (A & B & B2 & C & E & F & G & K).
    split; [rewrite Pval, A; ring|]. split; [lra|]. split; [|split; [lra|split; [|split]]].
    + intros fuel Hf. replace (g i) with (- g (M + 1 - i)%nat) by (rewrite Pg by lia; ring).
      rewrite (find_root_opp n k val slope sg Hval Hslope Hsg Pval Pslope). rewrite (find_root_fuel n k _ fuel0 fuel _ Hf C). reflexivity.
    + replace (- r0 (M + 1 - i)%nat - - z0 (M + 1 - i)%nat) with (- (r0 (M + 1 - i)%nat - z0 (M + 1 - i)%nat)) by ring. rewrite Rabs_Ropp. rewrite Rabs_right; lra.
    + rewrite Pslope. apply Rmult_integral_contrapositive_currified; [|exact G]. apply Ropp_neq_0_compat. exact Hsg.
    + intros j Hj. destruct (Nat.leb_spec (2 * j) (M + 1)) as [Hl'|Hl']; [lia|].
      destruct (Half (M + 1 - j)%nat ltac:(lia) ltac:(lia)) as (A' & B' & B2' & C' & E' & F' & G' & K'). pose proof (K (M + 1 - j)%nat ltac:(lia)). lra.
Qed.

(** a polynomial of degree M has no zeros besides M distinct ones *)
Lemma zeros_complete (z : nat -> R) : (forall i j, (i < j < M)%nat -> z i < z j) -> (forall i, (i < M)%nat -> val (z i) = 0) ->
  forall x, val x = 0 -> exists i, (i < M)%nat /\ z i = x.
Proof.
  intros Hord Hz x Hx. destruct (Classical_Prop.classic (exists i, (i < M)%nat /\ z i = x)) as [H|H]; [exact H|]. exfalso.
  apply One. apply (identity (S M) val (fun i => if Nat.eqb i M then x else z i) Poly).
  - intros i j Hi Hj E. destruct (Nat.eqb_spec i M) as [Ei|Ei]; destruct (Nat.eqb_spec j M) as [Ej|Ej]; [lia| | |].
    + exfalso. apply H. exists j. split; [lia|auto].
    + exfalso. apply H. exists i. split; [lia|auto].
    + destruct (Nat.lt_trichotomy i j) as [L|[L|L]]; [|exact L|].
      * pose proof (Hord i j ltac:(lia)). lra.
      * pose proof (Hord j i ltac:(lia)). lra.
  - intros i Hi. cbv beta. destruct (Nat.eqb_spec i M) as [Ei|Ei]; [exact Hx|]. apply Hz. lia.
Qed.

Lemma whole_list : exists computed zeros, (forall fuel, (fuel0 <= fuel)%nat -> find_roots fuel (map g (seq 1 M)) n k = Ok (Some computed)) /\
  length computed = M /\ length zeros = M /\ zeros_of val zeros /\ ascending computed /\
  forall i, (i < M)%nat -> -1 < nth i zeros 0 < 1 /\ -1 < nth i computed 0 < 1 /\ slope (nth i computed 0) <> 0 /\
    Rabs (nth i computed 0 - nth i zeros 0) <= tol.
Proof.
  destruct all_roots as (z & r & H).
  set (computed := map (fun i => r (M - i)%nat) (seq 0 M)). set (zeros := map (fun i => z (M - i)%nat) (seq 0 M)).
  assert (Lz : length zeros = M) by (unfold zeros; rewrite map_length, seq_length; reflexivity).
  assert (Lc : length computed = M) by (unfold computed; rewrite map_length, seq_length; reflexivity).
  exists computed, zeros. split; [|split; [exact Lc|split; [exact Lz|split; [|split]]]].
  - intros fuel Hf. unfold find_roots. rewrite (find_each_map fuel n k g r).
    + cbn [obind option_map]. f_equal. f_equal. rewrite (sort_descending r M 1).
      * unfold computed. apply map_ext. intros i. replace (1 + M - 1 - i)%nat with (M - i)%nat by lia. reflexivity.
      * intros i j Hi Hj. apply (H i); lia.
    + intros i Hi. apply in_seq in Hi. apply (H i); [lia|exact Hf].
  - split.
    + intros i j Hij. rewrite Lz in Hij. unfold zeros. rewrite !nth_map_seq0 by lia. apply (H (M - j)%nat); lia.
    + intros x. split.
      * intros Hin. unfold zeros in Hin. apply in_map_iff in Hin. destruct Hin as (i & <- & Hi). apply in_seq in Hi. apply H. lia.
      * intros Hx. destruct (zeros_complete (fun i => z (M - i)%nat)) with (x := x) as (i & Hi & E).
        { intros i j Hij. apply (H (M - j)%nat); lia. }
        { intros i Hi. apply H. lia. }
        { exact Hx. }
        unfold zeros. apply in_map_iff. exists i. split; [exact E|]. apply in_seq. lia.
  - intros i j Hij. rewrite Lc in Hij. unfold computed. rewrite !nth_map_seq0 by lia. apply (H (M - j)%nat); lia.
  - intros i Hi. unfold computed, zeros. rewrite !nth_map_seq0 by exact Hi. destruct (H (M - i)%nat ltac:(lia)) as (A & B & C & E & F & G & K).
    split; [exact B|]. split; [exact E|]. split; [exact G|exact F].
Qed.
End Whole.

Lemma roots_lemma n : exists computed zeros, (forall fuel, (27 <= fuel)%nat -> legendre_roots fuel n = Ok (Some computed)) /\
  length computed = n /\ length zeros = n /\ zeros_of (P n) zeros /\ ascending computed /\
  forall i, (i < n)%nat -> -1 < nth i zeros 0 < 1 /\ -1 < nth i computed 0 < 1 /\ D n (nth i computed 0) <> 0 /\
    Rabs (nth i computed 0 - nth i zeros 0) <= 2 / 5 * (1 / 10 ^ 15).
Proof.
  destruct n as [|m].
  { exists [], []. split; [intros; reflexivity|]. split; [reflexivity|]. split; [reflexivity|]. split; [split|split].
    - intros i j H. simpl in H. lia.
    - intros x. rewrite P0. split; [intros []|intros E; exfalso; lra].
    - intros i j H. simpl in H. lia.
    - intros i Hi. lia. }
  destruct (half_roots m) as (z & r & H). set (n := S m) in *.
  destruct (whole_list n 0 n 27 (P n) (D n) (fun i => cos (gangle n i)) ((-1) ^ n) (2 / 5 * (1 / 10 ^ 15))) with (z0 := z) (r0 := r) as (computed & zeros & W).
  - apply legendre_0.
  - apply legendre_1.
  - apply pow_nonzero. lra.
  - intros x. apply P_odd.
  - intros x. apply D_odd.
  - intros i Hi. apply gangle_opp. lia.
  - apply P_polylt.
  - rewrite P_at_1. lra.
  - intros i Hi Hin. destruct (H i Hi Hin) as (A & B & B2 & C & E & F & G & K). repeat (split; [first [assumption|apply C; lia]|]). exact K.
  - exists computed, zeros. destruct W as (W1 & W2). split; [|exact W2]. intros fuel Hf. rewrite <- (W1 fuel Hf). unfold legendre_roots, first_guess. f_equal.
    apply map_ext. intros i. apply guess_angle.
Qed.
