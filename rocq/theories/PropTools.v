(** * C100: moving average; C101: density of water; C102: timer; C103: solvers by name *)
From Coq Require Import String Ascii List Arith ZArith Reals Lra Lia Sorting.Permutation Sorting.Sorted.
From Verif Require Import Outcome RSum AdaptiveModel AdaptiveProofs TableModel TableSpec PropTable ToolsModel ToolsSpec.
Import ListNotations.
Local Open Scope R_scope.

(** ** C100 *)
Lemma average_run xs : forall a, let b := fold_left average_add xs a in
  mNum b = (mNum a + length xs)%nat /\ INR (mNum b) * mCurrentAverage b = INR (mNum a) * mCurrentAverage a + rlsum (map IZR xs).
Proof.
  induction xs as [|x xs IH]; intros a; cbn [fold_left length map].
  - split; [lia|]. change (rlsum []) with 0. ring.
  - destruct (IH (average_add a x)) as (N & E). cbn zeta in *. split; [rewrite N; cbn; lia|].
    rewrite E. unfold average_add. cbn [mCurrentAverage mNum]. rewrite plus_INR. change (INR 1) with 1.
    change (rlsum (IZR x :: map IZR xs)) with (IZR x + rlsum (map IZR xs)).
    pose proof (pos_INR (mNum a)). field. lra.
Qed.

(** after any sequence of calls the average is the mean of all values, and lies between all bounds of them *)
Theorem C100_average : forall xs, let a := fold_left average_add xs average_new in
  mNum a = length xs /\ (xs = [] -> mCurrentAverage a = 0) /\ (xs <> [] -> mCurrentAverage a = mean xs) /\
  forall lo hi : Z, xs <> [] -> (forall x, In x xs -> (lo <= x <= hi)%Z) -> IZR lo <= mCurrentAverage a <= IZR hi.
Proof.
  intros xs a. destruct (average_run xs average_new) as (N & E). fold a in N, E. cbn [average_new mNum mCurrentAverage] in N, E.
  cbn [INR plus] in *. rewrite N in *. rewrite Rmult_0_l, Rplus_0_l in E.
  assert (M : xs <> [] -> mCurrentAverage a = mean xs).
  { intros H. unfold mean. rewrite <- E. field. apply not_0_INR. destruct xs; [congruence|cbn; lia]. }
  split; [reflexivity|]. split; [intros ->; reflexivity|]. split; [exact M|].
  intros lo hi H B. rewrite (M H). unfold mean.
  assert (P : 0 < INR (length xs)) by (apply lt_0_INR; destruct xs; [congruence|cbn; lia]).
  assert (S : INR (length xs) * IZR lo <= rlsum (map IZR xs) <= INR (length xs) * IZR hi).
  { clear - B. induction xs as [|x xs IH]; [cbn; lra|].
    change (length (x :: xs)) with (S (length xs)). rewrite S_INR. cbn [map]. change (rlsum (IZR x :: map IZR xs)) with (IZR x + rlsum (map IZR xs)).
    destruct (B x (or_introl eq_refl)) as (L & U). apply IZR_le in L, U. specialize (IH (fun y Hy => B y (or_intror Hy))). lra. }
  split; apply (Rmult_le_reg_l (INR (length xs))); try exact P; unfold Rdiv; rewrite (Rmult_comm (rlsum _)), <- Rmult_assoc, Rinv_r, Rmult_1_l by lra; lra.
Qed.
Print Assumptions C100_average.
Example average_of_three : mCurrentAverage (fold_left average_add [3; 4; 8]%Z average_new) = 5.
Proof. cbn. lra. Qed.

(** ** C101 *)
Lemma neighbours_adjacent data p q : StronglySorted (fun a b => fst a < fst b) data -> neighbours data p q -> In (p, q) (combine data (tl data)).
Proof.
  intros S. induction S as [|a l S IH F]; intros (Hp & Hq & L & B); [destruct Hp|]. rewrite Forall_forall in F.
  destruct l as [|b l].
  - destruct Hp as [<-|[]], Hq as [<-|[]]. lra.
  - cbn [tl combine]. destruct Hp as [<-|Hp].
    + left. f_equal. destruct Hq as [<-|Hq]; [lra|]. destruct (B b) as [C|C]; [right; left; reflexivity|specialize (F b (or_introl eq_refl)); lra|].
      destruct Hq as [<-|Hq]; [reflexivity|]. inversion S as [|? ? _ F']; subst. rewrite Forall_forall in F'. specialize (F' q Hq). lra.
    + right. apply IH. split; [exact Hp|]. split; [destruct Hq as [<-|Hq]; [specialize (F p Hp); lra|exact Hq]|]. split; [exact L|].
      intros r Hr. apply B. right. exact Hr.
Qed.
Lemma adjacent_neighbours data p q : StronglySorted (fun a b => fst a < fst b) data -> In (p, q) (combine data (tl data)) -> neighbours data p q.
Proof.
  intros S. induction S as [|a l S IH F]; intros H; [destruct H|]. rewrite Forall_forall in F.
  destruct l as [|b l]; [destruct H|]. cbn [tl combine] in H. destruct H as [H|H].
  - injection H as <- <-. split; [left; reflexivity|]. split; [right; left; reflexivity|]. split; [apply F; left; reflexivity|].
    intros r [<-|[<-|Hr]]; [left; lra|right; lra|right]. inversion S as [|? ? _ F']; subst. rewrite Forall_forall in F'. specialize (F' r Hr). lra.
  - destruct (IH H) as (Hp & Hq & L & B). split; [right; exact Hp|]. split; [right; exact Hq|]. split; [exact L|].
    intros r [<-|Hr]; [left|apply B; exact Hr]. specialize (F p Hp). lra.
Qed.
Lemma water_sorted : StronglySorted (fun a b => fst a < fst b) water_table.
Proof. unfold water_table. repeat (apply SSorted_cons; [|repeat (apply Forall_cons; [cbn [fst]; lra|]); apply Forall_nil]). apply SSorted_nil. Qed.
Lemma sorted_distinct data : StronglySorted (fun a b : R * R => fst a < fst b) data -> distinct_abscissae data.
Proof.
  intros S. unfold distinct_abscissae. induction S as [|a l S IH F]; cbn [map]; constructor; [|exact IH].
  intros H. apply in_map_iff in H. destruct H as (b & E & Hb). rewrite Forall_forall in F. specialize (F b Hb). lra.
Qed.

Definition rho (T : R) : R :=
  if rleb T 253.15 then 983.854 + 0.9693 * (T - 243.15) else
  if rleb T 263.15 then 993.547 + 0.457 * (T - 253.15) else
  if rleb T 273.15 then 998.117 + 0.17225 * (T - 263.15) else
  if rleb T 277.15 then 999.8395 + 0.033125 * (T - 273.15) else
  if rleb T 283.15 then 999.972 - 0.0449 * (T - 277.15) else
  if rleb T 288.15 then 999.7026 - 0.12 * (T - 283.15) else
  if rleb T 293.15 then 999.1026 - 0.1791 * (T - 288.15) else
  if rleb T 295.15 then 998.2071 - 0.2168 * (T - 293.15) else
  if rleb T 298.15 then 997.7735 - 0.7256 / 3 * (T - 295.15) else
  if rleb T 303.15 then 997.0479 - 0.27954 * (T - 298.15) else
  if rleb T 313.15 then 995.6502 - 0.34502 * (T - 303.15) else
  if rleb T 333.15 then 992.2 - 0.45 * (T - 313.15) else
  if rleb T 353.15 then 983.2 - 0.57 * (T - 333.15) else 971.8 - 0.67 * (T - 353.15).

Ltac by_piece T := unfold rho; repeat (match goal with |- context [rleb T ?c] => destruct (rleb_spec T c) as [(-> & ?)|(-> & ?)] end).
Lemma seg_eq p q T v slope : fst p < fst q -> slope * (fst q - fst p) = snd q - snd p -> v = snd p + slope * (T - fst p) -> on_segment p q T = v.
Proof. intros H S ->. unfold on_segment. rewrite <- S. field. lra. Qed.
Ltac seg V tac sl := eapply V; [tac; left; reflexivity|cbn [fst]; lra|apply (seg_eq _ _ _ _ sl); cbn [fst snd]; lra].
Lemma density_rho sort T : is_sort sort -> 243.15 <= T <= 373.15 -> DensityLiquidWater sort T = Ok (rho T).
Proof.
  intros Hs HT. destruct (C32_linear sort water_table T Hs (sorted_distinct _ water_sorted) ltac:(cbn; lia)) as (t & Et & Hv & _).
  unfold DensityLiquidWater. rewrite Et. cbn [obind].
  assert (V : forall p q, In (p, q) (combine water_table (tl water_table)) -> fst p <= T <= fst q ->
     on_segment p q T = rho T -> linear_value t T = Ok (rho T)).
  { intros p q Hpq HTpq <-. apply Hv; [|exact HTpq]. apply adjacent_neighbours; [exact water_sorted|exact Hpq]. }
  unfold water_table in V. cbn [combine tl] in V. revert V. by_piece T; intros V.
  - seg V ltac:(idtac) 0.9693.
  - seg V ltac:(do 1 right) 0.457.
  - seg V ltac:(do 2 right) 0.17225.
  - seg V ltac:(do 3 right) 0.033125.
  - seg V ltac:(do 4 right) (-0.0449).
  - seg V ltac:(do 5 right) (-0.12).
  - seg V ltac:(do 6 right) (-0.1791).
  - seg V ltac:(do 7 right) (-0.2168).
  - seg V ltac:(do 8 right) (- (0.7256 / 3)).
  - seg V ltac:(do 9 right) (-0.27954).
  - seg V ltac:(do 10 right) (-0.34502).
  - seg V ltac:(do 11 right) (-0.45).
  - seg V ltac:(do 12 right) (-0.57).
  - seg V ltac:(do 13 right) (-0.67).
Qed.

(** within the table the density is given, grows strictly up to 277.15 K (4 degrees Celsius), falls strictly beyond, and lies
    between the extreme values of the table; outside an exception is thrown *)
Theorem C101_density : forall sort, is_sort sort ->
  (forall T, T < 243.15 \/ 373.15 < T -> DensityLiquidWater sort T = Throw) /\
  (forall p, In p water_table -> DensityLiquidWater sort (fst p) = Ok (snd p)) /\
  exists density : R -> R,
    (forall T, 243.15 <= T <= 373.15 -> DensityLiquidWater sort T = Ok (density T) /\ 958.4 <= density T <= 999.972) /\
    (forall S T, 243.15 <= S -> S < T -> T <= 277.15 -> density S < density T) /\
    (forall S T, 277.15 <= S -> S < T -> T <= 373.15 -> density T < density S).
Proof.
  intros sort Hs. split; [|split].
  - intros T HT. destruct (C32_linear sort water_table T Hs (sorted_distinct _ water_sorted) ltac:(cbn; lia)) as (t & Et & _ & _ & _ & _ & Ho).
    unfold DensityLiquidWater. rewrite Et. cbn [obind]. apply Ho. intros ((p & Hp & L) & (q & Hq & U)).
    assert (B : forall r, In r water_table -> 243.15 <= fst r <= 373.15).
    { unfold water_table. intros r Hr. cbn [In] in Hr. repeat (destruct Hr as [<-|Hr]; [cbn [fst]; lra|]). destruct Hr. }
    pose proof (B p Hp). pose proof (B q Hq). lra.
  - intros p Hp. destruct (C32_linear sort water_table (fst p) Hs (sorted_distinct _ water_sorted) ltac:(cbn; lia)) as (t & Et & _ & _ & Hv & _).
    unfold DensityLiquidWater. rewrite Et. cbn [obind]. apply Hv. exact Hp.
  - exists rho. split; [|split].
    + intros T HT. split; [apply density_rho; assumption|]. by_piece T; lra.
    + intros S T HS HST HT. by_piece S; by_piece T; lra.
    + intros S T HS HST HT. by_piece S; by_piece T; lra.
Qed.
Print Assumptions C101_density.

(** ** C102 *)
Lemma length_app_string s t : String.length (s ++ t) = (String.length s + String.length t)%nat.
Proof. induction s as [|c s IH]; cbn [append String.length]; [reflexivity|rewrite IH; reflexivity]. Qed.
Lemma length_dots n : String.length (dots n) = n.
Proof. induction n as [|n IH]; cbn [dots String.length]; [reflexivity|rewrite IH; reflexivity]. Qed.

Lemma reset_line timing t w c : mShowTime t = true ->
  exists s, written (timer_Reset timing t w c) = written t ++ [s] /\
    shows timing {| r_msg := mMsg t; r_wall := w - mWallTimeInit t; r_cpu := c - mCPUTimeInit t |} s.
Proof.
  intros H. unfold timer_Reset. rewrite H. cbn [written]. eexists. split; [reflexivity|].
  eexists. split; [reflexivity|]. cbn [r_msg r_wall r_cpu]. rewrite !length_app_string, length_dots.
  unfold newline. cbn [String.length]. lia.
Qed.
Lemma timer_run timing w1 c1 ops : forall t, mShowTime t = true ->
  exists lines, written (timer_Reset timing (fold_left (timer_step timing) ops t) w1 c1) = written t ++ lines /\
    Forall2 (shows timing) (expected (mMsg t) (mWallTimeInit t) (mCPUTimeInit t) ops w1 c1) lines.
Proof.
  induction ops as [|o ops IH]; intros t Ht; cbn [fold_left expected].
  - destruct (reset_line timing t w1 c1 Ht) as (s & E & Hs). exists [s]. split; [exact E|]. constructor; [exact Hs|constructor].
  - destruct o as [w c|w c msg]; cbn [timer_step].
    + destruct (reset_line timing t w c Ht) as (s & E & Hs). destruct (IH (timer_Reset timing t w c) Ht) as (lines & El & Hl).
      exists (s :: lines). split; [rewrite El, E, <- app_assoc; reflexivity|]. constructor; [exact Hs|exact Hl].
    + destruct (reset_line timing t w c Ht) as (s & E & Hs). destruct (IH (timer_ResetMsg timing t w c msg) Ht) as (lines & El & Hl).
      exists (s :: lines). split; [rewrite El; cbn [timer_ResetMsg written]; rewrite E, <- app_assoc; reflexivity|]. constructor; [exact Hs|exact Hl].
Qed.
Lemma timer_silent timing w1 c1 ops : forall t, mShowTime t = false ->
  written (timer_Reset timing (fold_left (timer_step timing) ops t) w1 c1) = written t.
Proof.
  induction ops as [|o ops IH]; intros t Ht; cbn [fold_left].
  - unfold timer_Reset. rewrite Ht. cbn [written]. apply app_nil_r.
  - rewrite IH.
    + destruct o; cbn [timer_step timer_ResetMsg]; unfold timer_ResetMsg, timer_Reset; rewrite Ht; cbn [written]; apply app_nil_r.
    + destruct o; exact Ht.
Qed.

(** one line per reset and one at the end, each with the message and the time since the line before; the times add up to
    the life time; a timer that does not show the time writes nothing *)
Theorem C102_lines : forall timing msg wall0 cpu0 ops wall1 cpu1,
  let reports := expected msg wall0 cpu0 ops wall1 cpu1 in
  Forall2 (shows timing) reports (timer_life timing msg true wall0 cpu0 ops wall1 cpu1) /\
  timer_life timing msg false wall0 cpu0 ops wall1 cpu1 = [] /\
  length reports = S (length ops) /\
  rlsum (map r_wall reports) = wall1 - wall0 /\ rlsum (map r_cpu reports) = cpu1 - cpu0.
Proof.
  intros timing msg wall0 cpu0 ops wall1 cpu1 reports. unfold timer_life. split; [|split; [|split; [|split]]].
  - destruct (timer_run timing wall1 cpu1 ops (timer_new msg true wall0 cpu0) eq_refl) as (lines & E & H). rewrite E. exact H.
  - apply (timer_silent timing wall1 cpu1 ops (timer_new msg false wall0 cpu0) eq_refl).
  - unfold reports. clear. revert msg wall0 cpu0. induction ops as [|[w c|w c m] ops IH]; intros; cbn [expected length]; [reflexivity| |]; rewrite IH; reflexivity.
  - unfold reports. clear. revert msg wall0 cpu0. induction ops as [|[w c|w c m] ops IH]; intros; cbn [expected map r_wall]; unfold rlsum in *; cbn [fold_right]; [lra| |]; rewrite IH; lra.
  - unfold reports. clear. revert msg wall0 cpu0. induction ops as [|[w c|w c m] ops IH]; intros; cbn [expected map r_cpu]; unfold rlsum in *; cbn [fold_right]; [lra| |]; rewrite IH; lra.
Qed.
Print Assumptions C102_lines.

(** finding: the wall clock is std::chrono::system_clock, which may be set back; the timer then reports a negative time
    although the CPU time has grown *)
Theorem C102_monotone_refuted : ~ (forall msg wall0 cpu0 wall1 cpu1, cpu0 <= cpu1 ->
  forall r, In r (expected msg wall0 cpu0 [] wall1 cpu1) -> 0 <= r_wall r).
Proof. intros H. specialize (H ""%string 1 0 0 1 ltac:(lra) _ (or_introl eq_refl)). cbn in H. lra. Qed.

(** a timer with one new message; the first line is filled with 79 dots, the second is too long for dots *)
Example two_lines : let timing := fun _ _ : R => "W:1.00s"%string in
  map String.length (timer_life timing "ab" true 0 0 [ResetMsg 1 1 (dots 100)] 3 2) = [91; 110]%nat.
Proof. reflexivity. Qed.

(** ** C103 *)
(** each documented name selects its own solver class, whatever the solvers do *)
Theorem C103_dispatch : forall Matrix Vector Factor factorize solve haveSuiteSparse haveMumps name s lib,
  In (name, s, lib) documented -> available haveSuiteSparse haveMumps lib = true ->
  forall A b, EigenSparseSolver_Solve Matrix Vector Factor factorize solve haveSuiteSparse haveMumps name A b = inl (solve s (factorize s A) b).
Proof.
  intros M V F factorize solve hs hm name s lib H Ha A b. unfold EigenSparseSolver_Solve, EigenSparseSolve, SolveWithSolver.
  unfold documented in H. cbn [In] in H.
  repeat (destruct H as [H|H]; [injection H as <- <- <-; cbn in Ha; destruct hs, hm; first [discriminate|reflexivity]|]). destruct H.
Qed.
Print Assumptions C103_dispatch.

(** any other name is rejected; a solver of a missing library is rejected with a message that names the library, except MumpsLDLT *)
Theorem C103_rejected_partial : forall Matrix Vector Factor factorize solve haveSuiteSparse haveMumps name,
  let run := EigenSparseSolve Matrix Vector Factor factorize solve haveSuiteSparse haveMumps in
  ((forall s lib, ~ In (name, s, lib) documented) -> forall A b, exists e, run A b name = inr e /\ e <> NoSuiteSparse /\ (name <> "MUMPSLDLT"%string -> e = UnknownSolver)) /\
  (forall s, In (name, s, NeedsSuiteSparse) documented -> haveSuiteSparse = false -> forall A b, run A b name = inr NoSuiteSparse) /\
  (haveMumps = false -> name = "MumpsLU"%string -> forall A b, run A b name = inr NoMumps).
Proof.
  intros M V F factorize solve hs hm name run. split; [|split].
  - intros H A b. unfold run, EigenSparseSolve, choose_solver.
    assert (N : forall n s lib, In (n, s, lib) documented -> String.eqb name n = false).
    { intros n s lib Hn. apply String.eqb_neq. intros ->. apply (H s lib Hn). }
    unfold documented in N.
    repeat match goal with |- context [String.eqb name ?c] =>
      rewrite (N c _ _ ltac:(first [left; reflexivity|right; left; reflexivity|do 2 right; left; reflexivity|do 3 right; left; reflexivity|do 4 right; left; reflexivity
         |do 5 right; left; reflexivity|do 6 right; left; reflexivity|do 7 right; left; reflexivity|do 8 right; left; reflexivity|do 9 right; left; reflexivity|do 10 right; left; reflexivity])) end.
    rewrite !Bool.andb_false_r. cbn [orb]. destruct (String.eqb_spec name "MUMPSLDLT") as [E|E].
    + destruct hm; cbn [andb negb]; eexists; (split; [reflexivity|]); (split; [discriminate|]); congruence.
    + rewrite Bool.andb_false_r. eexists. split; [reflexivity|]. split; [discriminate|reflexivity].
  - intros s H -> A b. unfold documented in H. cbn [In] in H. unfold run.
    repeat (destruct H as [H|H]; [first [discriminate H|injection H; intros; subst; reflexivity]|]). destruct H.
  - intros E1 E2 A b. unfold run. rewrite E2. unfold EigenSparseSolve, choose_solver. rewrite E1. destruct hs; reflexivity.
Qed.
Print Assumptions C103_rejected_partial.

(** finding: without MUMPS the documented name MumpsLDLT is compared against "MUMPSLDLT": the user is told that the solver is unknown
    instead of which library is missing; the misspelt name on the other hand is recognised *)
Theorem C103_mumps_message_refuted : forall Matrix Vector Factor factorize solve haveSuiteSparse A b,
  let run := EigenSparseSolve Matrix Vector Factor factorize solve haveSuiteSparse false A b in
  In ("MumpsLDLT"%string, MUMPSLDLT, NeedsMumps) documented /\ run "MumpsLDLT"%string = inr UnknownSolver /\ run "MUMPSLDLT"%string = inr NoMumps.
Proof. intros. split; [do 10 right; left; reflexivity|]. unfold run, EigenSparseSolve, choose_solver. destruct haveSuiteSparse; split; reflexivity. Qed.

(** if the selected solver reports success, its solution is returned *)
Theorem C103_solution : forall Matrix Vector Factor factorize solve (info : Backend -> Factor -> bool) (solves : Matrix -> Vector -> Vector -> Prop) haveSuiteSparse haveMumps,
  (forall s A b, info s (factorize s A) = true -> exists x, solve s (factorize s A) b = Ok x /\ solves A x b) ->
  forall name s lib A b, In (name, s, lib) documented -> available haveSuiteSparse haveMumps lib = true -> info s (factorize s A) = true ->
  exists x, EigenSparseSolve Matrix Vector Factor factorize solve haveSuiteSparse haveMumps A b name = inl (Ok x) /\ solves A x b.
Proof.
  intros M V F factorize solve info solves hs hm C name s lib A b H Ha Hi. destruct (C s A b Hi) as (x & E & S). exists x. split; [|exact S].
  etransitivity; [apply (C103_dispatch M V F factorize solve hs hm name s lib H Ha A b)|]. rewrite E. reflexivity.
Qed.
Print Assumptions C103_solution.

(** finding: a failure the solver reports is not looked at.  A solver that keeps its contract (success means a solution) and reports
    failure for the singular matrix 0 makes the library return a vector that is no solution, without an exception *)
Theorem C103_failure_refuted : exists (factorize : Backend -> R -> R) (solve : Backend -> R -> R -> outcome R) (info : Backend -> R -> bool),
  (forall s A b, info s (factorize s A) = true -> exists x, solve s (factorize s A) b = Ok x /\ A * x = b) /\
  forall name s lib, In (name, s, lib) documented -> available true true lib = true ->
  info s (factorize s 0) = false /\ exists x, EigenSparseSolve R R R factorize solve true true 0 1 name = inl (Ok x) /\ 0 * x <> 1.
Proof.
  exists (fun _ A => A), (fun _ A b => Ok (b / A)), (fun _ A => if Req_EM_T A 0 then false else true). split.
  - intros s A b H. destruct (Req_EM_T A 0) as [E|E]; [discriminate|]. eexists. split; [reflexivity|]. field. exact E.
  - intros name s lib H Ha. destruct (Req_EM_T 0 0) as [_|N]; [|congruence]. split; [reflexivity|]. eexists. split; [|rewrite Rmult_0_l; lra].
    apply (C103_dispatch R R R (fun _ A => A) (fun _ A b => Ok (b / A)) true true name s lib H Ha 0 1).
Qed.
Print Assumptions C103_failure_refuted.
