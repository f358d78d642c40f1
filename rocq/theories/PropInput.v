(** * C93: reading the input file of the concrete simulation *)
From Coq Require Import String Ascii List ZArith QArith Qpower Bool Lia.
From Verif Require Import TextModel InputModel InputSpec InputProofs.
Import ListNotations.
Local Open Scope Z_scope.

(** doubles represent the integers up to 2^53 exactly *)
Definition exact_integers (rnd : Q -> Q) : Prop := forall z, Z.abs z <= 2 ^ 53 -> rnd (inject_Z z) = inject_Z z.

(** the limits that the reader states in its messages *)
Definition admissible (relative distance fraction shrinkage : Q) : Prop :=
  (0 <= relative /\ 0 <= distance /\ 0 < fraction /\ 0 <= shrinkage /\ shrinkage < 1)%Q.

Lemma qltb_lt x y : qltb x y = true <-> (x < y)%Q.
Proof.
  unfold qltb. rewrite negb_true_iff. split.
  - intro H. apply Qnot_le_lt. intro Hc. apply Qle_bool_iff in Hc. congruence.
  - intro H. destruct (Qle_bool y x) eqn:E; [|reflexivity]. apply Qle_bool_iff in E. destruct (Qlt_not_le _ _ H E).
Qed.
Lemma qltb_ge x y : qltb x y = false <-> (y <= x)%Q.
Proof.
  split.
  - intro H. apply Qnot_lt_le. intro Hc. apply qltb_lt in Hc. congruence.
  - intro H. destruct (qltb x y) eqn:E; [|reflexivity]. apply qltb_lt in E. destruct (Qlt_not_le _ _ E H).
Qed.
Lemma qle_false x y : Qle_bool x y = false <-> (y < x)%Q.
Proof.
  split.
  - intro H. apply Qnot_le_lt. intro Hc. apply Qle_bool_iff in Hc. congruence.
  - intro H. destruct (Qle_bool x y) eqn:E; [|reflexivity]. apply Qle_bool_iff in E. destruct (Qlt_not_le _ _ H E).
Qed.
Lemma check_admissible i : check_inputs i = true <->
  admissible (in_relative_growth i) (in_distance i) (in_fraction i) (in_shrinkage i).
Proof.
  unfold check_inputs, admissible. rewrite !andb_true_iff, !negb_true_iff, orb_false_iff, !qltb_ge, !qle_false. tauto.
Qed.

(** ** A file in the documented form is read as it is written *)
Theorem C93_reads_partial : forall rnd c t fuel events threads specimen,
  file_says c t -> (length t <= fuel)%nat ->
  (rnd (c_events c) == inject_Z events)%Q -> - 2 ^ 63 <= events < 2 ^ 63 ->
  (rnd (c_threads c) == inject_Z threads)%Q -> - 2 ^ 31 <= threads < 2 ^ 31 ->
  (rnd (c_specimen c) == inject_Z specimen)%Q -> - 2 ^ 31 <= specimen < 2 ^ 31 ->
  (rnd (c_sieves c) == inject_Z (Z.of_nat (length (c_curve c))))%Q -> Z.of_nat (length (c_curve c)) < 2 ^ 31 ->
  let wellFormed := length (c_box c) = 6%nat /\ Forall (fun v => length v = 3%nat) (c_curve c)
    /\ admissible (rnd (c_relative c)) (rnd (c_distance c)) (rnd (c_fraction c)) (rnd (c_shrinkage c)) in
  (wellFormed ->
   read_file rnd fuel t = Ret (mkInput (c_directory c) events (rnd (c_time_max c)) (rnd (c_time_print c)) (rnd (c_barrier c))
     (rnd (c_velocity c)) (rnd (c_relative c)) (rnd (c_absolute c)) threads specimen (map rnd (c_box c)) (c_is2d c)
     (map (map rnd) (c_curve c)) (rnd (c_fraction c)) (rnd (c_distance c)) (rnd (c_shrinkage c))))
  /\ (~ wellFormed -> read_file rnd fuel t = Exc).
Proof.
  intros rnd c t fuel events threads specimen H Hf He He' Hth Hth' Hsp Hsp' Hsv Hsv'.
  destruct H as (t1 & t2 & t3 & t4 & t5 & t6 & t7 & t8 & t9 & t10 & t11 & t12 & t13 & t14 & t15 & t16 & t17 &
    S1 & S2 & S3 & S4 & S5 & S6 & S7 & S8 & S9 & S10 & S11 & S12 & S13 & S14 & S15 & S16 & S17).
  pose proof (says_string_length _ _ _ S1). pose proof (says_number_length _ _ _ S2). pose proof (says_number_length _ _ _ S3).
  pose proof (says_number_length _ _ _ S4). pose proof (says_number_length _ _ _ S5). pose proof (says_number_length _ _ _ S6).
  pose proof (says_number_length _ _ _ S7). pose proof (says_number_length _ _ _ S8). pose proof (says_number_length _ _ _ S9).
  pose proof (says_number_length _ _ _ S10). pose proof (says_vector_length _ _ _ S11). pose proof (says_bool_length _ _ _ S12).
  pose proof (says_number_length _ _ _ S13).
  unfold read_file. rewrite (string_says _ _ _ S1). cbn [ibind].
  rewrite (long_says rnd _ _ _ _ S2 He He'). cbn [ibind]. rewrite (says_label_number _ _ _ S3).
  rewrite (number_says rnd _ _ _ S3). cbn [ibind]. rewrite (says_label_number _ _ _ S4).
  rewrite (number_says rnd _ _ _ S4). cbn [ibind]. rewrite (says_label_number _ _ _ S5).
  rewrite (number_says rnd _ _ _ S5). cbn [ibind]. rewrite (says_label_number _ _ _ S6).
  rewrite (number_says rnd _ _ _ S6). cbn [ibind]. rewrite (says_label_number _ _ _ S7).
  rewrite (number_says rnd _ _ _ S7). cbn [ibind]. rewrite (says_label_number _ _ _ S8).
  rewrite (number_says rnd _ _ _ S8). cbn [ibind]. rewrite (says_label_number _ _ _ S9).
  rewrite (int_says rnd _ _ _ _ S9 Hth Hth'). cbn [ibind]. rewrite (says_label_number _ _ _ S10).
  rewrite (int_says rnd _ _ _ _ S10 Hsp Hsp'). cbn [ibind]. rewrite (says_label_vector _ _ _ S11).
  rewrite (vector_says rnd _ _ _ fuel S11) by lia. cbn [ibind]. rewrite map_length.
  destruct (Nat.eqb_spec (length (c_box c)) 6) as [E6|E6]; cbn [negb].
  2:{ split; [intros [W _]; congruence|reflexivity]. }
  rewrite (bool_says _ _ _ S12). cbn [ibind]. unfold read_curve.
  assert (Hn : - 2 ^ 31 <= Z.of_nat (length (c_curve c)) < 2 ^ 31) by lia.
  rewrite (int_says rnd _ _ _ _ S13 Hsv Hn). cbn [ibind].
  destruct (Z.ltb_spec (Z.of_nat (length (c_curve c))) 0) as [Hneg|_]; [lia|]. rewrite Nat2Z.id.
  assert (A13 : after t13 = open_stream t13).
  { inversion S14 as [t' E1 E2 E3|x l' t' t'' r V Vs E1 E2 E3]; subst; [apply (says_label_number _ _ _ S15)|apply (says_label_vector _ _ _ V)]. }
  rewrite A13.
  destruct (Forall_dec (fun v : list Q => length v = 3%nat) (fun v => Nat.eq_dec (length v) 3) (c_curve c)) as [F|F].
  2:{ rewrite (sieves_bad rnd _ _ _ fuel S14) by (try assumption; lia). split; [intros [_ [W _]]; contradiction|reflexivity]. }
  rewrite (sieves_say rnd _ _ _ fuel S14) by (try assumption; lia). cbn [ibind].
  rewrite (number_says rnd _ _ _ S15). cbn [ibind]. rewrite (says_label_number _ _ _ S16).
  rewrite (number_says rnd _ _ _ S16). cbn [ibind]. rewrite (says_label_number _ _ _ S17).
  rewrite (number_says rnd _ _ _ S17). cbn [ibind].
  match goal with |- context [check_inputs ?i] => set (inp := i); pose proof (check_admissible inp) as CA end.
  destruct (check_inputs inp).
  - split; [reflexivity|]. intro W. destruct W. split; [exact E6|]. split; [exact F|]. apply CA. reflexivity.
  - split; [|reflexivity]. intros [_ [_ W]]. apply CA in W. discriminate W.
Qed.
Print Assumptions C93_reads_partial.

(** ** Whatever the file contains: an input that is returned keeps the limits *)
Theorem C93_checked : forall rnd t fuel i, read_file rnd fuel t = Ret i ->
  admissible (in_relative_growth i) (in_distance i) (in_fraction i) (in_shrinkage i) /\
  length (in_box i) = 6%nat /\ Forall (fun row => length row = 3%nat) (in_curve i).
Proof.
  intros rnd t fuel i. unfold read_file.
  assert (B : forall A B (x : io A) (f : A -> io B) y, ibind x f = Ret y -> exists a, x = Ret a /\ f a = Ret y).
  { intros A B x f y. destruct x as [a| | |]; try discriminate. intro H. exists a. split; [reflexivity|exact H]. }
  intro H. repeat (apply B in H; destruct H as [[? ?] [? H]]).
  match type of H with (if negb (length ?b =? 6)%nat then _ else _) = _ => destruct (Nat.eqb_spec (length b) 6) as [E6|_]; [|discriminate H] end.
  cbn [negb] in H. repeat (apply B in H; destruct H as [[? ?] [? H]]).
  match type of H with (if check_inputs ?j then _ else _) = _ => destruct (check_inputs j) eqn:EC; [|discriminate H] end.
  injection H as <-. split; [apply check_admissible; exact EC|]. split; [exact E6|]. cbn [in_curve].
  match goal with Hc : read_curve _ _ _ = Ret (?cv, _) |- _ => rename Hc into HC end.
  unfold read_curve in HC. apply B in HC. destruct HC as [[zn s'] [_ HC]]. destruct (zn <? 0); [discriminate HC|].
  revert HC. generalize (Z.to_nat zn) as n. intro n.
  match goal with |- read_sieves _ _ _ _ = Ret (?cv, ?s) -> _ => generalize cv as cv0; generalize s as s0 end.
  revert s'. induction n as [|n IH]; intros s' s0 cv0; cbn [read_sieves].
  - intro HH. injection HH as <- _. constructor.
  - intro HH. apply B in HH. destruct HH as [[v s1] [_ HH]]. destruct (Nat.eqb_spec (length v) 3) as [E3|_]; [|discriminate HH].
    apply B in HH. destruct HH as [[r s2] [Hr HH]]. injection HH as <- _. constructor; [exact E3|]. exact (IH _ _ _ Hr).
Qed.
Print Assumptions C93_checked.

(** ** ReadVector comes to an end exactly when it finds numbers separated by commas and one more character *)
Theorem C93_vector_ends : forall rnd g t, label g ->
  ((exists fuel, read_vector rnd fuel (open_stream (g ++ "="%char :: t)) <> Loop) <-> (exists x r, vector_text x t r)).
Proof.
  intros rnd g t Hg. unfold read_vector. rewrite skip_label by exact Hg. split.
  - intros [fuel H]. destruct (loop_values rnd fuel None [] (open_stream t)) as [[[v s] E]|E]; [|rewrite E in H; destruct H; reflexivity].
    destruct (loop_inv _ _ _ _ _ _ _ E) as [x [r [HH _]]]. exists x, r. exact HH.
  - intros [x [r HH]]. exists (length x). rewrite (vector_text_loop rnd _ _ _ HH) by lia. cbn [ibind app].
    rewrite all_written_map. discriminate.
Qed.
Print Assumptions C93_vector_ends.

(** the test file of the repository, applications/integrationtests/geometryConcrete/input2D_test.dat *)
Definition test_file : text := txt "particle simulation input file

1) avoid equal signes in comments
2) avoid comments before ';' in vector definitions
 ------------------------------------------
| simulation parameters and stop criterion |
 ------------------------------------------
directory = myNutoExamples/c++/GradingCurveA/;

numEventsMax = 1.e10;              Simulation stops after [numEventsMax] events
timeMax = 600.;                    Simulation stops after [timeMax] seconds
timePrintOut = 1.;                 There is a print out every [timePrintOut] seconds
initialTimeBarrier = .1;           Adaption during simulation, not that important
randomVelocityRange = 0.1;         equal distr. range[randomVelocityRange],center[0.0]
relativeGrowthRate = 1.;           Growth rate for all particles
absoluteGrowthRate = 0.;           Growth rate for all particles
numThreads = 4;                    Number of threads for parallelization

 ------------------------------------------
|        bounding box definition           |
 ------------------------------------------
boxType = 0;                       0.. cube | 1.. dogbone | 2.. cylinder
boundingBox = -40.,40.,
              -40.,40.,           
              -40.,40.;            x-y-z- range
is2D = true;
 ------------------------------------------
|           particle definition            |
 ------------------------------------------
 
numSieves = 3;                     size of the grading curve
   sieve1 =  8., 16., 0.40;        1st row: min particle size 
   sieve2 =  4.,  8., 0.24;        2nd row: max particle size 
   sieve3 =  2.,  4., 0.15;        3rd row: volume fraction of this class
 

volumeFraction = 0.9;              overall particle volume fraction
absoluteDistance = 0.0;            minimal distance between two particles

shrinkage = 0.05;              0.0 -> no EDMD

".
Definition test_input : input :=
  mkInput (txt "myNutoExamples/c++/GradingCurveA/") 10000000000 600 1 (1#10) (1#10) 1 0 4 0
    [-40#1; 40#1; -40#1; 40#1; -40#1; 40#1] true [[8#1; 16#1; 2#5]; [4#1; 8#1; 6#25]; [2#1; 4#1; 3#20]] (9#10) 0 (1#20).
Example C93_case : read_file (fun q => q) 10 test_file = Ret test_input.
Proof. vm_compute. reflexivity. Qed.
Definition test_contents : contents :=
  mkContents (txt "myNutoExamples/c++/GradingCurveA/") 10000000000 600 1 (1#10) (1#10) 1 0 4 0
    [-40#1; 40#1; -40#1; 40#1; -40#1; 40#1] true 3 [[8#1; 16#1; 2#5]; [4#1; 8#1; 6#25]; [2#1; 4#1; 3#20]] (9#10) 0 (1#20).
Example C93_file_case : file_says test_contents test_file.
Proof.
  unfold file_says. do 17 eexists.
  split; [refine (string_complete _ _ (txt " myNutoExamples/c++/GradingCurveA/") _ _ _ _ _);
          [vm_compute; reflexivity | vm_compute; reflexivity | apply Nat.leb_le; vm_compute; reflexivity | vm_compute; reflexivity]|].
  do 9 (split; [refine (number_complete _ _ _ _ _ _); [vm_compute; reflexivity | vm_compute; reflexivity]|]).
  split; [refine (vector_complete 10 _ _ _ _ _ _); [vm_compute; reflexivity | vm_compute; reflexivity]|].
  split; [refine (bool_complete _ _ _ _ _ _ _ _); [vm_compute; reflexivity | vm_compute; reflexivity | vm_compute; reflexivity]|].
  split; [refine (number_complete _ _ _ _ _ _); [vm_compute; reflexivity | vm_compute; reflexivity]|].
  split; [do 3 (econstructor; [refine (vector_complete 10 _ _ _ _ _ _); [vm_compute; reflexivity | vm_compute; reflexivity]|]); constructor|].
  do 2 (split; [refine (number_complete _ _ _ _ _ _); [vm_compute; reflexivity | vm_compute; reflexivity]|]).
  refine (number_complete _ _ _ _ _ _); [vm_compute; reflexivity | vm_compute; reflexivity].
Qed.
Example C93_vector_case : vector_text [8#1; 2#5] (txt "  8., .40; x") (txt " x").
Proof.
  change (txt "  8., .40; x") with (txt "  " ++ literal_text (mkLiteral None [8] (Some []) None) ++ ","%char :: txt " .40; x").
  change [8#1; 2#5] with (literal_value (mkLiteral None [8] (Some []) None) :: [literal_value (mkLiteral None [] (Some [4; 0]) None)]).
  assert (D : forall d c, digit c = None -> is_digit d -> c <> digit_char d).
  { intros d c H Hd ->. rewrite (digit_digit_char d Hd) in H. discriminate H. }
  constructor.
  - repeat constructor; cbn; tauto.
  - repeat split; repeat constructor; discriminate.
  - split; [intros d Hd; apply D; [reflexivity|exact Hd]|]. split; [discriminate|]. split; discriminate.
  - change (txt " .40; x") with (txt " " ++ literal_text (mkLiteral None [] (Some [4; 0]) None) ++ ";"%char :: txt " x").
    constructor.
    + repeat constructor; cbn; tauto.
    + repeat split; repeat constructor; discriminate.
    + split; [intros d Hd; apply D; [reflexivity|exact Hd]|]. split; [discriminate|]. split; discriminate.
    + discriminate.
Qed.

(** ** The example file in the documentation of the reader (InputReader.h:19-57) is never read to its end *)
Definition documented_file : text := txt "particle simulation input file

1) avoid equal signes in comments
2) avoid comments before ';' in vector definitions
 ------------------------------------------
| simulation parameters and stop criterion |
 ------------------------------------------
directory = myNutoExamples/c++/GradingCurveA/;

numEventsMax = 1.e10;              Simulation stops after [numEventsMax] events
timeMax = 600.;                    Simulation stops after [timeMax] seconds
timePrintOut = 2.;                 There is a print out every [timePrintOut] seconds
initialTimeBarrier = .1;           Adaption during simulation, not that important
randomVelocityRange = 0.1;         equal distr. range[randomVelocityRange],center[0.0]
growthRates = 1.;                  Growth rate for all particles
numThreads = 8;                    Number of threads for parallelization

 ------------------------------------------
|        bounding box definition           |
 ------------------------------------------
boxType = 0;                       0.. cube | 1.. dogbone | 2.. cylinder
boundingBox = 0.,80.,
              0.,80.,
              0.,80.;            x-y-z- range
is2D = false;
 ------------------------------------------
|           particle definition            |
 ------------------------------------------

numSieves = 3;                     size of the grading curve
   sieve1 =  8., 16., 0.40;        1st row: min particle size
   sieve2 =  4.,  8., 0.24;        2nd row: max particle size
   sieve3 =  2.,  4., 0.15;        3rd row: volume fraction of this class


volumeFraction = 0.7;             overall particle volume fraction
absoluteDistance = 0.0;            minimal distance between two particles

shrinkage = 0.10;              0.0 -> no EDMD

".

Lemma documented_steps rnd : exists s1 s2 s3 s4 s5 s6 s7 s8 s9 s10 s11 dir,
  read_string (open_stream documented_file) = Ret (dir, s1) /\
  read_number rnd s1 = Ret (rnd (inject_Z 10000000000), s2) /\ read_number rnd s2 = Ret (rnd 600%Q, s3) /\
  read_number rnd s3 = Ret (rnd 2%Q, s4) /\ read_number rnd s4 = Ret (rnd (1#10)%Q, s5) /\
  read_number rnd s5 = Ret (rnd (1#10)%Q, s6) /\ read_number rnd s6 = Ret (rnd 1%Q, s7) /\
  read_number rnd s7 = Ret (rnd 8%Q, s8) /\ read_number rnd s8 = Ret (rnd (inject_Z 0), s9) /\
  read_number rnd s9 = Ret (rnd (inject_Z 0), s10) /\ extract_double rnd None (skip_to_next_data s10) = (Some 0%Q, s11) /\
  failbit s11 = true.
Proof. do 12 eexists. do 11 (split; [vm_compute; reflexivity|]). vm_compute. reflexivity. Qed.
Lemma failed_get old s : failbit s = true -> get_char old s = (old, mkStream (rest s) (eofbit s) true).
Proof. intro H. unfold get_char, good. rewrite H, andb_false_r. reflexivity. Qed.

Theorem C93_documented_example_refuted : forall rnd, exact_integers rnd -> forall fuel, read_file rnd fuel documented_file = Loop.
Proof.
  intros rnd HZ fuel.
  destruct (documented_steps rnd) as (s1 & s2 & s3 & s4 & s5 & s6 & s7 & s8 & s9 & s10 & s11 & dir & H1 & H2 & H3 & H4 & H5 & H6 & H7 & H8 & H9 & H10 & H11 & H12).
  unfold read_file. rewrite H1. cbn [ibind]. unfold read_long. rewrite H2. cbn [ibind].
  rewrite (to_integer_int 63 _ 10000000000); [|rewrite HZ by lia; reflexivity|lia]. cbn [ibind].
  rewrite H3. cbn [ibind]. rewrite H4. cbn [ibind]. rewrite H5. cbn [ibind]. rewrite H6. cbn [ibind]. rewrite H7. cbn [ibind].
  rewrite H8. cbn [ibind]. unfold read_int. rewrite H9. cbn [ibind].
  rewrite (to_integer_int 31 _ 0); [|rewrite HZ by lia; reflexivity|lia]. cbn [ibind]. rewrite H10. cbn [ibind].
  rewrite (to_integer_int 31 _ 0); [|rewrite HZ by lia; reflexivity|lia]. cbn [ibind].
  unfold read_vector. destruct fuel as [|fuel]; [reflexivity|]. cbn [vector_loop]. rewrite H11, failed_get by exact H12.
  change (("," =? ",")%char) with true. cbv iota. rewrite loop_failed by reflexivity. reflexivity.
Qed.
Print Assumptions C93_documented_example_refuted.
Example C93_rounding_case : exact_integers (fun q => q).
Proof. intros z _. reflexivity. Qed.

(** ** A directory is cut behind its 57th character: [mFile.get(directory, ';')] asks for 59 characters *)
Theorem C93_directory_refuted : forall g d r, label g -> (58 <= length d)%nat ->
  (forall c, In c d -> ~ white c /\ nat_of_ascii c <> 0%nat) ->
  exists s, read_string (open_stream (g ++ "="%char :: d ++ ";"%char :: newline :: r)) = Ret (firstn 57 d, s) /\ firstn 57 d <> d.
Proof.
  intros g d r Hg Hd Hc. unfold read_string. rewrite skip_label by exact Hg.
  unfold get_buffer, open_stream. cbn [good eofbit failbit negb andb rest]. change (nat_of_ascii ";" - 1)%nat with 58%nat.
  rewrite take_until_cut; [| |exact Hd].
  2:{ intro H. destruct (Hc _ H) as [W _]. apply W. cbn. tauto. }
  assert (I58 : forall c, In c (firstn 58 d) -> In c d).
  { intros c H. rewrite <- (firstn_skipn 58 d). apply in_or_app. left. exact H. }
  assert (L : length (firstn 58 d) = 58%nat) by (apply firstn_length_le; exact Hd).
  rewrite c_string_id by (intros c H; apply (Hc c (I58 c H))).
  assert (R : removelast (firstn 58 d) = firstn 57 d) by (apply removelast_firstn; lia).
  assert (F : filter (fun c => negb (is_space c)) (firstn 57 d) = firstn 57 d).
  { assert (A : forall c, In c (firstn 57 d) -> In c d).
    { intros c H. rewrite <- (firstn_skipn 57 d). apply in_or_app. left. exact H. }
    revert A. generalize (firstn 57 d) as k. induction k as [|c k IH]; intro A; [reflexivity|]. cbn [filter].
    assert (E : is_space c = false) by (apply is_space_false, Hc, A; left; reflexivity). rewrite E. cbn [negb].
    rewrite IH; [reflexivity|]. intros c' H. apply A. right. exact H. }
  destruct (firstn 58 d) as [|c0 k0] eqn:E58; [discriminate L|]. cbv iota. rewrite R, F.
  eexists. split; [reflexivity|]. intro H. apply (f_equal (@length _)) in H. rewrite firstn_length_le in H by lia. lia.
Qed.
Print Assumptions C93_directory_refuted.
Example C93_directory_case : exists d, (58 <= length d)%nat /\ (forall c, In c d -> ~ white c /\ nat_of_ascii c <> 0%nat).
Proof.
  exists (repeat "d"%char 58). split; [apply Nat.leb_le; reflexivity|]. intros c H. apply repeat_spec in H. subst c.
  split; [cbn; intros [H|[H|[H|[H|[H|[H|[]]]]]]]; discriminate H|discriminate].
Qed.

(** ** Behind a comment of more than 1000 characters the number in the file is not the number read *)
Theorem C93_comment_refuted : forall rnd (n : nat) t, exists s,
  read_number rnd (open_stream (repeat "x"%char (1001 + n) ++ "="%char :: t)) = Ret (0%Q, s) /\ read_number rnd s = Undef.
Proof.
  intros rnd n t. unfold read_number, skip_to_next_data, get_buffer, open_stream.
  cbn [good eofbit failbit negb andb rest]. change (1000 - 1)%nat with 999%nat.
  rewrite take_until_cut; [| |rewrite repeat_length; lia].
  2:{ intro H. apply repeat_spec in H. discriminate H. }
  assert (S : skipn 999 (repeat "x"%char (1001 + n)) = repeat "x"%char (2 + n)).
  { replace (1001 + n)%nat with (999 + (2 + n))%nat by lia. rewrite repeat_app.
    rewrite skipn_app, skipn_all2 by (rewrite repeat_length; lia). rewrite repeat_length, Nat.sub_diag. reflexivity. }
  rewrite S. assert (NE : empty (firstn 999 (repeat "x"%char (1001 + n))) = false) by reflexivity. rewrite NE.
  change (repeat "x"%char (2 + n)) with ("x"%char :: "x"%char :: repeat "x"%char n). cbn [app empty].
  unfold get_char. cbn [good eofbit failbit negb andb rest snd]. unfold extract_double at 1. cbn [good eofbit failbit negb andb rest].
  change (skip_space ("x"%char :: repeat "x"%char n ++ "="%char :: t)) with ("x"%char :: repeat "x"%char n ++ "="%char :: t).
  change (scan_number ("x"%char :: repeat "x"%char n ++ "="%char :: t)) with (@None (Z * Z), "x"%char :: repeat "x"%char n ++ "="%char :: t).
  eexists. split; [reflexivity|]. reflexivity.
Qed.
Print Assumptions C93_comment_refuted.

(** ** A file that ends too early is not reported: the members become values that were never written *)
Theorem C93_truncated_refuted : forall rnd fuel d t r, says_string d t r -> ~ In "="%char r -> (length r <= 998)%nat ->
  read_file rnd fuel t = Undef.
Proof.
  intros rnd fuel d t r Hs Hr Hl. unfold read_file. rewrite (string_says _ _ _ Hs). cbn [ibind]. unfold read_long, read_number.
  assert (T : forall n r, ~ In "="%char r -> (length r <= n)%nat -> take_until n "=" r = (r, [])).
  { clear. induction n as [|n IH]; intros r Hr Hl; destruct r as [|c r]; try reflexivity; [cbn in Hl; lia|]. cbn [take_until].
    assert (Hc : (c =? "=")%char = false) by (apply Ascii.eqb_neq; intro H; apply Hr; left; exact H).
    rewrite Hc, IH; [reflexivity | intro H; apply Hr; right; exact H | cbn in Hl; lia]. }
  destruct Hs as (g & body & r' & _ & _ & E & _). subst r.
  unfold skip_to_next_data, get_buffer, open_stream. cbn [good eofbit failbit negb andb rest].
  rewrite T by (try assumption; lia). reflexivity.
Qed.
Print Assumptions C93_truncated_refuted.
Example C93_truncated_case : exists r, says_string (txt "results") (txt "directory = results;" ++ [newline]) r /\ ~ In "="%char r /\ (length r <= 998)%nat.
Proof.
  exists [newline]. split; [|split; [intros [H|[]]; discriminate H|cbn; lia]].
  refine (string_complete _ _ (txt " results") [] _ _ _ _); [vm_compute; reflexivity | vm_compute; reflexivity | cbn; lia | vm_compute; reflexivity].
Qed.
