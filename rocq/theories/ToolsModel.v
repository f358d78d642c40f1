(** * Small tools: Average.h, PhysicalEquationsSI.h, Timer.cpp, EigenSparseSolve.cpp *)
From Coq Require Import String Ascii List Arith ZArith Reals.
From Verif Require Import Outcome TableModel.
Import ListNotations.
Local Open Scope R_scope.

(** ** nuto/math/Average.h:5-16; long double as R, int as Z resp. nat (no overflow) *)
Record Average := { mCurrentAverage : R; mNum : nat }.
Definition average_new : Average := {| mCurrentAverage := 0; mNum := 0 |}.
Definition average_add (a : Average) (x : Z) : Average :=
  {| mCurrentAverage := (IZR x + INR (mNum a) * mCurrentAverage a) / (INR (mNum a) + 1); mNum := mNum a + 1 |}.

(** ** nuto/physics/PhysicalEquationsSI.h:16-35 *)
Definition water_table : list point :=
  [(243.15, 983.854); (253.15, 993.547); (263.15, 998.117); (273.15, 999.8395); (277.15, 999.972); (283.15, 999.7026);
   (288.15, 999.1026); (293.15, 998.2071); (295.15, 997.7735); (298.15, 997.0479); (303.15, 995.6502); (313.15, 992.2);
   (333.15, 983.2); (353.15, 971.8); (373.15, 958.4)].
Definition DensityLiquidWater (sort : list point -> list point) (temperature : R) : outcome R :=
  obind (make_table sort water_table) (fun t => linear_value t temperature).

(** ** nuto/base/Timer.cpp

    A point in time of the wall clock (std::chrono::system_clock) and of the CPU clock is a real number; the clocks
    are inputs of each operation.  [timing] is the text of the two differences (lines 47-54; without OpenMP it ignores
    the second one).  The output, to the logger or to std::cout (lines 62-65), is the list of the written lines. *)
Record Timer := { mMsg : string; mShowTime : bool; mCPUTimeInit : R; mWallTimeInit : R; written : list string }.
Inductive timer_op := Reset (wall cpu : R) | ResetMsg (wall cpu : R) (msg : string).

(** std::string(n, '.') *)
Fixpoint dots (n : nat) : string := match n with O => EmptyString | S n' => String "."%char (dots n') end.
Definition newline : string := String (Ascii.ascii_of_nat 10) EmptyString.

Section Timer.
  Variable timing : R -> R -> string.
  (** constructors, lines 13-33 *)
  Definition timer_new (msg : string) (show : bool) (wall cpu : R) : Timer :=
    {| mMsg := msg; mShowTime := show; mCPUTimeInit := cpu; mWallTimeInit := wall; written := [] |}.
  (** Reset(), lines 40-71; mMinOutputLength = 90 (Timer.h:53).  The length of the text is size_t cast to int, the
      truncated subtraction of nat is std::max(0, ...) *)
  Definition timer_Reset (t : Timer) (wall cpu : R) : Timer :=
    let out :=
      if mShowTime t then
        let s := timing (wall - mWallTimeInit t) (cpu - mCPUTimeInit t) in
        let numAdditionalBlanks := (90 - String.length (mMsg t) - String.length s - 2)%nat in
        [("[" ++ mMsg t ++ "]" ++ dots numAdditionalBlanks ++ s ++ newline)%string]
      else [] in
    {| mMsg := mMsg t; mShowTime := mShowTime t; mCPUTimeInit := cpu; mWallTimeInit := wall; written := written t ++ out |}.
  (** Reset(msg), lines 73-77 *)
  Definition timer_ResetMsg (t : Timer) (wall cpu : R) (msg : string) : Timer :=
    let t' := timer_Reset t wall cpu in
    {| mMsg := msg; mShowTime := mShowTime t'; mCPUTimeInit := mCPUTimeInit t'; mWallTimeInit := mWallTimeInit t'; written := written t' |}.
  Definition timer_step (t : Timer) (o : timer_op) : Timer :=
    match o with Reset wall cpu => timer_Reset t wall cpu | ResetMsg wall cpu msg => timer_ResetMsg t wall cpu msg end.
  (** the life of a timer: constructor, operations, destructor (lines 35-38); the lines it has written *)
  Definition timer_life (msg : string) (show : bool) (wall0 cpu0 : R) (ops : list timer_op) (wall1 cpu1 : R) : list string :=
    written (timer_Reset (fold_left timer_step ops (timer_new msg show wall0 cpu0)) wall1 cpu1).
End Timer.

(** ** nuto/math/EigenSparseSolve.cpp

    [Backend] are the solver classes; a backend is its [compute] (analyzePattern and factorize, with the state info()
    reports) and its [solve].  [haveSuiteSparse], [haveMumps] are the preprocessor symbols. *)
Inductive Backend := SparseLU | SparseQR | SimplicialLLT | SimplicialLDLT | ConjugateGradient | LeastSquaresConjugateGradient | BiCGSTAB
  | UmfPackLU | CholmodSupernodalLLT | MUMPSLU | MUMPSLDLT.
Inductive solve_error := NoSuiteSparse | NoMumps | UnknownSolver.
Section SparseSolve.
  Variables (Matrix Vector Factor : Type).
  Variables (factorize : Backend -> Matrix -> Factor) (solve : Backend -> Factor -> Vector -> outcome Vector).
  Variables (haveSuiteSparse haveMumps : bool).
  (** SolveWithSolver, lines 21-29: solver.info() is not queried *)
  Definition SolveWithSolver (s : Backend) (A : Matrix) (b : Vector) : outcome Vector := solve s (factorize s A) b.
  (** the branches of EigenSparseSolve, lines 31-75; [inr] is the exception *)
  Definition choose_solver (solver : string) : Backend + solve_error :=
    if String.eqb solver "EigenSparseLU" then inl SparseLU else
    if String.eqb solver "EigenSparseQR" then inl SparseQR else
    if String.eqb solver "EigenSimplicialLLT" then inl SimplicialLLT else
    if String.eqb solver "EigenSimplicialLDLT" then inl SimplicialLDLT else
    if String.eqb solver "EigenConjugateGradient" then inl ConjugateGradient else
    if String.eqb solver "EigenLeastSquaresConjugateGradient" then inl LeastSquaresConjugateGradient else
    if String.eqb solver "EigenBiCGSTAB" then inl BiCGSTAB else
    if andb haveSuiteSparse (String.eqb solver "SuiteSparseLU") then inl UmfPackLU else
    if andb haveSuiteSparse (String.eqb solver "SuiteSparseSupernodalLLT") then inl CholmodSupernodalLLT else
    if andb (negb haveSuiteSparse) (orb (String.eqb solver "SuiteSparseLU") (String.eqb solver "SuiteSparseSupernodalLLT")) then inr NoSuiteSparse else
    if andb haveMumps (String.eqb solver "MumpsLU") then inl MUMPSLU else
    if andb haveMumps (String.eqb solver "MumpsLDLT") then inl MUMPSLDLT else
    if andb (negb haveMumps) (orb (String.eqb solver "MumpsLU") (String.eqb solver "MUMPSLDLT")) then inr NoMumps else
    inr UnknownSolver.
  Definition EigenSparseSolve (A : Matrix) (b : Vector) (solver : string) : outcome Vector + solve_error :=
    match choose_solver solver with inl s => inl (SolveWithSolver s A b) | inr e => inr e end.
  (** EigenSparseSolver, lines 78-86 *)
  Definition EigenSparseSolver_Solve (mSolver : string) (A : Matrix) (b : Vector) : outcome Vector + solve_error := EigenSparseSolve A b mSolver.
End SparseSolve.
