(** * Model of nuto/math/NewtonRaphson.h, nuto/math/LineSearch.h and nuto/mechanics/tools/QuasistaticSolver.cpp *)
From Coq Require Import List ZArith Reals.
From Verif Require Import Outcome AdaptiveModel.
Import ListNotations.
Local Open Scope R_scope.

(** ** NewtonRaphson.h:37-44: the problem and the solver, as functions that may throw *)
Record problem (X RV DX DR : Type) := mkProblem {
  Residual : X -> outcome RV;
  Derivative : X -> outcome DR;
  Norm : RV -> R;
  Tolerance : R;
  LinSolve : DR -> RV -> outcome DX;
  Move : X -> R -> DX -> X   (* x - alpha * dx *)
}.
Arguments Residual {X RV DX DR}. Arguments Derivative {X RV DX DR}. Arguments Norm {X RV DX DR}.
Arguments Tolerance {X RV DX DR}. Arguments LinSolve {X RV DX DR}. Arguments Move {X RV DX DR}.

Section Newton.
  Context {X RV DX DR : Type}.
  Variable P : problem X RV DX DR.

  (** loop of LineSearchImplementation, LineSearch.h:44-60: [n] steps are left *)
  Fixpoint line_search_loop (n : nat) (alpha previousNorm : R) (x0 : X) (dx : DX) (r : RV) (x : X) : outcome (bool * RV * X) :=
    match n with
    | O => Ok (false, r, x)
    | S n' =>
      let x1 := Move P x0 alpha dx in
      obind (Residual P x1) (fun r1 =>
        if rltb (Norm P r1) (Tolerance P) then Ok (true, r1, x1)
        else let alpha' := alpha * (1 / 2) in
             if rltb (Norm P r1) ((1 - alpha') * previousNorm) then Ok (false, r1, x1)
             else line_search_loop n' alpha' previousNorm x0 dx r1 x1)
    end.
  (** LineSearch.h:38-62 *)
  Definition line_search (maxSteps : nat) (r : RV) (x : X) (dx : DX) : outcome (bool * RV * X) :=
    obind (Residual P x) (fun r0 => line_search_loop maxSteps 1 (Norm P r0) x dx r x).
  (** NoLineSearch, LineSearch.h:78-90 *)
  Definition no_line_search (r : RV) (x : X) (dx : DX) : outcome (bool * RV * X) :=
    let x1 := Move P x 1 dx in
    obind (Residual P x1) (fun r1 => Ok (rltb (Norm P r1) (Tolerance P), r1, x1)).

  (** how NewtonRaphson::Solve ends.  [numIterations] is the value behind the optional
      pointer, [None]: not written *)
  Inductive newton_result :=
  | NReturn (x : X) (numIterations : option nat)
  | NNoConvergence (numIterations : nat)
  | NThrow
  | NUB.

  (** NewtonRaphson.h:75-93; the list holds the iterates after the start value *)
  Fixpoint newton_loop (search : RV -> X -> DX -> outcome (bool * RV * X)) (n iteration : nat) (r : RV) (x : X)
    : list X * newton_result :=
    match n with
    | O => ([], NNoConvergence iteration)
    | S n' =>
      match obind (Derivative P x) (fun dr => obind (LinSolve P dr r) (fun dx => search r x dx)) with
      | Throw => ([], NThrow)
      | UB => ([], NUB)
      | Ok (true, r', x') => ([x'], NReturn x' (Some (S iteration)))
      | Ok (false, r', x') => let (tr, res) := newton_loop search n' (S iteration) r' x' in (x' :: tr, res)
      end
    end.
  (** NewtonRaphson.h:62-94 *)
  Definition newton (search : RV -> X -> DX -> outcome (bool * RV * X)) (maxIterations : Z) (x0 : X) : list X * newton_result :=
    match Residual P x0 with
    | Throw => ([], NThrow)
    | UB => ([], NUB)
    | Ok r => if rltb (Norm P r) (Tolerance P) then ([x0], NReturn x0 None)
              else let (tr, res) := newton_loop search (Z.to_nat maxIterations) 0 r x0 in (x0 :: tr, res)
    end.
End Newton.
Arguments newton_result : clear implicits.

(** ** QuasistaticSolver *)

(** TimeDependentProblem: the sums of the gradient and Hessian functions, evaluated after the dof values
    have been merged to the nodes (so node values before the call do not matter); they read the
    history, only the update functions write it.  [Update] returns the new history and whether it
    threw on the way.  [TrialSolve] is ConstrainedSystemSolver::SolveTrialState (see SolveModel.v) *)
Record quasi_problem (X RV DX DR H : Type) := mkQuasi {
  Gradient : H -> X -> R -> R -> outcome RV;
  Hessian0 : H -> X -> R -> R -> outcome DR;
  Update : H -> X -> R -> R -> H * bool;
  QNorm : RV -> R;
  XNorm : X -> R;
  QTolerance : R;
  QSolve : DR -> RV -> outcome DX;
  TrialSolve : DR -> RV -> R -> R -> outcome DX;
  QMove : X -> R -> DX -> X
}.
Arguments Gradient {X RV DX DR H}. Arguments Hessian0 {X RV DX DR H}. Arguments Update {X RV DX DR H}.
Arguments QNorm {X RV DX DR H}. Arguments XNorm {X RV DX DR H}. Arguments QTolerance {X RV DX DR H}.
Arguments QSolve {X RV DX DR H}. Arguments TrialSolve {X RV DX DR H}. Arguments QMove {X RV DX DR H}.

Record quasi_state (X H : Type) := mkQState { mX : X; mGlobalTime : R; mTimeStep : R; mHistory : H }.
Arguments mkQState {X H}. Arguments mX {X H}. Arguments mGlobalTime {X H}. Arguments mTimeStep {X H}. Arguments mHistory {X H}.

Inductive step_outcome := StepOk (iterations : nat) | StepNoConvergence | StepThrow | StepUB.

Section Quasi.
  Context {X RV DX DR H : Type}.
  Variable Q : quasi_problem X RV DX DR H.

  (** Residual, Derivative, Norm, QuasistaticSolver.cpp:67-91 *)
  Definition newton_problem (s : quasi_state X H) : problem X RV DX DR :=
    mkProblem X RV DX DR
      (fun u => Gradient Q (mHistory s) u (mGlobalTime s + mTimeStep s) (mTimeStep s))
      (fun u => Hessian0 Q (mHistory s) u (mGlobalTime s + mTimeStep s) (mTimeStep s))
      (QNorm Q) (QTolerance Q) (QSolve Q) (QMove Q).

  (** TrialState, QuasistaticSolver.cpp:50-65 *)
  Definition trial_state (s : quasi_state X H) (newTime : R) : outcome X :=
    obind (Hessian0 Q (mHistory s) (mX s) (mGlobalTime s) (mTimeStep s)) (fun hessian0 =>
    obind (Gradient Q (mHistory s) (mX s) newTime (newTime - mGlobalTime s)) (fun gradient =>
    omap (fun dx => QMove Q (mX s) 1 dx) (TrialSolve Q hessian0 gradient (mGlobalTime s) newTime))).

  (** DoStep, QuasistaticSolver.cpp:119-152 *)
  Definition do_step (s : quasi_state X H) (newTime : R) : quasi_state X H * step_outcome :=
    match trial_state s newTime with
    | Throw => (s, StepThrow)
    | UB => (s, StepUB)
    | Ok trialU =>
      let s1 := mkQState (mX s) (mGlobalTime s) (newTime - mGlobalTime s) (mHistory s) in
      match snd (newton (newton_problem s1) (line_search (newton_problem s1) 6) 6 trialU) with
      | NUB => (s1, StepUB)
      | NThrow | NNoConvergence _ => (s1, StepNoConvergence)
      | NReturn tmpX num =>
        if rltb (10 ^ 10) (XNorm Q tmpX) then (s1, StepNoConvergence)
        else let (h', threw) := Update Q (mHistory s1) tmpX (mGlobalTime s1 + mTimeStep s1) (mTimeStep s1) in
             if (threw : bool) then (mkQState (mX s) (mGlobalTime s) (mTimeStep s1) h', StepThrow)
             else (mkQState tmpX newTime (mTimeStep s1) h', StepOk (match num with Some n => n | None => 0%nat end))
      end
    end.

  (** a history of calls *)
  Fixpoint do_steps (s : quasi_state X H) (times : list R) : quasi_state X H * list step_outcome :=
    match times with
    | [] => (s, [])
    | t :: ts => let (s', o) := do_step s t in let (s'', os) := do_steps s' ts in (s'', o :: os)
    end.
End Quasi.
