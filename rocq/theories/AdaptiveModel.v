(** * Model of nuto/mechanics/tools/AdaptiveSolve.cpp *)
From Coq Require Import List ZArith Reals.
Import ListNotations.
Local Open Scope R_scope.

(** what the step function does: it returns a number of iterations, throws NoConvergence, or throws something else *)
Inductive response := Converged (iterations : Z) | NoConvergence | OtherException.

(** AdaptiveSolve.h:26-31 *)
Record controller := mkController { dtMax : R; dtMin : R; increaseFactor : R; decreaseFactor : R }.

(** calls of mDoStepFunction with their argument and response, calls of mPostProcess *)
Inductive event := EStep (t : R) (r : response) | EPost (t : R).

Inductive iteration :=
| Continue (t dt : R)
| Return (t dt : R)
| ThrowSmall (t dt : R)
| ThrowOther (t dt : R).

Definition rltb (a b : R) : bool := if Rlt_dec a b then true else false.
Definition rleb (a b : R) : bool := if Rle_dec a b then true else false.

(** lines 39-47: a new time step after success *)
Definition next_dt (p : controller) (tEnd t dt : R) (n : Z) : R :=
  let dt1 := if andb (Z.ltb n 3) (rltb dt (dtMax p)) then Rmin (dt * increaseFactor p) (dtMax p) else dt in
  if rltb tEnd (t + dt1) then tEnd - t else dt1.

(** one pass through the loop, AdaptiveSolve.cpp:28-65.  Exact arithmetic; the postprocess function
    does not throw. *)
Definition adaptive_iteration (p : controller) (tEnd t dt : R) (r : response) : list event * iteration :=
  match r with
  | Converged n =>
    let t' := t + dt in
    ([EStep t' r; EPost t'],
     if rleb tEnd t' then Return t' dt else Continue t' (next_dt p tEnd t' dt n))
  | NoConvergence =>
    let dt' := dt * decreaseFactor p in
    ([EStep (t + dt) r], if rltb dt' (dtMin p) then ThrowSmall t dt' else Continue t dt')
  | OtherException => ([EStep (t + dt) r], ThrowOther t dt)
  end.

(** the loop for a sequence of responses [resp] of the step function, cut after [fuel] iterations
    ([None]: still running) *)
Fixpoint adaptive_loop (fuel : nat) (p : controller) (tEnd t dt : R) (resp : nat -> response) (k : nat)
  : list event * option iteration :=
  match fuel with
  | O => ([], None)
  | S fuel' =>
    let (ev, it) := adaptive_iteration p tEnd t dt (resp k) in
    match it with
    | Continue t' dt' => let (ev', res) := adaptive_loop fuel' p tEnd t' dt' resp (S k) in (ev ++ ev', res)
    | _ => (ev, Some it)
    end
  end.

(** AdaptiveSolve::Solve, AdaptiveSolve.cpp:18-67 *)
Definition adaptive_solve (fuel : nat) (p : controller) (dt0 tEnd tStart : R) (resp : nat -> response)
  : list event * option iteration :=
  let (ev, res) := adaptive_loop fuel p tEnd tStart dt0 resp 0 in (EPost tStart :: ev, res).
