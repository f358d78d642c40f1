(** * Specification for C26 *)
From Coq Require Import List ZArith Reals Sorted.
From Verif Require Import AdaptiveModel.
Import ListNotations.
Local Open Scope R_scope.

(** a trace of calls after time [t] was reached: every attempted step goes beyond t by at most M,
    a success is followed by the postprocessing of its time, which becomes the new time, a
    failure changes nothing *)
Inductive legal (M : R) : R -> list event -> Prop :=
| legal_nil t : legal M t []
| legal_success t t' n tr : t < t' <= t + M -> legal M t' tr -> legal M t (EStep t' (Converged n) :: EPost t' :: tr)
| legal_failure t t' tr : t < t' <= t + M -> legal M t tr -> legal M t (EStep t' NoConvergence :: tr)
| legal_other t t' : t < t' <= t + M -> legal M t [EStep t' OtherException].

Fixpoint post_times (tr : list event) : list R :=
  match tr with [] => [] | EPost t :: r => t :: post_times r | _ :: r => post_times r end.
Fixpoint success_times (tr : list event) : list R :=
  match tr with [] => [] | EStep t (Converged _) :: r => t :: success_times r | _ :: r => success_times r end.

Definition good_controller (p : controller) : Prop :=
  0 < dtMin p /\ 0 < dtMax p /\ 1 <= increaseFactor p /\ 0 < decreaseFactor p < 1.
