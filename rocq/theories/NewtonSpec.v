(** * Specifications for C27, C28 *)
From Coq Require Import List ZArith Reals.
From Verif Require Import Outcome AdaptiveModel NewtonModel.
Import ListNotations.
Local Open Scope R_scope.

Section Spec.
  Context {X RV DX DR : Type}.
  Variable P : problem X RV DX DR.

  (** the residual at x can be evaluated and its norm is below the tolerance *)
  Definition converged (x : X) : Prop := exists r, Residual P x = Ok r /\ Norm P r < Tolerance P.
  Definition not_converged (x : X) : Prop := exists r, Residual P x = Ok r /\ Tolerance P <= Norm P r.

  (** x' = x - alpha * dx, dx the solution of the linear system at x *)
  Definition newton_update (alpha : R) (x x' : X) : Prop :=
    exists dr r dx, Derivative P x = Ok dr /\ Residual P x = Ok r /\ LinSolve P dr r = Ok dx /\ x' = Move P x alpha dx.

  (** the residual norm drops from x to x' by the factor 1 - c *)
  Definition sufficient_decrease (c : R) (x x' : X) : Prop :=
    exists r r', Residual P x = Ok r /\ Residual P x' = Ok r' /\ Norm P r' < (1 - c) * Norm P r.

  (** step accepted by the line search at the k-th trial: step length 2^-k *)
  Definition halved (k : nat) : R := (1 / 2) ^ k.

  (** consecutive elements of a list *)
  Fixpoint consecutive (R : X -> X -> Prop) (l : list X) : Prop :=
    match l with x :: ((y :: _) as l') => R x y /\ consecutive R l' | _ => True end.

  (** all functions of the problem return normally *)
  Definition never_fails : Prop :=
    (forall x, exists r, Residual P x = Ok r) /\ (forall x, exists dr, Derivative P x = Ok dr) /\
    (forall dr r, exists dx, LinSolve P dr r = Ok dx).
End Spec.

Section QuasiSpec.
  Context {X RV DX DR H : Type}.
  Variable Q : quasi_problem X RV DX DR H.

  Definition updates_never_throw : Prop := forall h x t dt, snd (Update Q h x t dt) = false.
  (** the Hessian does not depend on the time step *)
  Definition hessian_ignores_time_step : Prop := forall h x t dt dt', Hessian0 Q h x t dt = Hessian0 Q h x t dt'.

  (** everything a user can observe except the stored time step *)
  Definition same_state (s s' : quasi_state X H) : Prop :=
    mX s = mX s' /\ mGlobalTime s = mGlobalTime s' /\ mHistory s = mHistory s'.
End QuasiSpec.
Definition succeeded (o : step_outcome) : bool := match o with StepOk _ => true | _ => false end.
Fixpoint successful {A} (l : list A) (os : list step_outcome) : list A :=
  match l, os with
  | a :: l', o :: os' => if succeeded o then a :: successful l' os' else successful l' os'
  | _, _ => []
  end.
