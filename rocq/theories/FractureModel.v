(** * Model of nuto/mechanics/tools/GlobalFractureEnergyIntegrator.cpp *)
From Coq Require Import List Arith Bool Reals.
From Verif Require Import Outcome RSum AdaptiveModel.
Import ListNotations.
Local Open Scope R_scope.

(** an integrator that was constructed: absolute values, lines 11-12 *)
Record integrator := mkIntegrator { mForce : list R; mDispl : list R }.

Definition at_ (l : list R) (i : nat) : R := nth i l 0.

(** constructor and CheckData, lines 8-14, 86-96; mForce[0] of an empty vector is out of range *)
Definition make_integrator (forces displacements : list R) : outcome integrator :=
  let F := map Rabs forces in let D := map Rabs displacements in
  if negb (Nat.eqb (length F) (length D)) then Throw
  else match F with
       | [] => UB
       | f0 :: _ => if rltb (1 / 10 ^ 10) (Rabs f0) then Throw
                    else if rltb (1 / 10 ^ 10) (Rabs (at_ D 0)) then Throw else Ok (mkIntegrator F D)
       end.

(** IntegrateSofteningCurveInternal(rEnd), lines 73-84; every caller has rEnd <= rows *)
Definition integrate_internal (g : integrator) (rEnd : nat) : R :=
  fold_left (fun integral iRow =>
    integral + (at_ (mForce g) (iRow + 1) + at_ (mForce g) iRow) / 2 * (at_ (mDispl g) (iRow + 1) - at_ (mDispl g) iRow))
    (seq 0 (rEnd - 1)) 0.

(** IntegrateSofteningCurve(rArea), lines 26-29; division by a zero area is not modelled (Rdiv) *)
Definition integrate_full (g : integrator) (area : R) : R := integrate_internal g (length (mForce g)) / area.

(** FindIndexJustAboveForceThreshold, lines 59-71 *)
Definition find_index (g : integrator) (threshold : R) : outcome nat :=
  let n := length (mForce g) in
  if rltb threshold (at_ (mForce g) (n - 1)) then Throw
  else match find (fun i => andb (rltb threshold (at_ (mForce g) i)) (rleb (at_ (mForce g) (i + 1)) threshold)) (seq 0 (n - 1)) with
       | Some i => Ok i
       | None => Throw
       end.

(** IntegrateIndexToForceThreshold, lines 39-57: index -1 is undefined behaviour, division by dF = 0
    gives a result that is not finite (None) *)
Definition integrate_to_threshold (g : integrator) (i : nat) (threshold : R) : outcome (option R) :=
  match i with
  | O => UB
  | S i' =>
    let d0 := at_ (mDispl g) i' in let d1 := at_ (mDispl g) i in
    let f0 := at_ (mForce g) i' in let f1 := at_ (mForce g) i in
    let dX := d0 - d1 in let dF := f0 - f1 in
    if Req_EM_T dF 0 then Ok None
    else
      let dThreshold := d0 + dX / dF * (threshold - f0) in
      Ok (Some ((threshold + f0) / 2 * (dThreshold - d0)))
  end.

(** IntegrateSofteningCurve(rArea, rForceThreshold), lines 31-37 *)
Definition integrate_threshold (g : integrator) (area threshold : R) : outcome (option R) :=
  obind (find_index g threshold) (fun iEnd =>
  omap (option_map (fun last => (integrate_internal g iEnd + last) / area)) (integrate_to_threshold g iEnd threshold)).
