(** * Model of the constitutive laws: linear elasticity, damaged elasticity, damage laws, strain norm, history

    [double] is modelled by the real numbers (no rounding).  A fixed-size Eigen vector is a function from the index,
    a matrix a function from row and column; only the indices below [Voigt_Dim d] carry meaning. *)
From Coq Require Import List Arith Bool Reals.
From Verif Require Import RSum Outcome AdaptiveModel.
Import ListNotations.
Local Open Scope R_scope.

(** nuto/mechanics/constitutive/Voigt.h:6-9 *)
Definition Voigt_Dim (d : nat) : nat := match d with 1%nat => 1%nat | 2%nat => 3%nat | _ => 6%nat end.

Definition vec := nat -> R.
Definition mat := nat -> nat -> R.

(** matrix times vector over the first [n] entries: Eigen operator* *)
Definition mat_vec (n : nat) (A : mat) (v : vec) : vec := fun i => rsum n (fun j => A i j * v j).

(** nuto/mechanics/constitutive/ConstitutivePlaneStateEnum.h:4-8 *)
Inductive ePlaneState := PLANE_STRESS | PLANE_STRAIN.

(** ** nuto/mechanics/constitutive/LinearElastic.h *)

(** lines 50-56 *)
Definition CalculateCoefficients2DPlaneStress (E Nu : R) : R * R * R :=
  let factor := E / (1 - Nu * Nu) in (factor, factor * Nu, factor * 0.5 * (1 - Nu)).

(** lines 62-68 *)
Definition CalculateCoefficients3D (E Nu : R) : R * R * R :=
  let factor := E / ((1 + Nu) * (1 - 2 * Nu)) in (factor * (1 - Nu), factor * Nu, E / (2 * (1 + Nu))).

(** lines 70-121, the three specialisations *)
Definition CalculateC1 (E : R) : mat := fun _ _ => E.
Definition CalculateC2 (E Nu : R) (planeState : ePlaneState) : mat :=
  let '(C11, C12, C33) := match planeState with
                          | PLANE_STRESS => CalculateCoefficients2DPlaneStress E Nu
                          | PLANE_STRAIN => CalculateCoefficients3D E Nu
                          end in
  fun i j => match i, j with
             | 0%nat, 0%nat => C11 | 1%nat, 0%nat => C12
             | 0%nat, 1%nat => C12 | 1%nat, 1%nat => C11
             | 2%nat, 2%nat => C33
             | _, _ => 0
             end.
Definition CalculateC3 (E Nu : R) : mat :=
  let '(C11, C12, C44) := CalculateCoefficients3D E Nu in
  fun i j => match i, j with
             | 0%nat, 0%nat => C11 | 1%nat, 1%nat => C11 | 2%nat, 2%nat => C11
             | 0%nat, 1%nat => C12 | 0%nat, 2%nat => C12
             | 1%nat, 0%nat => C12 | 1%nat, 2%nat => C12
             | 2%nat, 0%nat => C12 | 2%nat, 1%nat => C12
             | 3%nat, 3%nat => C44 | 4%nat, 4%nat => C44 | 5%nat, 5%nat => C44
             | _, _ => 0
             end.
Definition CalculateC (d : nat) (E Nu : R) (planeState : ePlaneState) : mat :=
  match d with 1%nat => CalculateC1 E | 2%nat => CalculateC2 E Nu planeState | _ => CalculateC3 E Nu end.

(** lines 40-43, the members *)
Record LinearElastic := { le_C : mat; le_E : R; le_Nu : R }.
(** lines 16-21; the plane state defaults to PLANE_STRESS *)
Definition le_make (d : nat) (E Nu : R) (planeState : ePlaneState) : LinearElastic :=
  {| le_C := CalculateC d E Nu planeState; le_E := E; le_Nu := Nu |}.
Definition le_make_default (d : nat) (E Nu : R) : LinearElastic := le_make d E Nu PLANE_STRESS.
(** lines 23-26 *)
Definition le_Stress (d : nat) (l : LinearElastic) (strain : vec) : vec := mat_vec (Voigt_Dim d) (le_C l) strain.
(** lines 28-31 *)
Definition le_Tangent (l : LinearElastic) (_ : vec) : mat := le_C l.
(** lines 33-36 *)
Definition le_SetPlaneState (d : nat) (l : LinearElastic) (planeState : ePlaneState) : LinearElastic :=
  {| le_C := CalculateC d (le_E l) (le_Nu l) planeState; le_E := le_E l; le_Nu := le_Nu l |}.

(** ** nuto/mechanics/constitutive/damageLaws/SofteningMaterial.h:12-36 *)
Record Softening := { s_E : R; s_nu : R; s_ft : R; s_fc : R; s_gf : R; s_c : R; s_fMin : R; s_planeState : ePlaneState }.
(** lines 40-51 *)
Definition DefaultConcrete : Softening :=
  {| s_E := 30000; s_nu := 0.2; s_ft := 4; s_fc := 40; s_gf := 0.1; s_c := 1; s_fMin := 0.01 * 4; s_planeState := PLANE_STRAIN |}.

(** ** nuto/mechanics/constitutive/LinearElasticDamage.h *)

(** lines 14-18 *)
Inductive eDamageApplication := FULL | UNILATERAL.
(** lines 102-125, the members *)
Record LinearElasticDamage :=
  { m3K : R; m2G : R; mDamageApplication : eDamageApplication; mD : vec; mD2 : vec; mPinvDiag : vec; mIv : mat; mPinvId : mat }.
(** lines 32-57 *)
Definition led_make (d : nat) (E nu : R) (app : eDamageApplication) (planeState : ePlaneState) : LinearElasticDamage :=
  let D : vec := fun i => if Nat.ltb i d then 1 else 0 in
  let D2 : vec := match d, planeState with 2%nat, PLANE_STRESS => fun i => D i * (1 + nu / (nu - 1)) | _, _ => D end in
  let P : vec := fun i => if Nat.ltb i d then 1 else 0.5 in
  let Iv : mat := fun i j => 1 / 3 * D i * D2 j in
  {| m3K := match d with 1%nat => E | _ => 3 * E / (3 - 6 * nu) end;
     m2G := match d with 1%nat => E | _ => 2 * E / (2 + 2 * nu) end;
     mDamageApplication := app;
     mD := D; mD2 := D2; mPinvDiag := P; mIv := Iv;
     mPinvId := fun i j => P i * ((if Nat.eqb i j then 1 else 0) - Iv i j) |}.
(** the default plane state of lines 32-33 *)
Definition led_make_default (d : nat) (E nu : R) (app : eDamageApplication) : LinearElasticDamage := led_make d E nu app PLANE_STRAIN.
(** lines 59-62 *)
Definition led_make_softening (d : nat) (m : Softening) (app : eDamageApplication) : LinearElasticDamage :=
  led_make d (s_E m) (s_nu m) app (s_planeState m).
(** lines 93-99 *)
Definition led_H (l : LinearElasticDamage) (eV : R) : R :=
  match mDamageApplication l with UNILATERAL => if rltb eV 0 then 0 else 1 | FULL => 1 end.
(** lines 67, 76, 86 *)
Definition led_eV (d : nat) (l : LinearElasticDamage) (strain : vec) : R := rsum (Voigt_Dim d) (fun j => 1 / 3 * mD2 l j * strain j).
(** lines 65-72 *)
Definition led_Stress (d : nat) (l : LinearElasticDamage) (strain : vec) (omega : R) : vec :=
  let eV := led_eV d l strain in
  let e : vec := fun i => strain i - mD l i * eV in
  let sV := (1 - omega * led_H l eV) * m3K l * eV in
  fun i => mD l i * sV + (1 - omega) * m2G l * mPinvDiag l i * e i.
(** lines 74-82 *)
Definition led_DstressDstrain (d : nat) (l : LinearElasticDamage) (strain : vec) (omega : R) : mat :=
  let eV := led_eV d l strain in
  fun i j => m3K l * (1 - omega * led_H l eV) * mIv l i j + (1 - omega) * m2G l * mPinvId l i j.
(** lines 84-91 *)
Definition led_DstressDomega (d : nat) (l : LinearElasticDamage) (strain : vec) (_ : R) : vec :=
  let eV := led_eV d l strain in
  let e : vec := fun i => strain i - mD l i * eV in
  let dsigmaV_dOmega := - m3K l * eV * led_H l eV in
  fun i => mD l i * dsigmaV_dOmega - m2G l * mPinvDiag l i * e i.

(** ** nuto/mechanics/constitutive/EngineeringStrainInvariants.h *)

(** lines 12-28 *)
Definition ToTensor (v : vec) : mat :=
  fun i j => match i, j with
             | 0%nat, 0%nat => v 0%nat | 1%nat, 1%nat => v 1%nat | 2%nat, 2%nat => v 2%nat
             | 1%nat, 0%nat => 0.5 * v 5%nat | 0%nat, 1%nat => 0.5 * v 5%nat
             | 2%nat, 0%nat => 0.5 * v 4%nat | 0%nat, 2%nat => 0.5 * v 4%nat
             | 2%nat, 1%nat => 0.5 * v 3%nat | 1%nat, 2%nat => 0.5 * v 3%nat
             | _, _ => 0
             end.
(** lines 32-35 *)
Definition I1 (v : vec) : R := v 0%nat + v 1%nat + v 2%nat.
(** lines 39-44 *)
Definition I2 (v : vec) : R :=
  v 0%nat * v 1%nat + v 1%nat * v 2%nat + v 2%nat * v 0%nat -
  0.25 * (v 3%nat * v 3%nat + v 4%nat * v 4%nat + v 5%nat * v 5%nat).
(** lines 48-54 *)
Definition I3 (v : vec) : R :=
  v 0%nat * v 1%nat * v 2%nat + 0.25 * v 3%nat * v 4%nat * v 5%nat -
  0.25 * (v 5%nat * v 5%nat * v 2%nat + v 3%nat * v 3%nat * v 0%nat + v 4%nat * v 4%nat * v 1%nat).
(** lines 59-71 *)
Definition J2 (v : vec) : R :=
  let eps_xx := v 0%nat in let eps_yy := v 1%nat in let eps_zz := v 2%nat in
  let eps_yz := 0.5 * v 3%nat in let eps_zx := 0.5 * v 4%nat in let eps_xy := 0.5 * v 5%nat in
  1 / 6 * ((eps_xx - eps_yy) * (eps_xx - eps_yy) + (eps_yy - eps_zz) * (eps_yy - eps_zz) +
           (eps_zz - eps_xx) * (eps_zz - eps_xx)) +
  eps_xy * eps_xy + eps_yz * eps_yz + eps_zx * eps_zx.
(** lines 75-82 *)
Definition Deviatoric (v : vec) : vec :=
  let I1_3 := I1 v / 3 in fun i => if Nat.ltb i 3 then v i - I1_3 else v i.

(** ** nuto/mechanics/constitutive/ModifiedMisesStrainNorm.h *)

(** lines 61-67, the members *)
Record ModifiedMises := { mNu : R; mK : R; mPlaneState : ePlaneState; mK1 : R; mK2 : R }.
(** lines 70-78 *)
Definition mm_make (nu k : R) (planeState : ePlaneState) : ModifiedMises :=
  {| mNu := nu; mK := k; mPlaneState := planeState;
     mK1 := (k - 1) / (2 * k * (1 - 2 * nu)); mK2 := 3 / (k * (1 + nu) * (1 + nu)) |}.
(** lines 80-84: the plane state is the second argument (default PLANE_STRAIN), not the one of the material *)
Definition mm_make_softening (m : Softening) (planeState : ePlaneState) : ModifiedMises :=
  mm_make (s_nu m) (s_fc m / s_ft m) planeState.
(** lines 86-133, the three specialisations *)
Definition Strain3D (d : nat) (strain : vec) (nu : R) (planeState : ePlaneState) : vec :=
  match d with
  | 1%nat => fun i => match i with 0%nat => strain 0%nat | 1%nat => - nu * strain 0%nat | 2%nat => - nu * strain 0%nat | _ => 0 end
  | 2%nat =>
      match planeState with
      | PLANE_STRAIN => fun i => match i with 0%nat => strain 0%nat | 1%nat => strain 1%nat | 5%nat => strain 2%nat | _ => 0 end
      | PLANE_STRESS => fun i => match i with 0%nat => strain 0%nat | 1%nat => strain 1%nat
                                 | 2%nat => nu / (nu - 1) * (strain 0%nat + strain 1%nat) | 5%nat => strain 2%nat | _ => 0 end
      end
  | _ => strain
  end.
(** lines 139-143 and 157-161, 177-181, 237-240: the square root *)
Definition mm_A (d : nat) (n : ModifiedMises) (strain : vec) : R :=
  let strain3D := Strain3D d strain (mNu n) (mPlaneState n) in
  sqrt (mK1 n * mK1 n * I1 strain3D * I1 strain3D + mK2 n * J2 strain3D).
(** lines 136-146 *)
Definition mm_Value (d : nat) (n : ModifiedMises) (strain : vec) : R :=
  mK1 n * I1 (Strain3D d strain (mNu n) (mPlaneState n)) + mm_A d n strain.
(** [A == 0] *)
Definition iszero (x : R) : bool := if Req_EM_T x 0 then true else false.
(** lines 149-169 *)
Definition mm_Derivative1 (n : ModifiedMises) (strain : vec) : vec :=
  let dJ2dexx := 2 / 3 * strain 0%nat * (1 + mNu n) * (1 + mNu n) in
  let dI1dexx := 1 - 2 * mNu n in
  let i1 := I1 (Strain3D 1 strain (mNu n) (mPlaneState n)) in
  let A := mm_A 1 n strain in
  fun _ => if iszero A then mK1 n * dI1dexx
           else mK1 n * dI1dexx + 1 / (2 * A) * (2 * mK1 n * mK1 n * i1 * dI1dexx + mK2 n * dJ2dexx).
(** lines 171-229 *)
Definition mm_Derivative2 (n : ModifiedMises) (strain : vec) : vec :=
  let i1 := I1 (Strain3D 2 strain (mNu n) (mPlaneState n)) in
  let A := mm_A 2 n strain in
  match mPlaneState n with
  | PLANE_STRAIN =>
      if iszero A then fun i => match i with 0%nat => mK1 n | 1%nat => mK1 n | _ => 0 end
      else
        let dJ2dexx := 1 / 3 * (2 * strain 0%nat - strain 1%nat) in
        let dJ2deyy := 1 / 3 * (2 * strain 1%nat - strain 0%nat) in
        let dJ2dgxy := 0.5 * strain 2%nat in
        fun i => match i with
                 | 0%nat => mK1 n + 1 / (2 * A) * (2 * mK1 n * mK1 n * i1 + mK2 n * dJ2dexx)
                 | 1%nat => mK1 n + 1 / (2 * A) * (2 * mK1 n * mK1 n * i1 + mK2 n * dJ2deyy)
                 | _ => 1 / (2 * A) * (mK2 n * dJ2dgxy)
                 end
  | PLANE_STRESS =>
      let dI1dexxeyy := 1 + mNu n / (mNu n - 1) in
      if iszero A then fun i => match i with 0%nat => dI1dexxeyy * mK1 n | 1%nat => dI1dexxeyy * mK1 n | _ => 0 end
      else
        let strainxy := mNu n / (mNu n - 1) * (strain 0%nat + strain 1%nat) in
        let dJ2dexx := 1 / 3 * (2 * strain 0%nat - strain 1%nat - 2 * strainxy + 2 * mNu n / (mNu n - 1) * strainxy) in
        let dJ2deyy := 1 / 3 * (2 * strain 1%nat - strain 0%nat - 2 * strainxy + 2 * mNu n / (mNu n - 1) * strainxy) in
        let dJ2dgxy := 0.5 * strain 2%nat in
        fun i => match i with
                 | 0%nat => dI1dexxeyy * mK1 n + 1 / (2 * A) * (2 * dI1dexxeyy * mK1 n * mK1 n * i1 + mK2 n * dJ2dexx)
                 | 1%nat => dI1dexxeyy * mK1 n + 1 / (2 * A) * (2 * dI1dexxeyy * mK1 n * mK1 n * i1 + mK2 n * dJ2deyy)
                 | _ => 1 / (2 * A) * (mK2 n * dJ2dgxy)
                 end
  end.
(** lines 231-268 *)
Definition mm_Derivative3 (n : ModifiedMises) (strain : vec) : vec :=
  let i1 := I1 strain in
  let A := mm_A 3 n strain in
  if iszero A then fun i => match i with 0%nat => mK1 n | 1%nat => mK1 n | 2%nat => mK1 n | _ => 0 end
  else
    let dJ2dexx := 1 / 3 * (2 * strain 0%nat - strain 1%nat - strain 2%nat) in
    let dJ2deyy := 1 / 3 * (2 * strain 1%nat - strain 0%nat - strain 2%nat) in
    let dJ2dezz := 1 / 3 * (2 * strain 2%nat - strain 0%nat - strain 1%nat) in
    let dJ2dgyz := 0.5 * strain 3%nat in
    let dJ2dgzx := 0.5 * strain 4%nat in
    let dJ2dgxy := 0.5 * strain 5%nat in
    fun i => match i with
             | 0%nat => mK1 n + 1 / (2 * A) * (2 * mK1 n * mK1 n * i1 + mK2 n * dJ2dexx)
             | 1%nat => mK1 n + 1 / (2 * A) * (2 * mK1 n * mK1 n * i1 + mK2 n * dJ2deyy)
             | 2%nat => mK1 n + 1 / (2 * A) * (2 * mK1 n * mK1 n * i1 + mK2 n * dJ2dezz)
             | 3%nat => 1 / (2 * A) * mK2 n * dJ2dgyz
             | 4%nat => 1 / (2 * A) * mK2 n * dJ2dgzx
             | _ => 1 / (2 * A) * mK2 n * dJ2dgxy
             end.
Definition mm_Derivative (d : nat) (n : ModifiedMises) (strain : vec) : vec :=
  match d with 1%nat => mm_Derivative1 n strain | 2%nat => mm_Derivative2 n strain | _ => mm_Derivative3 n strain end.

(** ** nuto/mechanics/constitutive/damageLaws *)

(** DamageLaw.h:8-21, the interface *)
Record DamageLaw := { Damage : R -> R; Derivative : R -> R }.

(** DamageLawExponential.h:39-44 *)
Definition exp_Damage (kappa0 beta alpha kappa : R) : R :=
  if rltb kappa kappa0 then 0 else 1 - kappa0 / kappa * (1 - alpha + alpha * exp (beta * (kappa0 - kappa))).
(** DamageLawExponential.h:46-52 *)
Definition exp_Derivative (kappa0 beta alpha kappa : R) : R :=
  if rltb kappa kappa0 then 0
  else kappa0 / kappa * ((1 / kappa + beta) * alpha * exp (beta * (kappa0 - kappa)) + (1 - alpha) / kappa).
(** DamageLawExponential.h:26-31 *)
Definition DamageLawExponential (kappa0 beta alpha : R) : DamageLaw :=
  {| Damage := exp_Damage kappa0 beta alpha; Derivative := exp_Derivative kappa0 beta alpha |}.
(** DamageLawExponential.h:32-37 *)
Definition DamageLawExponential_softening (m : Softening) : DamageLaw :=
  DamageLawExponential (s_ft m / s_E m) (s_ft m / s_gf m) (1 - s_fMin m / s_ft m).

(** DamageLawLinear.h:39-45; std::min(a, b) is (b < a) ? b : a *)
Definition lin_Damage (kappa0 kappaC omegaMax kappa : R) : R :=
  if rltb kappa kappa0 then 0
  else let damage := kappaC / kappa * (kappa - kappa0) / (kappaC - kappa0) in
       if rltb omegaMax damage then omegaMax else damage.
(** DamageLawLinear.h:47-54 *)
Definition lin_Derivative (kappa0 kappaC omegaMax kappa : R) : R :=
  if rltb kappa kappa0 then 0
  else if rltb (lin_Damage kappa0 kappaC omegaMax kappa) omegaMax then kappaC * kappa0 / (kappa * kappa * (kappaC - kappa0))
  else 0.
(** DamageLawLinear.h:25-30 *)
Definition DamageLawLinear (kappa0 kappaC omegaMax : R) : DamageLaw :=
  {| Damage := lin_Damage kappa0 kappaC omegaMax; Derivative := lin_Derivative kappa0 kappaC omegaMax |}.
(** DamageLawLinear.h:32-37 *)
Definition DamageLawLinear_softening (m : Softening) : DamageLaw :=
  let kappa0 := s_ft m / s_E m in
  DamageLawLinear kappa0 (kappa0 + 2 * s_gf m / s_ft m) (1 - s_fMin m / s_ft m).

(** DamageLawNoSoftening.h:33-38 *)
Definition nos_Damage (kappa0 kappa : R) : R := if rltb kappa kappa0 then 0 else 1 - kappa0 / kappa.
(** DamageLawNoSoftening.h:40-45 *)
Definition nos_Derivative (kappa0 kappa : R) : R := if rltb kappa kappa0 then 0 else kappa0 / (kappa * kappa).
(** DamageLawNoSoftening.h:24-27 *)
Definition DamageLawNoSoftening (kappa0 : R) : DamageLaw :=
  {| Damage := nos_Damage kappa0; Derivative := nos_Derivative kappa0 |}.
(** DamageLawNoSoftening.h:28-31 *)
Definition DamageLawNoSoftening_softening (m : Softening) : DamageLaw := DamageLawNoSoftening (s_ft m / s_E m).

(** ** nuto/mechanics/constitutive/LocalIsotropicDamage.h *)

(** an Eigen::MatrixXd of history data; reading or writing outside its size is undefined behaviour *)
Record history := { h_rows : nat; h_cols : nat; h_at : nat -> nat -> R }.
Definition h_read (h : history) (c ip : nat) : outcome R :=
  if (Nat.ltb c (h_rows h) && Nat.ltb ip (h_cols h))%bool then Ok (h_at h c ip) else UB.
Definition h_write (h : history) (c ip : nat) (x : R) : outcome history :=
  if (Nat.ltb c (h_rows h) && Nat.ltb ip (h_cols h))%bool
  then Ok {| h_rows := h_rows h; h_cols := h_cols h;
             h_at := fun c' ip' => if (Nat.eqb c' c && Nat.eqb ip' ip)%bool then x else h_at h c' ip' |}
  else UB.
(** std::max(a, b) is (a < b) ? b : a *)
Definition std_max (a b : R) : R := if rltb a b then b else a.

(** lines 141-142, the members of EvolutionImplicit *)
Record EvolutionImplicit := { ev_norm : ModifiedMises; ev_kappas : history }.
(** lines 135-138 *)
Definition ev_Resize (e : EvolutionImplicit) (numCells numIpsPerCell : nat) : EvolutionImplicit :=
  {| ev_norm := ev_norm e; ev_kappas := {| h_rows := numCells; h_cols := numIpsPerCell; h_at := fun _ _ => 0 |} |}.
(** lines 100-105; both sizes default to 1 *)
Definition ev_make (n : ModifiedMises) (numCells numIpsPerCell : nat) : EvolutionImplicit :=
  {| ev_norm := n; ev_kappas := {| h_rows := numCells; h_cols := numIpsPerCell; h_at := fun _ _ => 0 |} |}.
(** lines 111-115; the plane state of the norm is the default PLANE_STRAIN *)
Definition ev_make_softening (m : Softening) (numCells numIpsPerCell : nat) : EvolutionImplicit :=
  ev_make (mm_make_softening m PLANE_STRAIN) numCells numIpsPerCell.
(** lines 118-121 *)
Definition ev_Kappa (d : nat) (e : EvolutionImplicit) (strain : vec) (c ip : nat) : outcome R :=
  omap (fun k => std_max (mm_Value d (ev_norm e) strain) k) (h_read (ev_kappas e) c ip).
(** lines 123-128 *)
Definition ev_DkappaDstrain (d : nat) (e : EvolutionImplicit) (strain : vec) (c ip : nat) : outcome vec :=
  omap (fun k => if rleb k (mm_Value d (ev_norm e) strain) then mm_Derivative d (ev_norm e) strain else fun _ => 0)
       (h_read (ev_kappas e) c ip).
(** lines 130-133 *)
Definition ev_Update (d : nat) (e : EvolutionImplicit) (strain : vec) (c ip : nat) : outcome EvolutionImplicit :=
  obind (ev_Kappa d e strain c ip) (fun k =>
  omap (fun h => {| ev_norm := ev_norm e; ev_kappas := h |}) (h_write (ev_kappas e) c ip k)).

(** lines 78-80, the members of LocalIsotropicDamage *)
Record LocalIsotropicDamage := { li_elastic : LinearElasticDamage; li_law : DamageLaw; li_evolution : EvolutionImplicit }.
(** lines 38-43 *)
Definition li_make (l : LinearElasticDamage) (w : DamageLaw) (e : EvolutionImplicit) : LocalIsotropicDamage :=
  {| li_elastic := l; li_law := w; li_evolution := e |}.
(** lines 45-50, with the default damage law of line 33 *)
Definition li_make_softening (d : nat) (m : Softening) (app : eDamageApplication) : LocalIsotropicDamage :=
  li_make (led_make_softening d m app) (DamageLawExponential_softening m) (ev_make_softening m 1 1).
(** lines 52-57 *)
Definition li_Stress (d : nat) (l : LocalIsotropicDamage) (strain : vec) (c ip : nat) : outcome vec :=
  omap (fun kappa => led_Stress d (li_elastic l) strain (Damage (li_law l) kappa)) (ev_Kappa d (li_evolution l) strain c ip).
(** lines 59-68 *)
Definition li_Tangent (d : nat) (l : LocalIsotropicDamage) (strain : vec) (c ip : nat) : outcome mat :=
  obind (ev_Kappa d (li_evolution l) strain c ip) (fun kappa =>
  let omega := Damage (li_law l) kappa in
  let dOmegadKappa := Derivative (li_law l) kappa in
  omap (fun g : vec => fun i j =>
          led_DstressDstrain d (li_elastic l) strain omega i j +
          led_DstressDomega d (li_elastic l) strain omega i * dOmegadKappa * g j)
       (ev_DkappaDstrain d (li_evolution l) strain c ip)).
(** lines 70-73 *)
Definition li_Update (d : nat) (l : LocalIsotropicDamage) (strain : vec) (c ip : nat) : outcome LocalIsotropicDamage :=
  omap (fun e => {| li_elastic := li_elastic l; li_law := li_law l; li_evolution := e |})
       (ev_Update d (li_evolution l) strain c ip).

(** the calls a client makes on one law object, and the result each returns *)
Inductive li_op :=
| OpStress (strain : vec) (c ip : nat)
| OpTangent (strain : vec) (c ip : nat)
| OpUpdate (strain : vec) (c ip : nat).
Definition li_step (d : nat) (l : LocalIsotropicDamage) (o : li_op) : outcome LocalIsotropicDamage :=
  match o with
  | OpStress s c ip => omap (fun _ => l) (li_Stress d l s c ip)
  | OpTangent s c ip => omap (fun _ => l) (li_Tangent d l s c ip)
  | OpUpdate s c ip => li_Update d l s c ip
  end.
Fixpoint li_run (d : nat) (l : LocalIsotropicDamage) (ops : list li_op) : outcome LocalIsotropicDamage :=
  match ops with nil => Ok l | o :: rest => obind (li_step d l o) (fun l' => li_run d l' rest) end.
