(** * A cell with a mechanical integrand: MomentumBalance integrated over a Cell

    The composition of the pieces modelled in CellModel (Jacobian.h, DifferentialOperators.h, Cell.h,
    CellIpData.h), InterpolationModel (the shape functions) and IntegrandModel (MomentumBalance.h).
    The caches of CellData/CellIpData are transparent (C21) and left out here. *)
From Coq Require Import List Arith ZArith Reals.
From Verif Require Import Outcome RSum CellModel ElasticModel IntegrandModel InterpolationModel.
Import ListNotations.
Local Open Scope R_scope.

(** Eigen matrix returned by InterpolationSimple::GetDerivativeShapeFunctions, ElementFem.h:53-56 *)
Definition as_matrix (l : list (list R)) : mfun := fun k j => nth j (nth k l []) 0.
(** the natural coordinates of an integration point, as the shape functions read them *)
Definition as_point (l : list R) : nat -> R := fun k => nth k l 0.

Section SolidCell.
  (** TDim of the integrand; the law may depend on the ids of the integration point and may throw
      (MechanicsInterface.h:15-16: Stress and Tangent are const) *)
  Variables (d : nat) (stress : ipdata -> vec -> outcome vec) (tangent : ipdata -> vec -> outcome mat).
  (** coordinate element with its node coordinates, displacement element with its nodal values ([dofDim] per node) *)
  Variables (ex : element) (coordinates : list R) (eu : element) (dofDim : nat) (values : nat -> nat -> R).
  (** id and integration type of the cell *)
  Variables (cellId : Z) (numIps : nat) (ipCoord : nat -> list R) (ipWeight : nat -> R).

  Definition numDofNodes : nat := length (e_nodes eu).
  Definition numDofs : nat := (numDofNodes * dofDim)%nat.

  (** ElementFem::ExtractNodeValues, ElementFem.h:33-40 *)
  Definition node_values : vec := fun a => nth a (extract_node_values dofDim numDofNodes values) 0.

  (** CellIpData::B with Nabla::Strain, CellIpData.h:90-97, 109-114; the number of columns of the global
      derivatives is the global dimension.  A product of matrices of the wrong size is an Eigen assertion (UB). *)
  Definition ip_B (ip : ipdata) : outcome mfun :=
    let j := ipJac ip in
    obind (nabla_strain (jRows j) numDofNodes (transform_derivatives j (as_matrix (e_deriv eu (as_point (ipCoords ip))))))
      (fun p => if Nat.eqb (jRows j) dofDim then Ok (snd p) else UB).

  (** CellIpData::Apply, CellIpData.h:70-73 *)
  Definition ip_Strain (ip : ipdata) : outcome vec := obind (ip_B ip) (fun B => Ok (strain_of numDofs B node_values)).

  (** MomentumBalance::Gradient and Hessian0, MomentumBalance.h:27-47; the law wants TDim strains *)
  Definition ip_Gradient (ip : ipdata) : outcome vec :=
    obind (ip_B ip) (fun B => if Nat.eqb dofDim d then mb_Gradient d (stress ip) numDofs B node_values else UB).
  Definition ip_Hessian0 (ip : ipdata) : outcome mat :=
    obind (ip_B ip) (fun B => if Nat.eqb dofDim d then mb_Hessian0 d (tangent ip) numDofs B node_values else UB).

  (** operator+= and operator* of the integrated values; an exception of the integrand ends the integration *)
  Definition vec_add (a b : outcome vec) : outcome (outcome vec) :=
    obind a (fun a' => obind b (fun b' => Ok (Ok (fun i => a' i + b' i)))).
  Definition vec_scale (a : outcome vec) (s : R) : outcome vec := omap (fun a' i => a' i * s) a.
  Definition mat_add (a b : outcome mat) : outcome (outcome mat) :=
    obind a (fun a' => obind b (fun b' => Ok (Ok (fun i j => a' i j + b' i j)))).
  Definition mat_scale (a : outcome mat) (s : R) : outcome mat := omap (fun a' i j => a' i j * s) a.

  (** Cell::Integrate, Cell.h:32-45, 105-119 *)
  Definition cell_Gradient : outcome vec :=
    obind (integrate cellId numIps ipCoord ipWeight coordinates (length (e_nodes ex)) (e_dim ex)
             (fun x => as_matrix (e_deriv ex (as_point x))) vec_add vec_scale
             (fun (_ : unit) ip => (tt, ip_Gradient ip)) (Ok (fun _ => 0)) tt) snd.
  Definition cell_Hessian0 : outcome mat :=
    obind (integrate cellId numIps ipCoord ipWeight coordinates (length (e_nodes ex)) (e_dim ex)
             (fun x => as_matrix (e_deriv ex (as_point x))) mat_add mat_scale
             (fun (_ : unit) ip => (tt, ip_Hessian0 ip)) (Ok (fun _ _ => 0)) tt) snd.
  (** Cell::Eval with the strain of each integration point, Cell.h:80-93 *)
  Definition cell_Strains : outcome (list (outcome vec)) :=
    omap snd (cell_eval cellId numIps ipCoord coordinates (length (e_nodes ex)) (e_dim ex)
                (fun x => as_matrix (e_deriv ex (as_point x))) (fun (_ : unit) ip => (tt, ip_Strain ip)) tt).
End SolidCell.
