(** Model of nuto/mechanics/integrands: MomentumBalance.h, DynamicMomentumBalance.h, NeumannBc.h, GradientDamage.h.
    Numbers are exact reals.  What an integrand sees of a CellIpData is a [view]: the matrices N and B of the dof types
    (C21, C23) and the node values; sums run over the sizes of the matrices. *)
From Coq Require Import List Arith Bool Reals.
From Verif Require Import RSum Outcome AdaptiveModel ElasticModel.
Import ListNotations.
Local Open Scope R_scope.

(** A.transpose() * v, with [n] rows in A *)
Definition tmat_vec (n : nat) (A : mat) (v : vec) : vec := fun a => rsum n (fun i => A i a * v i).
(** A.transpose() * C * B: Eigen multiplies from the left; [n] rows in A, [m] rows in B *)
Definition tmat_mat (n : nat) (A C : mat) : mat := fun a j => rsum n (fun i => A i a * C i j).
Definition mat_mat (m : nat) (C B : mat) : mat := fun a b => rsum m (fun j => C a j * B j b).

(** ** MomentumBalance.h
    [cols]: the number of displacement values of the element; [B]: B(disp, Strain); [u]: the node values *)
Section Momentum.
  Variables (d : nat) (stress : vec -> outcome vec) (tangent : vec -> outcome mat).  (* mLaw at this integration point *)
  Variables (cols : nat) (B : mat).
  (** Apply(mDofType, Strain), CellIpData.h:70-73 *)
  Definition strain_of (u : vec) : vec := mat_vec cols B u.
  (** lines 27-36 *)
  Definition mb_Gradient (u : vec) : outcome vec := omap (tmat_vec (Voigt_Dim d) B) (stress (strain_of u)).
  (** lines 38-47 *)
  Definition mb_Hessian0 (u : vec) : outcome mat :=
    omap (fun C => mat_mat (Voigt_Dim d) (tmat_mat (Voigt_Dim d) B C) B) (tangent (strain_of u)).
End Momentum.

(** DynamicMomentumBalance::Hessian2, DynamicMomentumBalance.h:22-30; [dim] rows in N *)
Definition dm_Hessian2 (dim : nat) (rho : R) (N : mat) : mat := fun a b => tmat_mat dim N N a b * rho.
(** NeumannBc::ExternalLoad, NeumannBc.h:28-36 *)
Definition nb_ExternalLoad (dim : nat) (factor : vec) (N : mat) : vec := tmat_vec dim N factor.

(** ** GradientDamage.h *)
(** the interaction laws, lines 150-184: Factor and Derivative *)
Record Interaction := { iFactor : R -> R; iDerivative : R -> R }.
Definition Interaction_Constant : Interaction := {| iFactor := fun _ => 1; iDerivative := fun _ => 0 |}.
Definition Interaction_Decreasing (r eta : R) : Interaction :=
  {| iFactor := fun w => ((1 - r) * exp (- eta * w) + r - exp (- eta)) / (1 - exp (- eta));
     iDerivative := fun w => ((1 - r) * exp (- eta * w)) / (1 - exp (- eta)) * - eta |}.

(** the members, lines 137-145 *)
Record GradientDamage := {
  gd_c : R; gd_elastic : LinearElasticDamage; gd_law : DamageLaw; gd_norm : ModifiedMises; gd_inter : Interaction;
  gd_kappas : history }.
(** lines 38-48; mKappas is a default constructed matrix without elements until the user resizes it *)
Definition gd_make (c : R) (el : LinearElasticDamage) (law : DamageLaw) (n : ModifiedMises) (i : Interaction) : GradientDamage :=
  {| gd_c := c; gd_elastic := el; gd_law := law; gd_norm := n; gd_inter := i;
     gd_kappas := {| h_rows := 0; h_cols := 0; h_at := fun _ _ => 0 |} |}.
(** lines 56-67 with the default damage law; the norm gets its default plane state *)
Definition gd_make_softening (d : nat) (m : Softening) (app : eDamageApplication) (i : Interaction) : GradientDamage :=
  gd_make (s_c m) (led_make_softening d m app) (DamageLawExponential_softening m) (mm_make_softening m PLANE_STRAIN) i.
(** mKappas.setZero(cells, ips), by the user *)
Definition gd_resize (g : GradientDamage) (rows cols : nat) : GradientDamage :=
  {| gd_c := gd_c g; gd_elastic := gd_elastic g; gd_law := gd_law g; gd_norm := gd_norm g; gd_inter := gd_inter g;
     gd_kappas := {| h_rows := rows; h_cols := cols; h_at := fun _ _ => 0 |} |}.

(** the integration point: matrices and node values of both dof types, and its ids *)
Record view := {
  v_cols : nat; v_Bdisp : mat; v_disp : vec;                       (* displacements *)
  v_ecols : nat; v_Neeq : vec; v_Beeq : mat; v_eeq : vec;          (* nonlocal equivalent strains: one row in N *)
  v_cell : nat; v_ip : nat }.
(** Value(mEeq), CellIpData.h:58-61; Apply(mEeq, Gradient); Apply(mDisp, Strain) *)
Definition eeq_of (v : view) : R := rsum (v_ecols v) (fun b => v_Neeq v b * v_eeq v b).
Definition eeq_gradient (v : view) : vec := mat_vec (v_ecols v) (v_Beeq v) (v_eeq v).
Definition disp_strain (v : view) : vec := mat_vec (v_cols v) (v_Bdisp v) (v_disp v).

(** lines 127-130 and 132-135 *)
Definition gd_Kappa (g : GradientDamage) (v : view) : outcome R :=
  omap (fun k => std_max k (eeq_of v)) (h_read (gd_kappas g) (v_cell v) (v_ip v)).
Definition gd_DkappaDeeq (g : GradientDamage) (v : view) : outcome R :=
  omap (fun k => if rleb k (eeq_of v) then 1 else 0) (h_read (gd_kappas g) (v_cell v) (v_ip v)).
(** lines 70-90: the blocks of mDisp and mEeq *)
Definition gd_Gradient (d : nat) (g : GradientDamage) (v : view) : outcome (vec * vec) :=
  omap (fun kappa =>
    let eeq := eeq_of v in
    let omega := Damage (gd_law g) kappa in
    let eeqGradient := eeq_gradient v in
    let strain := disp_strain v in
    let f := iFactor (gd_inter g) omega in
    (tmat_vec (Voigt_Dim d) (v_Bdisp v) (led_Stress d (gd_elastic g) strain omega),
     fun a => v_Neeq v a * (eeq - mm_Value d (gd_norm g) strain) +
              tmat_vec d (v_Beeq v) (fun i => gd_c g * f * eeqGradient i) a))
    (gd_Kappa g v).
(** lines 92-120: the blocks (disp, disp), (disp, eeq), (eeq, disp), (eeq, eeq) *)
Record blocks := { b_dd : mat; b_de : mat; b_ed : mat; b_ee : mat }.
Definition gd_Hessian0 (d : nat) (g : GradientDamage) (v : view) : outcome blocks :=
  obind (gd_Kappa g v) (fun kappa =>
  omap (fun dKappa_dEeq =>
    let omega := Damage (gd_law g) kappa in
    let dOmega_dKappa := Derivative (gd_law g) kappa in
    let strain := disp_strain v in
    let f := iFactor (gd_inter g) omega in
    let dgdw := iDerivative (gd_inter g) omega in
    let eeqGradient := eeq_gradient v in
    let B := v_Bdisp v in let N := v_Neeq v in let Be := v_Beeq v in
    {| b_dd := mat_mat (Voigt_Dim d) (tmat_mat (Voigt_Dim d) B (led_DstressDstrain d (gd_elastic g) strain omega)) B;
       b_ed := fun a b => rsum (Voigt_Dim d) (fun j => - N a * mm_Derivative d (gd_norm g) strain j * B j b);
       b_ee := fun a b => N a * N b + tmat_mat d (fun i a => gd_c g * f * Be i a) Be a b +
                          tmat_vec d Be (fun i => gd_c g * eeqGradient i * dgdw * dOmega_dKappa * dKappa_dEeq) a * N b;
       b_de := fun a b => tmat_vec (Voigt_Dim d) B
                 (fun i => led_DstressDomega d (gd_elastic g) strain omega i * dOmega_dKappa * dKappa_dEeq) a * N b |})
    (gd_DkappaDeeq g v)).
(** lines 122-125 *)
Definition gd_Update (g : GradientDamage) (v : view) : outcome GradientDamage :=
  obind (gd_Kappa g v) (fun k =>
  omap (fun h => {| gd_c := gd_c g; gd_elastic := gd_elastic g; gd_law := gd_law g; gd_norm := gd_norm g;
                    gd_inter := gd_inter g; gd_kappas := h |}) (h_write (gd_kappas g) (v_cell v) (v_ip v) k)).

(** the calls an assembler makes *)
Inductive gd_op := GGradient (v : view) | GHessian0 (v : view) | GUpdate (v : view).
Definition gd_step (d : nat) (g : GradientDamage) (o : gd_op) : outcome GradientDamage :=
  match o with
  | GGradient v => omap (fun _ => g) (gd_Gradient d g v)
  | GHessian0 v => omap (fun _ => g) (gd_Hessian0 d g v)
  | GUpdate v => gd_Update g v
  end.
Fixpoint gd_run (d : nat) (g : GradientDamage) (ops : list gd_op) : outcome GradientDamage :=
  match ops with nil => Ok g | o :: rest => obind (gd_step d g o) (fun g' => gd_run d g' rest) end.
