(** * Cells on isogeometric surface elements *)
From Coq Require Import List Arith Bool Reals.
From Verif Require Import Outcome NurbsModel CellModel IgaModel.
Import ListNotations.
Local Open Scope R_scope.

Section IgaSurfaceCell.
  Variables (junk1 junk2 junk3 : nat -> nat -> R) (garbage : mfun).

  (** ExtractNodeValues, ElementIga.h:35-38 *)
  Definition surface_node_values (f : surface) (id0 id1 : nat) : outcome (list R) :=
    obind (surface_dim f) (fun dim => obind (surface_points_element f id0 id1) (fun pts =>
    if same_size dim pts then Ok (concat pts) else UB)).

  (** the Jacobian of a cell with this element as coordinate element, Cell.h:110-114 *)
  Definition surface_jacobian (f : surface) (id0 id1 : nat) (s t : R) : outcome jacobian :=
    obind (surface_node_values f id0 id1) (fun values =>
    obind (surface_shape junk1 junk2 junk3 1 f id0 id1 s t) (fun dN =>
    make_jacobian values (S (f_degree0 f) * S (f_degree1 f)) 2 dN)).

  (** Cell::Integrate of a function of the place, Cell.h:98-116, for the points and weights of an integration type *)
  Fixpoint surface_integrate (f : surface) (id0 id1 : nat) (g : list R -> R) (rule : list (R * R * R)) : outcome R :=
    match rule with
    | [] => Ok 0
    | (s, t, weight) :: rule' =>
      obind (surface_jacobian f id0 id1 s t) (fun j => obind (surface_interpolate junk1 junk2 junk3 garbage f id0 id1 s t) (fun x =>
      omap (fun rest => g x * jDet j * weight + rest) (surface_integrate f id0 id1 g rule')))
    end.
End IgaSurfaceCell.
