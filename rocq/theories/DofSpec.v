(** * Specifications for C07-C09 *)
From Coq Require Import List ZArith Arith Bool Sorted.
From Verif Require Import Algebra DofModel.
Import ListNotations.

(** C07: a finite map is a function to [option]. *)
Section Map.
  Context {V : Type} (default : V).
  Definition fmap := Z -> option V.
  Definition fset (f : fmap) (k : Z) (v : V) : fmap := fun k' => if Z.eqb k' k then Some v else f k'.

  Definition abs_step (f : fmap) (o : @dc_op V) : fmap * @dc_out V :=
    match o with
    | DcIndex d => match f d with Some v => (f, OVal v) | None => (fset f d default, OVal default) end
    | DcIndexAssign d v => (fset f d v, OUnit)
    | DcAt d | DcConstIndex d => (f, match f d with Some v => OVal v | None => OThrow end)
    | DcAtAssign d v => match f d with Some _ => (fset f d v, OUnit) | None => (f, OThrow) end
    | DcInsert d v => match f d with Some _ => (f, OThrow) | None => (fset f d v, OUnit) end
    | DcHas d => (f, OBool (match f d with Some _ => true | None => false end))
    end.
  Fixpoint abs_run (f : fmap) (ops : list (@dc_op V)) : fmap * list (@dc_out V) :=
    match ops with
    | [] => (f, [])
    | o :: ops' => let (f1, r) := abs_step f o in let (f2, rs) := abs_run f1 ops' in (f2, r :: rs)
    end.
End Map.

(** C08: the value of component [i] of dof [d]; a missing block counts as zero. *)
Definition val {F : CRing} (v : dofvec F) (d : Z) (i : nat) : F :=
  match mfind lt_dof d v with Some b => nth i b r0 | None => r0 end.

(** keys in strictly ascending order, as every std::map has *)
Definition ascending {B} (v : list (Z * B)) : Prop := StronglySorted Z.lt (map fst v).

(** blocks present in both have the same size *)
Definition compatible {F : CRing} (a b : dofvec F) : Prop :=
  forall d x y, mfind lt_dof d a = Some x -> mfind lt_dof d b = Some y -> length x = length y.

(** the stored sizes: those of [a], and those of [b] where [a] has no block *)
Definition size_of {F : CRing} (v : dofvec F) (d : Z) : option nat :=
  option_map (@length F) (mfind lt_dof d v).

(** C09: row/column offset of the [n]-th dof type in the combined matrix/vector *)
Section Offsets.
  Context {F : CRing}.
  Definition offset (dim : Z -> nat) (dofs : list Z) (n : nat) : nat :=
    fold_right Nat.add 0 (map dim (firstn n dofs)).

  (** block shapes fit together: block (a,b) has as many rows as the diagonal
      block a and as many columns as the diagonal block b *)
  Definition shapes_fit (K : dofmat F) (dofs : list Z) (rdim cdim : Z -> nat) : Prop :=
    forall a b, In a dofs -> In b dofs ->
      exists m, mat_at K a b = Some m /\ srows m = rdim a /\ scols m = cdim b /\ in_range m.
End Offsets.
