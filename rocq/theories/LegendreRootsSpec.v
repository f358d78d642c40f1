(** * Specification for C107 *)
From Coq Require Import List Reals.
Import ListNotations.
Local Open Scope R_scope.

(** strictly ascending lists *)
Definition ascending (l : list R) : Prop := forall i j, (i < j < length l)%nat -> nth i l 0 < nth j l 0.
(** the complete list of the real zeros of a function, in ascending order *)
Definition zeros_of (f : R -> R) (l : list R) : Prop := ascending l /\ forall x, In x l <-> f x = 0.
