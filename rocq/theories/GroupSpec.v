(** * What a user expects of a Group (specification for C01 and C02)

    [first_occurrences eq_dec l] keeps the first occurrence of each element of
    [l], in order.  Nothing here refers to the model. *)
From Coq Require Import List.
Import ListNotations.

Section Spec.
  Context {A : Type} (eq_dec : forall x y : A, {x = y} + {x <> y}).

  Definition mem (x : A) (l : list A) : bool := if in_dec eq_dec x l then true else false.

  (** elements of [l] that are not in [seen] and not repeated *)
  Fixpoint first_occ (seen l : list A) : list A :=
    match l with
    | [] => []
    | x :: l' => if in_dec eq_dec x seen then first_occ seen l'
                 else x :: first_occ (x :: seen) l'
    end.
  Definition first_occurrences (l : list A) : list A := first_occ [] l.
End Spec.
