(** * Outcomes of a C++ call: normal return, exception, undefined behaviour *)
Inductive outcome (A : Type) := Ok (a : A) | Throw | UB.
Arguments Ok {A} _. Arguments Throw {A}. Arguments UB {A}.

Definition obind {A B} (x : outcome A) (f : A -> outcome B) : outcome B :=
  match x with Ok a => f a | Throw => Throw | UB => UB end.
Definition omap {A B} (f : A -> B) (x : outcome A) : outcome B := obind x (fun a => Ok (f a)).
