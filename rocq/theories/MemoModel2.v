(** Model of nuto/math/NaturalCoordinateMemoizer.h with a function that may throw. *)
From Coq Require Import List Bool Arith.
From Verif Require Import Outcome AdaptiveModel MemoModel.
Import ListNotations.

Section Memo.
Context {V : Type}.
Variable g : coords -> outcome V.

(** Get, NaturalCoordinateMemoizer.h:48-66: mFunction(v) is evaluated before anything is emplaced.  Line 60: with OpenMP the
    evaluation is inside of a critical section, which an exception must not leave: the program ends ([UB]). *)
Definition get_may_throw (openmp : bool) (m : @memo V) (v : coords) : outcome (@memo V * nat) :=
  obind (map_find (cache m) v) (fun r =>
    match r with
    | Some n => Ok (m, addr n)
    | None =>
      match g v with
      | Ok y => obind (map_insert (cache m) (Node (next m) v y)) (fun x => Ok (Memo (fst x) (S (next m)) (calls m ++ [v]), addr (snd x)))
      | Throw => if openmp then UB else Throw
      | UB => UB
      end
    end).

(** a caller that catches the exceptions and goes on: what each request answers, [None] for an exception.  An exception leaves
    the memoizer as it was. *)
Fixpoint history_catching (openmp : bool) (m : @memo V) (vs : list coords) : outcome (@memo V * list (option V)) :=
  match vs with
  | [] => Ok (m, [])
  | v :: vs' =>
    match get_may_throw openmp m v with
    | Ok (m', a) => obind (deref m' a) (fun y => obind (history_catching openmp m' vs') (fun z => Ok (fst z, Some y :: snd z)))
    | Throw => obind (history_catching openmp m vs') (fun z => Ok (fst z, None :: snd z))
    | UB => UB
    end
  end.
End Memo.
