(** * Specification for C100 - C103 *)
From Coq Require Import String Ascii List Arith ZArith Reals.
From Verif Require Import RSum ToolsModel.
Import ListNotations.
Local Open Scope R_scope.

(** arithmetic mean *)
Definition mean (xs : list Z) : R := rlsum (map IZR xs) / INR (length xs).

(** one output of a timer: its text, and the wall and CPU time it reports *)
Record report := { r_msg : string; r_wall : R; r_cpu : R }.
(** the reports a user expects: each operation, and the end of the life, reports the time since the previous one under the
    message that was current in between *)
Fixpoint expected (msg : string) (wall0 cpu0 : R) (ops : list timer_op) (wall1 cpu1 : R) : list report :=
  match ops with
  | [] => [{| r_msg := msg; r_wall := wall1 - wall0; r_cpu := cpu1 - cpu0 |}]
  | Reset w c :: ops' => {| r_msg := msg; r_wall := w - wall0; r_cpu := c - cpu0 |} :: expected msg w c ops' wall1 cpu1
  | ResetMsg w c msg' :: ops' => {| r_msg := msg; r_wall := w - wall0; r_cpu := c - cpu0 |} :: expected msg' w c ops' wall1 cpu1
  end.
(** line [s] shows the report: message in brackets, dots, time, newline; the time ends in column 90 unless the text is longer *)
Definition shows (timing : R -> R -> string) (r : report) (s : string) : Prop :=
  exists k, s = ("[" ++ r_msg r ++ "]" ++ dots k ++ timing (r_wall r) (r_cpu r) ++ newline)%string /\
    String.length s = (Nat.max 90 (String.length (r_msg r) + String.length (timing (r_wall r) (r_cpu r)) + 2) + 1)%nat.

(** the documentation of EigenSparseSolve.h:13-34: names, classes, and the library they need *)
Inductive library := BuiltIn | NeedsSuiteSparse | NeedsMumps.
Definition documented : list (string * Backend * library) :=
  [("EigenSparseLU", SparseLU, BuiltIn); ("EigenSparseQR", SparseQR, BuiltIn); ("EigenSimplicialLLT", SimplicialLLT, BuiltIn);
   ("EigenSimplicialLDLT", SimplicialLDLT, BuiltIn); ("EigenConjugateGradient", ConjugateGradient, BuiltIn);
   ("EigenLeastSquaresConjugateGradient", LeastSquaresConjugateGradient, BuiltIn); ("EigenBiCGSTAB", BiCGSTAB, BuiltIn);
   ("SuiteSparseLU", UmfPackLU, NeedsSuiteSparse); ("SuiteSparseSupernodalLLT", CholmodSupernodalLLT, NeedsSuiteSparse);
   ("MumpsLU", MUMPSLU, NeedsMumps); ("MumpsLDLT", MUMPSLDLT, NeedsMumps)]%string.
Definition available (haveSuiteSparse haveMumps : bool) (l : library) : bool :=
  match l with BuiltIn => true | NeedsSuiteSparse => haveSuiteSparse | NeedsMumps => haveMumps end.
