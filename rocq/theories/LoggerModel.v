(** * Model of nuto/base/Logger.h and Logger.cpp

    Console and files are the characters written to them.  The file system is a list of files with their contents; opening
    for writing fails for the names in [readonly].  Reading [t[t.size() - 1]] of an empty string is [UB]. *)
From Coq Require Import String Ascii List Bool.
From Verif Require Import Outcome TextModel.
Import ListNotations.

(** the members, Logger.h:56-63, and what has been written so far *)
Record logger := mkLogger { lg_prefix : text; lg_print : bool; lg_quiet : bool; lg_file : option string;
                            lg_console : text; lg_disk : list (string * text) }.

(** Logger::Logger, Logger.cpp:4-10 *)
Definition new_logger (prefix : text) (isQuiet : bool) (disk : list (string * text)) : logger := mkLogger prefix true isQuiet None [] disk.

Fixpoint append_to (f : string) (t : text) (d : list (string * text)) : list (string * text) :=
  match d with
  | [] => []
  | (g, c) :: d' => if (f =? g)%string then (g, c ++ t) :: d' else (g, c) :: append_to f t d'
  end.

(** Logger::Out with OptionalPrefix, Logger.h:29-44 and Logger.cpp:31-42 *)
Definition out (l : logger) (t : text) (withNewline : bool) : logger :=
  let optionalPrefix := if lg_print l then lg_prefix l else [] in
  mkLogger (lg_prefix l) withNewline (lg_quiet l) (lg_file l)
    (if lg_quiet l then lg_console l else lg_console l ++ optionalPrefix ++ t)
    (match lg_file l with Some f => append_to f (optionalPrefix ++ t) (lg_disk l) | None => lg_disk l end).

Definition ends_line (t : text) : outcome bool :=
  match t with [] => UB | _ => Ok (last t " "%char =? newline)%char end.

(** the calls a user can make; [Other] is the generic [operator<<] (numbers, matrices, ...) with the text that the object prints *)
Inductive call := PutChar (c : ascii) | PutString (t : text) | PutCString (t : text) | Other (t : text)
                | SetQuiet (b : bool) | OpenFile (f : string) | CloseFile.

Section Disk.
Variable readonly : string -> bool.
Definition drop_file (f : string) (d : list (string * text)) : list (string * text) := filter (fun p => negb (f =? fst p)%string) d.
(** Logger.h:67-72, Logger.cpp:12-30 and 48-65; ofstream::open empties the file; the state after a refused OpenFile is not modelled *)
Definition step (l : logger) (c : call) : outcome logger :=
  match c with
  | PutChar c => Ok (out l [c] (c =? newline)%char)
  | PutString t | PutCString t => omap (out l t) (ends_line t)
  | Other t => Ok (out l t false)
  | SetQuiet b => Ok (mkLogger (lg_prefix l) (lg_print l) b (lg_file l) (lg_console l) (lg_disk l))
  | OpenFile f => if readonly f then Throw
                  else Ok (mkLogger (lg_prefix l) (lg_print l) (lg_quiet l) (Some f) (lg_console l) ((f, []) :: drop_file f (lg_disk l)))
  | CloseFile => Ok (mkLogger (lg_prefix l) (lg_print l) (lg_quiet l) None (lg_console l) (lg_disk l))
  end.
Fixpoint run (l : logger) (cs : list call) : outcome logger :=
  match cs with [] => Ok l | c :: cs' => obind (step l c) (fun l' => run l' cs') end.
End Disk.
