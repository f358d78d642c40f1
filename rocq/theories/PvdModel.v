(** * Model of nuto/visualize/PostProcess.cpp

    A file is a list of characters.  The files of a result directory are a map from names to files; result directories are
    not nested in each other and names of visualizers contain no '/'.  What the visualizers write (a .vtu file) is an input
    of Plot: [Some] text, or [None] if a visualizer throws.  The formatting of the time (FormatTime, lines 86-93) is a
    function [fmt], [usable] says whether a directory can be created. *)
From Coq Require Import String Ascii List Arith Reals DecimalString.
Import ListNotations.
Local Open Scope string_scope.
Local Open Scope list_scope.

Definition text := list ascii.
Definition txt (s : string) : text := list_ascii_of_string s.
Definition text_eq_dec (a b : text) : {a = b} + {a <> b} := list_eq_dec ascii_dec a b.
(** std::to_string(mStep) *)
Definition digits (n : nat) : text := txt (NilEmpty.string_of_uint (Nat.to_uint n)).

(** the order of the keys of std::map<std::string, ...> *)
Fixpoint text_ltb (a b : text) : bool :=
  match a, b with
  | _, [] => false
  | [], _ => true
  | x :: a', y :: b' => if Nat.ltb (nat_of_ascii x) (nat_of_ascii y) then true
                        else if Nat.ltb (nat_of_ascii y) (nat_of_ascii x) then false else text_ltb a' b'
  end.
Fixpoint insert_name (n : text) (l : list text) : list text :=
  match l with [] => [n] | m :: l' => if text_ltb n m then n :: l else m :: insert_name n l' end.

Section Pvd.
  Variable fmt : R -> text.
  Variable usable : text -> bool.

  (** the file system and the members mResultDir, mStep and the keys of mVisualize, PostProcess.h:86-91 *)
  Record pp := mkPp { pp_dir : text; pp_step : nat; pp_names : list text; pp_files : text -> text -> option text }.

  (** [file.seekp(p); file << d] *)
  Definition write_at (c : text) (p : nat) (d : text) : text := firstn p c ++ d ++ skipn (p + length d) c.

  (** AddToPvdFile, PostProcess.cpp:100-134; seeking before the beginning fails, then nothing is written *)
  Definition nl : text := [ascii_of_nat 10].
  Definition quote_char : text := [ascii_of_nat 34].
  Definition pvd_end : text := txt "</Collection>" ++ nl ++ txt "</VTKFile>" ++ nl.
  Definition pvd_begin : text :=
    txt "<?xml version=" ++ quote_char ++ txt "1.0" ++ quote_char ++ txt "?>" ++ nl
    ++ txt "<VTKFile type=" ++ quote_char ++ txt "Collection" ++ quote_char ++ txt ">" ++ nl ++ txt "<Collection>" ++ nl.
  Definition pvd_entry (vtu : text) (t : R) : text :=
    txt "<DataSet timestep=" ++ quote_char ++ fmt t ++ quote_char ++ txt " file=" ++ quote_char ++ vtu ++ quote_char ++ txt "/>" ++ nl.
  Definition add_to_pvd (old : option text) (vtu : text) (t : R) : text :=
    match old with
    | None => pvd_begin ++ pvd_entry vtu t ++ pvd_end
    | Some c => if Nat.ltb (length c) (length pvd_end) then c else write_at c (length c - length pvd_end) (pvd_entry vtu t ++ pvd_end)
    end.

  Definition write_file (f : text -> text -> option text) (d n : text) (c : text) : text -> text -> option text :=
    fun d' n' => if text_eq_dec d' d then if text_eq_dec n' n then Some c else f d' n' else f d' n'.
  Definition pvd_name (v : text) : text := v ++ txt ".pvd".
  Definition vtu_name (v : text) (step : nat) : text := v ++ digits step ++ txt ".vtu".

  (** the loop of Plot, PostProcess.cpp:142-165: the files and whether it was finished *)
  Fixpoint plot_loop (d : text) (step : nat) (t : R) (out : text -> option text) (names : list text) (f : text -> text -> option text)
    : (text -> text -> option text) * bool :=
    match names with
    | [] => (f, true)
    | v :: names' =>
      match out v with
      | None => (f, false)
      | Some c =>
        let f := write_file f d (vtu_name v step) c in
        let f := write_file f d (pvd_name v) (add_to_pvd (f d (pvd_name v)) (vtu_name v step) t) in
        plot_loop d step t out names' f
      end
    end.

  Inductive call := ResultDirectory (d : text) | DefineVisualizer (v : text) | Plot (t : R) (out : text -> option text).
  (** ResultDirectory, lines 17-35; DefineVisualizer, lines 53-58; Plot, lines 136-167.  A call that throws changes nothing
      but the files that Plot has written before. *)
  Definition pp_call (s : pp) (c : call) : pp :=
    match c with
    | ResultDirectory d =>
      if orb (Nat.eqb (length d) 0) (negb (usable d)) then s
      else mkPp d (pp_step s) (pp_names s) (fun d' n => if text_eq_dec d' d then None else pp_files s d' n)
    | DefineVisualizer v =>
      if in_dec text_eq_dec v (pp_names s) then s else mkPp (pp_dir s) (pp_step s) (insert_name v (pp_names s)) (pp_files s)
    | Plot t out =>
      if Nat.eqb (length (pp_dir s)) 0 then s else
      let '(f, finished) := plot_loop (pp_dir s) (pp_step s) t out (pp_names s) (pp_files s) in
      mkPp (pp_dir s) (if finished then S (pp_step s) else pp_step s) (pp_names s) f
    end.
  (** a new PostProcess; [files] are the files before *)
  Definition pp_run (files : text -> text -> option text) (h : list call) : pp := fold_left pp_call h (mkPp [] 0 [] files).
End Pvd.
