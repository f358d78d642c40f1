(** * Model of the moments of PostProcess::Plot at which the program may be killed

    The data of a stream reach the file in the order in which they were written, but how much of them has reached it when the
    program is killed is not known: every number of characters is possible (the buffers of the streams and of the system are
    not modelled otherwise).  Opening for writing alone (std::ofstream, std::fstream::out) empties the file. *)
From Coq Require Import String Ascii List Arith Reals.
From Verif Require Import PvdModel.
Import ListNotations.

Section Crash.
  Variable fmt : R -> text.

  (** the files while [data] are written to file [n], from position [p] of its content [base] *)
  Definition write_moments (f : text -> text -> option text) (d n : text) (base : text) (p : nat) (data : text)
    : list (text -> text -> option text) :=
    map (fun k => write_file f d n (write_at base p (firstn k data))) (seq 0 (S (length data))).

  (** AddToPvdFile, PostProcess.cpp:100-134: a new file gets header, entry and end; of an old one the end is overwritten *)
  Definition pvd_moments (f : text -> text -> option text) (d n : text) (vtu : text) (t : R) : list (text -> text -> option text) :=
    match f d n with
    | None => write_moments f d n [] 0 (pvd_begin ++ pvd_entry fmt vtu t ++ pvd_end)
    | Some c => if Nat.ltb (length c) (length pvd_end) then [f]
                else write_moments f d n c (length c - length pvd_end) (pvd_entry fmt vtu t ++ pvd_end)
    end.

  (** the loop of Plot, PostProcess.cpp:142-165 (see [plot_loop]): WriteVtuFile (XMLWriter.cpp:153), then AddToPvdFile *)
  Fixpoint plot_moments (d : text) (step : nat) (t : R) (out : text -> option text) (names : list text) (f : text -> text -> option text)
    : list (text -> text -> option text) :=
    match names with
    | [] => [f]
    | v :: names' =>
      match out v with
      | None => [f]
      | Some c =>
        let f1 := write_file f d (vtu_name v step) c in
        let f2 := write_file f1 d (pvd_name v) (add_to_pvd fmt (f1 d (pvd_name v)) (vtu_name v step) t) in
        [f] ++ write_moments f d (vtu_name v step) [] 0 c ++ pvd_moments f1 d (pvd_name v) (vtu_name v step) t ++ plot_moments d step t out names' f2
      end
    end.

  (** the files at all moments of a call of Plot; without result directory it throws *)
  Definition call_moments (s : pp) (t : R) (out : text -> option text) : list (text -> text -> option text) :=
    if Nat.eqb (length (pp_dir s)) 0 then [pp_files s]
    else plot_moments (pp_dir s) (pp_step s) t out (pp_names s) (pp_files s).
End Crash.
