(** * The collections of a post process, independent of the files *)
From Coq Require Import String Ascii List Arith Reals.
From Verif Require Import PvdModel.
Import ListNotations.

(** an entry of a collection: number of the step, time, content of the result file *)
Record entry := mkEntry { e_step : nat; e_time : R; e_content : text }.
Record log := mkLog { l_dir : text; l_step : nat; l_names : list text; l_entries : text -> text -> list entry }.

Section Spec.
  Variable usable : text -> bool.

  (** the visualizers that are plotted: all before the first that throws *)
  Fixpoint plotted (out : text -> option text) (names : list text) : list (text * text) :=
    match names with [] => [] | v :: l => match out v with Some c => (v, c) :: plotted out l | None => [] end end.
  Definition log_call (s : log) (c : call) : log :=
    match c with
    | ResultDirectory d => if orb (Nat.eqb (length d) 0) (negb (usable d)) then s
        else mkLog d (l_step s) (l_names s) (fun d' v => if text_eq_dec d' d then [] else l_entries s d' v)
    | DefineVisualizer v => if in_dec text_eq_dec v (l_names s) then s else mkLog (l_dir s) (l_step s) (insert_name v (l_names s)) (l_entries s)
    | Plot t out => if Nat.eqb (length (l_dir s)) 0 then s else
        let done := plotted out (l_names s) in
        mkLog (l_dir s) (if Nat.eqb (length done) (length (l_names s)) then S (l_step s) else l_step s) (l_names s)
          (fun d v => l_entries s d v ++ if text_eq_dec d (l_dir s) then
             map (fun p => mkEntry (l_step s) t (snd p)) (filter (fun p => if text_eq_dec (fst p) v then true else false) done) else [])
    end.
  Definition log_run (h : list call) : log := fold_left log_call h (mkLog [] 0 [] (fun _ _ => [])).

  (** the directories that were used *)
  Definition used (h : list call) (d : text) : Prop := In (ResultDirectory d) h /\ d <> [] /\ usable d = true.
End Spec.

(** a complete collection *)
Definition collection (fmt : R -> text) (v : text) (l : list entry) : text :=
  pvd_begin ++ flat_map (fun e => pvd_entry fmt (vtu_name v (e_step e)) (e_time e)) l ++ pvd_end.

Definition is_digit (a : ascii) : Prop := 48 <= nat_of_ascii a <= 57.
(** no Plot call throws *)
Definition no_failure (c : call) : Prop := match c with Plot _ out => forall v, out v <> None | _ => True end.
