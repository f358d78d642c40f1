(** * What a user of the visualization expects, independent of its implementation *)
From Coq Require Import String List ZArith Arith Reals.
From Verif Require Import Outcome GridModel.
Import ListNotations.
Local Open Scope Z_scope.

(** ** C52: histories of calls *)
Definition is_add_point (o : gop) : bool := match o with AddPoint _ => true | _ => false end.
Definition num_points (h : list gop) : Z := Z.of_nat (length (filter is_add_point h)).
(** the cells of a history: an AddCell is accepted if its points exist; [n] points exist before the history *)
Fixpoint accepted_cells (n : Z) (h : list gop) : list (list Z * Z) :=
  match h with
  | [] => []
  | AddPoint _ :: h' => accepted_cells (n + 1) h'
  | AddCell ids t :: h' => (if forallb (fun id => Z.ltb id n) ids then [(ids, t)] else []) ++ accepted_cells n h'
  | _ :: h' => accepted_cells n h'
  end.
Definition point_names (h : list gop) : list string := flat_map (fun o => match o with DefinePointData n => [n] | _ => [] end) h.
Definition cell_names (h : list gop) : list string := flat_map (fun o => match o with DefineCellData n => [n] | _ => [] end) h.
Definition num_cells (h : list gop) : Z := Z.of_nat (length (accepted_cells 0 h)).

(** calls that respect the preconditions: at most three coordinates, data only for existing points and cells *)
Definition call_ok (h : list gop) (o : gop) : Prop :=
  match o with
  | AddPoint c => (length c <= 3)%nat
  | SetPointData id _ _ => 0 <= id < num_points h
  | SetCellData id _ _ => 0 <= id < num_cells h
  | _ => True
  end.
Definition history_ok (h : list gop) : Prop := forall h1 o h2, h = h1 ++ o :: h2 -> call_ok h1 o.

(** no later call of the history stores data for this point (cell) and name *)
Definition no_point_set (id : Z) (n : string) (h : list gop) : Prop := forall v, ~ In (SetPointData id n v) h.
Definition no_cell_set (id : Z) (n : string) (h : list gop) : Prop := forall v, ~ In (SetCellData id n v) h.

(** ** C53: the appended section *)
(** the number of the first [n] bytes, little endian *)
Fixpoint number (n : nat) (l : list Z) : Z := match n, l with S n', b :: l' => b + 256 * number n' l' | _, _ => 0 end.
(** the block at a position: its announced length, and as many bytes after it *)
Definition block (section : list Z) (pos : Z) : Z * list Z :=
  let len := number 8 (skipn (Z.to_nat pos) section) in
  (len, firstn (Z.to_nat len) (skipn (Z.to_nat pos + 8) section)).
Definition array_bytes (a : darray) : list Z := List.concat (da_items a).
Definition well_sized (a : darray) : Prop := forall i, In i (da_items a) -> length i = da_size a.
Definition total (l : list darray) : Z := fold_right (fun a s => 8 + Z.of_nat (length (array_bytes a)) + s) 0 l.

(** the cells that a reader of VTK's format gets from the connectivity, the offsets and the types: the points of a cell are
    between the offset of the cell before and its own *)
Fixpoint vtk_cells (from : Z) (connectivity offsets types : list Z) : list (list Z * Z) :=
  match offsets, types with
  | o :: offsets', t :: types' =>
    (firstn (Z.to_nat (o - from)) (skipn (Z.to_nat from) connectivity), t) :: vtk_cells o connectivity offsets' types'
  | _, _ => []
  end.
(** the numbers of [n] bytes in a block, one after the other; [k] bounds their count *)
Fixpoint numbers (k n : nat) (l : list Z) : list Z :=
  match k, l with
  | S k', _ :: _ => number n l :: numbers k' n (skipn n l)
  | _, _ => []
  end.
(** the grid that a reader finds in a file: after the data of the points and of the cells come the coordinates and the cells; the
    array is looked up by its name, the position of its block is the offset in its header *)
Definition array_named (name : string) (hs : list header) (section : list Z) : option (list Z) :=
  option_map (fun h => snd (block section (h_offset h))) (find (fun h => String.eqb (h_name h) name) hs).
Definition read_numbers (n : nat) (bytes : list Z) : list Z := numbers (length bytes) n bytes.
Definition read_cells (hs : list header) (section : list Z) : option (list (list Z * Z)) :=
  match array_named "connectivity" hs section, array_named "offsets" hs section, array_named "types" hs section with
  | Some c, Some o, Some t => Some (vtk_cells 0 (read_numbers 4 c) (read_numbers 4 o) (read_numbers 1 t))
  | _, _, _ => None
  end.
