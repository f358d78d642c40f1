(** * Model of nuto/visualize: UnstructuredGrid, Point, Cell, DataArray, XMLWriter

    Simplifications: [double] is modelled by the reals, [float] data by its four bytes, given by a function [enc_float];
    only the binary format is modelled; the text between the data arrays of the file is left out, a header of a data array
    is its name, number of components and offset.  [int] and [std::size_t] have 32 and 64 bits. *)
From Coq Require Import String List ZArith Arith Reals.
From Verif Require Import Outcome.
Import ListNotations.
Local Open Scope Z_scope.

(** Point.h:11-38, Cell.h:12-46, UnstructuredGrid.h:78-92; VisualizeEnum.h: a cell type by its number in VTK *)
Record vpoint := mkPoint { p_coords : list R; p_data : list (list R) }.
Record vcell := mkCell { c_ids : list Z; c_type : Z; c_data : list (list R) }.
Record grid := mkGrid { g_points : list vpoint; g_cells : list vcell; g_pnames : list string; g_cnames : list string }.
Definition grid_empty : grid := mkGrid [] [] [] [].

(** EigenCompanion::To3D, EigenCompanion.h:16-22: more than three components are out of range *)
Definition to3d (c : list R) : outcome (list R) :=
  if Nat.leb (length c) 3 then Ok (c ++ repeat 0%R (3 - length c)) else UB.

(** Point::SetData, Point.cpp:11-16, and Cell::SetData, Cell.cpp:39-44 *)
Definition set_data (data : list (list R)) (i : nat) (v : list R) : list (list R) :=
  let data' := if Nat.leb (length data) i then data ++ repeat [] (S i - length data) else data in
  firstn i data' ++ v :: skipn (S i) data'.

(** AddPoint, UnstructuredGrid.cpp:13-17 *)
Definition add_point (g : grid) (c : list R) : outcome (grid * Z) :=
  obind (to3d c) (fun c' =>
    let ps := g_points g ++ [mkPoint c' []] in
    Ok (mkGrid ps (g_cells g) (g_pnames g) (g_cnames g), Z.of_nat (length ps) - 1)).
(** CheckPoints, UnstructuredGrid.cpp:27-32, and AddCell, lines 19-24 *)
Definition check_points (g : grid) (ids : list Z) : bool := forallb (fun id => negb (Z.geb id (Z.of_nat (length (g_points g))))) ids.
Definition add_cell (g : grid) (ids : list Z) (type : Z) : outcome (grid * Z) :=
  if check_points g ids then
    let cs := g_cells g ++ [mkCell ids type []] in
    Ok (mkGrid (g_points g) cs (g_pnames g) (g_cnames g), Z.of_nat (length cs) - 1)
  else Throw.
(** DefinePointData, DefineCellData, UnstructuredGrid.cpp:34-48 *)
Definition add_name (names : list string) (n : string) : list string := if existsb (String.eqb n) names then names else names ++ [n].
Definition define_point_data (g : grid) (n : string) : grid := mkGrid (g_points g) (g_cells g) (add_name (g_pnames g) n) (g_cnames g).
Definition define_cell_data (g : grid) (n : string) : grid := mkGrid (g_points g) (g_cells g) (g_pnames g) (add_name (g_cnames g) n).
(** GetPointDataIndex, GetCellDataIndex, UnstructuredGrid.cpp:70-84 *)
Fixpoint index_of (names : list string) (n : string) : outcome nat :=
  match names with [] => Throw | m :: l => if String.eqb m n then Ok O else omap S (index_of l n) end.
(** [v[i]] of a vector *)
Definition at_index {A} (l : list A) (i : Z) : outcome A :=
  if Z.ltb i 0 then UB else match nth_error l (Z.to_nat i) with Some a => Ok a | None => UB end.
Definition replace_at {A} (l : list A) (i : Z) (a : A) : list A := firstn (Z.to_nat i) l ++ a :: skipn (S (Z.to_nat i)) l.
(** SetPointData, SetCellData, UnstructuredGrid.cpp:50-68 *)
Definition set_point_data (g : grid) (id : Z) (n : string) (v : list R) : outcome grid :=
  obind (at_index (g_points g) id) (fun p => obind (index_of (g_pnames g) n) (fun k =>
    Ok (mkGrid (replace_at (g_points g) id (mkPoint (p_coords p) (set_data (p_data p) k v))) (g_cells g) (g_pnames g) (g_cnames g)))).
Definition set_cell_data (g : grid) (id : Z) (n : string) (v : list R) : outcome grid :=
  obind (at_index (g_cells g) id) (fun c => obind (index_of (g_cnames g) n) (fun k =>
    Ok (mkGrid (g_points g) (replace_at (g_cells g) id (mkCell (c_ids c) (c_type c) (set_data (c_data c) k v))) (g_pnames g) (g_cnames g)))).

(** Point::GetData, Point.cpp:23-26: unchecked; Cell::GetData, Cell.cpp:32-37: checked *)
Definition point_get (p : vpoint) (k : nat) : outcome (list R) := match nth_error (p_data p) k with Some v => Ok v | None => UB end.
Definition cell_get (c : vcell) (k : nat) : outcome (list R) := match nth_error (c_data c) k with Some v => Ok v | None => Throw end.
(** the data of a point or cell, as the writer gets it, XMLWriter.cpp:144-150 *)
Definition point_data (g : grid) (id : Z) (n : string) : outcome (list R) :=
  obind (index_of (g_pnames g) n) (fun k => obind (at_index (g_points g) id) (fun p => point_get p k)).
Definition cell_data (g : grid) (id : Z) (n : string) : outcome (list R) :=
  obind (index_of (g_cnames g) n) (fun k => obind (at_index (g_cells g) id) (fun c => cell_get c k)).

(** a call of the interface with its result; after an exception the grid is unchanged *)
Inductive gop := AddPoint (c : list R) | AddCell (ids : list Z) (type : Z) | DefinePointData (n : string) | DefineCellData (n : string)
  | SetPointData (id : Z) (n : string) (v : list R) | SetCellData (id : Z) (n : string) (v : list R).
Definition grid_call (g : grid) (o : gop) : outcome (grid * option Z) :=
  match o with
  | AddPoint c => omap (fun '(g', i) => (g', Some i)) (add_point g c)
  | AddCell ids t => omap (fun '(g', i) => (g', Some i)) (add_cell g ids t)
  | DefinePointData n => Ok (define_point_data g n, None)
  | DefineCellData n => Ok (define_cell_data g n, None)
  | SetPointData id n v => omap (fun g' => (g', None)) (set_point_data g id n v)
  | SetCellData id n v => omap (fun g' => (g', None)) (set_cell_data g id n v)
  end.
Definition grid_step (g : grid) (o : gop) : outcome grid :=
  match grid_call g o with Ok (g', _) => Ok g' | Throw => Ok g | UB => UB end.
Definition grid_run (h : list gop) : outcome grid := fold_left (fun x o => obind x (fun g => grid_step g o)) h (Ok grid_empty).

(** ** XMLWriter *)

(** TransformData, XMLWriter.cpp:48-60: [std::swap(data[3], data[5]); std::swap(data[4], data[5])] *)
Definition swap {A} (l : list A) (i j : nat) : list A :=
  match nth_error l i, nth_error l j with
  | Some a, Some b => firstn j (firstn i l ++ b :: skipn (S i) l) ++ a :: skipn (S j) l
  | _, _ => l
  end.
Definition transform_data (data : list R) : list R :=
  if Nat.eqb (length data) 6 then swap (swap data 3 5) 4 5 else data.

(** the bytes of an unsigned number of n bytes, little endian *)
Fixpoint le (n : nat) (z : Z) : list Z := match n with O => [] | S n' => (z mod 256) :: le n' (z / 256) end.

(** conversion to [int] *)
Definition wrap32 (z : Z) : Z := (z + 2 ^ 31) mod 2 ^ 32 - 2 ^ 31.
Definition fits32 (z : Z) : bool := andb (Z.leb (- 2 ^ 31) z) (Z.ltb z (2 ^ 31)).

(** DataArray, DataArray.h:46-49; each item as its bytes, [da_size] = sizeof(TDataType) *)
Record darray := mkArray { da_name : string; da_comps : Z; da_size : nat; da_items : list (list Z) }.
(** Offset, DataArray.cpp:48-51 *)
Definition array_offset (a : darray) : Z := wrap32 (8 + Z.of_nat (da_size a) * Z.of_nat (length (da_items a))).
(** WriteBinaryHeader, DataArray.cpp:83-92; [*offset += Offset()] must not overflow *)
Record header := mkHeader { h_name : string; h_comps : Z; h_offset : Z }.
Fixpoint write_headers (offset : Z) (l : list darray) : outcome (list header) :=
  match l with
  | [] => Ok []
  | a :: l' =>
    let offset' := offset + array_offset a in
    if fits32 offset' then omap (cons (mkHeader (da_name a) (da_comps a) offset)) (write_headers offset' l') else UB
  end.
(** WriteBinaryData, DataArray.cpp:94-100; [const uint64_t size = Offset() - 8] *)
Definition write_data (a : darray) : outcome (list Z) :=
  let size := array_offset a - 8 in
  if fits32 size then Ok (le 8 (size mod 2 ^ 64) ++ concat (da_items a)) else UB.
Fixpoint write_all (l : list darray) : outcome (list Z) :=
  match l with [] => Ok [] | a :: l' => obind (write_data a) (fun d => omap (app d) (write_all l')) end.

Section Export.
  Variable enc_float : R -> list Z.

  (** ExtractData, XMLWriter.cpp:65-80; the first item of an empty container does not exist; a failed assert is [UB] *)
  Fixpoint extract_items (n : nat) (l : list (outcome (list R))) : outcome (list (list Z)) :=
    match l with
    | [] => Ok []
    | d :: l' => obind d (fun v => if Nat.eqb (length (transform_data v)) n
        then omap (app (map enc_float (transform_data v))) (extract_items n l') else UB)
    end.
  Definition extract_data (l : list (outcome (list R))) (name : string) : outcome darray :=
    match l with
    | [] => UB
    | d :: _ => obind d (fun v => omap (mkArray name (Z.of_nat (length v)) 4) (extract_items (length v) l))
    end.
  Fixpoint extract_all (get : nat -> list (outcome (list R))) (all names : list string) : outcome (list darray) :=
    match names with
    | [] => Ok []
    | n :: l => obind (index_of all n) (fun k => obind (extract_data (get k) n) (fun a => omap (cons a) (extract_all get all l)))
    end.

  (** ExtractCoordinates, XMLWriter.cpp:82-94 *)
  Definition coordinates_array (ps : list vpoint) : darray :=
    mkArray "points" 3 4 (flat_map (fun p => map enc_float (p_coords p)) ps).

  (** ExtractCellInfos, XMLWriter.cpp:104-127; [unsigned] and [uint8_t] wrap *)
  Definition u32 (z : Z) : list Z := le 4 (z mod 2 ^ 32).
  Definition u8 (z : Z) : list Z := le 1 (z mod 2 ^ 8).
  Fixpoint cell_offsets (offset : Z) (cs : list vcell) : list Z :=
    match cs with [] => [] | c :: cs' => let o := (offset + Z.of_nat (length (c_ids c))) mod 2 ^ 32 in o :: cell_offsets o cs' end.
  Definition connectivity_array (cs : list vcell) : darray := mkArray "connectivity" 0 4 (map u32 (flat_map c_ids cs)).
  Definition offsets_array (cs : list vcell) : darray := mkArray "offsets" 0 4 (map u32 (cell_offsets 0 cs)).
  Definition types_array (cs : list vcell) : darray := mkArray "types" 0 1 (map (fun c => u8 (c_type c)) cs).

  (** Export, XMLWriter.cpp:138-206: the arrays in the order of both the headers and the appended data *)
  Definition export_arrays (g : grid) : outcome (list darray) :=
    obind (extract_all (fun k => map (fun p => point_get p k) (g_points g)) (g_pnames g) (g_pnames g)) (fun pd =>
    obind (extract_all (fun k => map (fun c => cell_get c k) (g_cells g)) (g_cnames g) (g_cnames g)) (fun cd =>
    Ok (pd ++ cd ++ [coordinates_array (g_points g); connectivity_array (g_cells g); offsets_array (g_cells g); types_array (g_cells g)]))).
  Definition export (g : grid) : outcome (list header * list Z) :=
    obind (export_arrays g) (fun l => obind (write_headers 0 l) (fun hs => omap (pair hs) (write_all l))).
End Export.
