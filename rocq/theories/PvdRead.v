(** * Specification for C54: a reader of .pvd files, written without the writer
    A file is read character by character: tags between < and >, with a name and attributes key="value". *)
From Coq Require Import String Ascii List Arith.
Import ListNotations.
Local Open Scope char_scope.
Local Open Scope list_scope.

Definition quotation : ascii := ascii_of_nat 34.
Definition newline : ascii := ascii_of_nat 10.

(** the texts between < and >; only blanks and ends of lines may stand outside.  [inside]: what was read since < (reversed) *)
Fixpoint tags (inside : option (list ascii)) (s : list ascii) : option (list (list ascii)) :=
  match s, inside with
  | [], None => Some []
  | [], Some _ => None
  | c :: s', None => if Ascii.eqb c "<" then tags (Some []) s' else if orb (Ascii.eqb c newline) (Ascii.eqb c " ") then tags None s' else None
  | c :: s', Some t => if Ascii.eqb c ">" then option_map (cons (rev t)) (tags None s') else if Ascii.eqb c "<" then None else tags (Some (c :: t)) s'
  end.

(** attributes: blanks, key, =, quotation mark, value, quotation mark *)
Inductive place := Between | Key (k : list ascii) | Equals (k : list ascii) | Value (k v : list ascii).
Fixpoint attributes (p : place) (s : list ascii) : option (list (list ascii * list ascii)) :=
  match s, p with
  | [], Between => Some []
  | [], _ => None
  | c :: s', Between => if Ascii.eqb c " " then attributes Between s' else attributes (Key [c]) s'
  | c :: s', Key k => if Ascii.eqb c "=" then attributes (Equals (rev k)) s' else attributes (Key (c :: k)) s'
  | c :: s', Equals k => if Ascii.eqb c quotation then attributes (Value k []) s' else None
  | c :: s', Value k v => if Ascii.eqb c quotation then option_map (cons (k, rev v)) (attributes Between s') else attributes (Value k (c :: v)) s'
  end.
Fixpoint word (s : list ascii) : list ascii * list ascii :=
  match s with [] => ([], []) | c :: s' => if Ascii.eqb c " " then ([], s) else let (w, r) := word s' in (c :: w, r) end.

Inductive tag := Instruction (t : list ascii) | Opening (name : list ascii) (l : list (list ascii * list ascii)) | Closing (name : list ascii)
  | Element (name : list ascii) (l : list (list ascii * list ascii)).
Definition tag_of (t : list ascii) : option tag :=
  match t with
  | "?" :: _ => Some (Instruction t)
  | "/" :: n => Some (Closing n)
  | _ => match rev t with
         | "/" :: t' => let (n, r) := word (rev t') in option_map (Element n) (attributes Between r)
         | _ => let (n, r) := word t in option_map (Opening n) (attributes Between r)
         end
  end.
Fixpoint all_some {A} (l : list (option A)) : option (list A) :=
  match l with [] => Some [] | Some a :: l' => option_map (cons a) (all_some l') | None :: _ => None end.

(** the entries of a collection, as (time, file), up to the end of the file *)
Fixpoint data_sets (l : list tag) : option (list (list ascii * list ascii)) :=
  match l with
  | [Closing c; Closing v] => if andb (String.eqb (string_of_list_ascii c) "Collection") (String.eqb (string_of_list_ascii v) "VTKFile") then Some [] else None
  | Element n [(k1, t); (k2, f)] :: l' =>
    if andb (String.eqb (string_of_list_ascii n) "DataSet") (andb (String.eqb (string_of_list_ascii k1) "timestep") (String.eqb (string_of_list_ascii k2) "file"))
    then option_map (cons (t, f)) (data_sets l') else None
  | _ => None
  end.
Definition read_collection (s : list ascii) : option (list (list ascii * list ascii)) :=
  match tags None s with
  | None => None
  | Some ts =>
    match all_some (map tag_of ts) with
    | Some (Instruction i :: Opening v [(k, x)] :: Opening c [] :: l) =>
      if andb (String.eqb (string_of_list_ascii v) "VTKFile") (andb (String.eqb (string_of_list_ascii k) "type")
           (andb (String.eqb (string_of_list_ascii x) "Collection") (String.eqb (string_of_list_ascii c) "Collection"))) then data_sets l else None
    | _ => None
    end
  end.

(** a text that can stand between quotation marks *)
Definition quotable (s : list ascii) : Prop := ~ In "<" s /\ ~ In ">" s /\ ~ In quotation s.
