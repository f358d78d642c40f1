(** * Model of nuto/mechanics/mesh/MeshFemDofConvert.cpp: AddDofInterpolation with its spatial hashing

    Simplifications: [double] is modelled by the reals; int overflow in the box number (SubBoxes::Index) is not
    modelled, the conversion of a double to int is. *)
From Coq Require Import List ZArith Arith Reals.
From Flocq Require Import Core.Raux.
From Verif Require Import Outcome AdaptiveModel CellModel MeshModel.
Import ListNotations.
Local Open Scope R_scope.

Definition p3 := (R * R * R)%type.
Definition px (p : p3) : R := fst (fst p).
Definition py (p : p3) : R := snd (fst p).
Definition pz (p : p3) : R := snd p.

(** EigenCompanion::To3D, EigenCompanion.h:16-22: more than three rows write out of range *)
Definition to3d (l : list R) : outcome p3 :=
  match l with
  | [] => Ok (0, 0, 0)
  | [x] => Ok (x, 0, 0)
  | [x; y] => Ok (x, y, 0)
  | [x; y; z] => Ok (x, y, z)
  | _ => UB
  end.

(** [(a - b).squaredNorm()] *)
Definition sqnorm_diff (a b : p3) : R :=
  (px a - px b) * (px a - px b) + (py a - py b) * (py a - py b) + (pz a - pz b) * (pz a - pz b).

(** [int i = x]: the fraction is cut off; undefined if the result does not fit *)
Definition to_int (x : R) : outcome Z :=
  let t := Ztrunc x in
  if andb (Z.leb (- 2147483648) t) (Z.ltb t 2147483648) then Ok t else UB.

(** SubBoxes::Domain, MeshFemDofConvert.cpp:13-26, and mDelta, line 32 *)
Record domain := mkDomain { dstart : p3; dend : p3; dsubs : Z * Z * Z; radius2 : R }.
Definition delta (d : domain) : p3 :=
  let '(sx, sy, sz) := dsubs d in
  ((px (dend d) - px (dstart d)) / IZR sx, (py (dend d) - py (dstart d)) / IZR sy, (pz (dend d) - pz (dstart d)) / IZR sz).
Definition num_boxes (d : domain) : Z := let '(sx, sy, sz) := dsubs d in (sx * sy * sz)%Z.

(** mData: the entries of each box, an entry is a NodePoint (position and node), lines 93-106 *)
Definition boxes := Z -> list (p3 * Z).

(** the constructor, lines 28-37 *)
Definition make_boxes (d : domain) : outcome boxes :=
  let m := Rmin (px (delta d)) (Rmin (py (delta d)) (pz (delta d))) in
  if rltb (m * m) (radius2 d) then Throw else Ok (fun _ => []).

(** the three box coordinates of a point, lines 52-54 and 81-83 *)
Definition box_of (d : domain) (p : p3) : outcome (Z * Z * Z) :=
  obind (to_int ((px p - px (dstart d)) / px (delta d))) (fun i =>
  obind (to_int ((py p - py (dstart d)) / py (delta d))) (fun j =>
  obind (to_int ((pz p - pz (dstart d)) / pz (delta d))) (fun k => Ok (i, j, k)))).

(** SubBoxes::Index(i, j, k), lines 87-90 *)
Definition box_index (d : domain) (i j k : Z) : Z :=
  let '(sx, sy, _) := dsubs d in (i + j * sx + k * sy * sx)%Z.

(** SubBoxes::Add, lines 40-43: [std::vector::at] throws if the index is out of range *)
Definition box_add (d : domain) (b : boxes) (e : p3 * Z) : outcome boxes :=
  obind (box_of d (fst e)) (fun '(i, j, k) =>
    let n := box_index d i j k in
    if andb (Z.leb 0 n) (Z.ltb n (num_boxes d))
    then Ok (fun m => if Z.eqb m n then b m ++ [e] else b m) else Throw).

(** SubBoxes::FindAt, lines 50-76 *)
Definition find_at (d : domain) (b : boxes) (coords : p3) : outcome (option (p3 * Z)) :=
  let '(sx, sy, sz) := dsubs d in
  obind (box_of d coords) (fun '(i, j, k) =>
    find_first [k; k - 1; k + 1]%Z (fun kk =>
      find_first [j; j - 1; j + 1]%Z (fun jj =>
        find_first [i; i - 1; i + 1]%Z (fun ii =>
          if orb (Z.ltb ii 0) (Z.leb sx ii) then Ok None
          else if orb (Z.ltb jj 0) (Z.leb sy jj) then Ok None
          else if orb (Z.ltb kk 0) (Z.leb sz kk) then Ok None
          else find_first (b (box_index d ii jj kk)) (fun e =>
                 Ok (if rltb (sqnorm_diff (fst e) coords) (radius2 d) then Some e else None)))))).

(** coefficientwise minimum and maximum *)
Definition vmin (a b : list R) : list R := map (fun xy => Rmin (fst xy) (snd xy)) (combine a b).
Definition vmax (a b : list R) : list R := map (fun xy => Rmax (fst xy) (snd xy)) (combine a b).
Definition add_const (p : p3) (c : R) : p3 := (px p + c, py p + c, pz p + c).

Section DofConvert.
  Variables (garbage : mfun) (values : Z -> list R).

  (** SetupSubBoxDomain, lines 108-139 *)
  Definition setup_domain (elements : list collection) (numBoxes : Z) (eps : R) : outcome domain :=
    match elements with
    | [] => UB
    | c0 :: _ =>
      obind (get_node (ecoord c0) 0) (fun n0 =>
      obind (for_each elements (fun se c =>
        for_each (seq 0 (length (enodes (ecoord c)))) (fun '(s, e) i =>
          obind (get_node (ecoord c) i) (fun n =>
            if Nat.eqb (length s) (length (values n)) then Ok (vmin s (values n), vmax e (values n)) else UB)) se)
        (values n0, values n0)) (fun '(s, e) =>
      obind (to3d s) (fun s3 => obind (to3d e) (fun e3 =>
      let dim := length s in
      let sub := fun i => if Nat.ltb i dim then numBoxes else 1%Z in
      Ok (mkDomain (add_const s3 (- eps)) (add_const e3 eps) (sub 0%nat, sub 1%nat, sub 2%nat) (eps * eps))))))
    end.

  (** NodePointsTotal, lines 142-162 *)
  Definition node_points_total (elements : list collection) (dof : Z) : outcome (list (p3 * Z)) :=
    for_each elements (fun acc c =>
      match edof c dof with
      | None => Ok acc
      | Some de =>
        for_each (seq 0 (length (enodes de))) (fun acc i =>
          obind (interpolate garbage values (ecoord c) (ilocal (einterp de) i)) (fun x =>
          obind (to3d x) (fun p =>
          obind (get_node de i) (fun n => Ok (acc ++ [(p, n)]))))) acc
      end) [].

  (** the sub boxes, the address of the next new node, the elements of the mesh *)
  Record dstate := mkDstate { dboxes : boxes; dnext : Z; delems : list collection }.

  (** ElementCollection::AddDofElement, ElementCollection.h:46-55 with DofContainer::Insert, which throws if the dof
      type is already there (C07) *)
  Definition add_dof_element (dof : Z) (c : collection) (e : element) : outcome collection :=
    match edof c dof with
    | Some _ => Throw
    | None => Ok (mkCollection (ecoord c) (fun d => if Z.eqb d dof then Some e else edof c d))
    end.

  Definition replace_nth {A} (l : list A) (i : nat) (a : A) : list A := firstn i l ++ a :: skipn (S i) l.

  (** the loop over the interpolation points of an element, lines 192-207 *)
  Definition find_or_create (d : domain) (ce : element) (ip : interp) (acc : boxes * Z * list Z) (i : nat)
    : outcome (boxes * Z * list Z) :=
    let '(b, next, nodes) := acc in
    obind (interpolate garbage values ce (ilocal ip i)) (fun x =>
    obind (to3d x) (fun coord =>
    obind (find_at d b coord) (fun r =>
      match r with
      | Some (_, n) => Ok (b, next, nodes ++ [n])
      | None => obind (box_add d b (coord, next)) (fun b' => Ok (b', (next + 1)%Z, nodes ++ [next]))
      end))).

  (** the loop over the elements, lines 177-209; [shape] tags are compared *)
  Definition convert_element (d : domain) (dof : Z) (optIp : option interp) (s : dstate) (idx : nat) : outcome dstate :=
    match nth_error (delems s) idx with
    | None => UB
    | Some c =>
      let ip := match optIp with Some ip => ip | None => einterp (ecoord c) end in
      if negb (Nat.eqb (itype (einterp (ecoord c))) (itype ip)) then Throw else
      obind (for_each (seq 0 (inum ip)) (find_or_create d (ecoord c) ip) (dboxes s, dnext s, []))
        (fun '(b, next, nodes) =>
      obind (add_dof_element dof c (mkElement nodes ip)) (fun c' =>
        Ok (mkDstate b next (replace_nth (delems s) idx c'))))
    end.

  (** AddDofInterpolation for a group of elements (indices of elements of the mesh), lines 164-210; [next] is the
      address of the next node that is created *)
  Definition add_dof_interpolation (elements : list collection) (next : Z) (dof : Z) (group : list nat)
      (optIp : option interp) : outcome dstate :=
    obind (setup_domain elements 300 (/ 10 ^ 10)) (fun d =>
    obind (make_boxes d) (fun b0 =>
    obind (node_points_total elements dof) (fun nps =>
    obind (for_each nps (box_add d) b0) (fun b1 =>
      for_each group (convert_element d dof optIp) (mkDstate b1 next elements))))).
End DofConvert.
