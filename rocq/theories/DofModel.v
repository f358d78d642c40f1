(** * Models of nuto/mechanics/dofs: DofContainer, DofInfo, DofVector,
      DofMatrixContainer and the conversions to Eigen *)
From Coq Require Import List ZArith Arith Bool.
From Verif Require Import Algebra.
Import ListNotations.

(** ** std::map<K, V, Compare>
    as a list of entries in ascending key order; [lt] is Compare.  Two keys are
    the same entry iff neither is less than the other. *)
Section StdMap.
  Context {K V : Type} (lt : K -> K -> bool).

  Fixpoint mfind (k : K) (m : list (K * V)) : option V :=
    match m with
    | [] => None
    | (k', v) :: m' => if lt k k' then None else if lt k' k then mfind k m' else Some v
    end.

  (** insert or overwrite: [m[k] = v] *)
  Fixpoint mset (k : K) (v : V) (m : list (K * V)) : list (K * V) :=
    match m with
    | [] => [(k, v)]
    | (k', v') :: m' =>
      if lt k k' then (k, v) :: (k', v') :: m'
      else if lt k' k then (k', v') :: mset k v m'
      else (k', v) :: m'
    end.
End StdMap.

(** CompareDofType, DofType.h:36-42: dof types are compared by their unique id. *)
Definition lt_dof (a b : Z) : bool := Z.ltb a b.

(** CompareDofPairs, DofMatrixContainer.h:110-120. *)
Definition lt_dofpair (a b : Z * Z) : bool :=
  if Z.eqb (fst a) (fst b) then Z.ltb (snd a) (snd b) else Z.ltb (fst a) (fst b).

(** ** DofContainer<T>, DofContainer.h:9-72 *)
Section DofContainer.
  Context {V : Type} (default : V).
  Definition dc := list (Z * V).

  Inductive dc_op :=
  | DcIndex (d : Z)              (* read of non-const operator[], DofContainer.h:21-24 *)
  | DcIndexAssign (d : Z) (v : V) (* assignment to non-const operator[] *)
  | DcAt (d : Z)                 (* At, DofContainer.h:31-34 *)
  | DcAtAssign (d : Z) (v : V)   (* assignment to At *)
  | DcConstIndex (d : Z)         (* const operator[], DofContainer.h:39-42 *)
  | DcInsert (d : Z) (v : V)     (* Insert, DofContainer.h:47-53 *)
  | DcHas (d : Z).               (* Has, DofContainer.h:55-58 *)

  Inductive dc_out := OVal (v : V) | OThrow | OBool (b : bool) | OUnit.

  (** [mData[k]] inserts a default constructed value if there is none *)
  Definition dc_index (m : dc) (d : Z) : V * dc :=
    match mfind lt_dof d m with Some v => (v, m) | None => (default, mset lt_dof d default m) end.

  Definition dc_step (m : dc) (o : dc_op) : dc * dc_out :=
    match o with
    | DcIndex d => let (v, m') := dc_index m d in (m', OVal v)
    | DcIndexAssign d v => (mset lt_dof d v (snd (dc_index m d)), OUnit)
    | DcAt d | DcConstIndex d => (m, match mfind lt_dof d m with Some v => OVal v | None => OThrow end)
    | DcAtAssign d v =>
      match mfind lt_dof d m with Some _ => (mset lt_dof d v m, OUnit) | None => (m, OThrow) end
    | DcInsert d v =>   (* map::emplace does not overwrite *)
      match mfind lt_dof d m with Some _ => (m, OThrow) | None => (mset lt_dof d v m, OUnit) end
    | DcHas d => (m, OBool (match mfind lt_dof d m with Some _ => true | None => false end))
    end.

  Fixpoint dc_run (m : dc) (ops : list dc_op) : dc * list dc_out :=
    match ops with
    | [] => (m, [])
    | o :: ops' => let (m1, r) := dc_step m o in let (m2, rs) := dc_run m1 ops' in (m2, r :: rs)
    end.
End DofContainer.
Arguments dc : clear implicits.

(** ** DofInfo, DofInfo.h:7-17 ([int] entries, default 0) *)
Record dof_info := mkInfo { numIndependent : dc Z; numDependent : dc Z }.

(** DofInfo::Merge, DofInfo.h:12-16 ([other] is passed by value). *)
Definition dof_info_merge (i : dof_info) (d : Z) (other : dof_info) : dof_info :=
  mkInfo (mset lt_dof d (fst (dc_index 0%Z (numIndependent other) d)) (numIndependent i))
         (mset lt_dof d (fst (dc_index 0%Z (numDependent other) d)) (numDependent i)).

(** ** DofVector<T>, DofVector.h:11-149 and DofMatrixContainer<T>
    The values may be vectors or matrices: [B] with its (partial) addition,
    negation and scaling; Eigen's addition of blocks of different size is an
    assertion failure / undefined ([None]). *)
Section BlockContainer.
  Context {K B S : Type} (lt : K -> K -> bool)
          (badd : B -> B -> option B) (bsub : B -> B -> option B)
          (bneg : B -> B) (bscale : S -> B -> B).
  Definition blocks := list (K * B).

  (** the loop body common to operator+= (DofVector.h:35-45,
      DofMatrixContainer.h:27-37), operator-= (DofVector.h:48-58) and AddScaled
      (DofVector.h:126-135, DofMatrixContainer.h:61-70) *)
  Definition merge_entry (combine : B -> B -> option B) (init : B -> B) (m : blocks) (e : K * B) : option blocks :=
    match mfind lt (fst e) m with
    | Some b => match combine b (snd e) with Some b' => Some (mset lt (fst e) b' m) | None => None end
    | None => Some (mset lt (fst e) (init (snd e)) m)
    end.

  Fixpoint merge_blocks (combine : B -> B -> option B) (init : B -> B) (m rhs : blocks) : option blocks :=
    match rhs with
    | [] => Some m
    | e :: rhs' =>
      match merge_entry combine init m e with
      | None => None
      | Some m' => merge_blocks combine init m' rhs'
      end
    end.

  Definition bv_add (m rhs : blocks) : option blocks := merge_blocks badd (fun b => b) m rhs.
  Definition bv_sub (m rhs : blocks) : option blocks := merge_blocks bsub bneg m rhs.
  Definition bv_add_scaled (m rhs : blocks) (s : S) : option blocks :=
    merge_blocks (fun a b => badd a (bscale s b)) (bscale s) m rhs.
  (** operator*=, DofVector.h:60-65, DofMatrixContainer.h:39-44 *)
  Definition bv_scale (m : blocks) (s : S) : blocks := map (fun e => (fst e, bscale s (snd e))) m.
  (** SetZero, DofVector.h:96-102 *)
  Definition bv_set_zero (bzero : B -> B) (m : blocks) : blocks := map (fun e => (fst e, bzero (snd e))) m.
  (** DofTypes, DofVector.h:137-143 *)
  Definition bv_keys (m : blocks) : list K := map fst m.
End BlockContainer.

(** ** Vectors over a ring: Eigen::Matrix<T, Dynamic, 1> *)
Section Vec.
  Context {F : CRing}.
  Definition vec := list F.
  Fixpoint vadd (a b : vec) : option vec :=
    match a, b with
    | [], [] => Some []
    | x :: a', y :: b' => match vadd a' b' with Some c => Some (radd x y :: c) | None => None end
    | _, _ => None
    end.
  Definition vneg (a : vec) : vec := map ropp a.
  Definition vscale (s : F) (a : vec) : vec := map (fun x => rmul x s) a.
  Definition vsub (a b : vec) : option vec := vadd a (vneg b).
  Definition vzero (a : vec) : vec := map (fun _ => r0) a.

  Definition dofvec := list (Z * vec).
  Definition dv_add : dofvec -> dofvec -> option dofvec := bv_add lt_dof vadd.
  Definition dv_sub : dofvec -> dofvec -> option dofvec := bv_sub lt_dof vsub vneg.
  Definition dv_add_scaled : dofvec -> dofvec -> F -> option dofvec := bv_add_scaled lt_dof vadd vscale.
  Definition dv_scale : dofvec -> F -> dofvec := bv_scale vscale.
  Definition dv_set_zero : dofvec -> dofvec := bv_set_zero vzero.

  (** ** conversions, DofVectorConvertEigen.h *)

  (** TotalRows, DofVectorConvertEigen.h:7-14; [None]: const operator[] throws *)
  Fixpoint total_rows (v : dofvec) (dofs : list Z) : option nat :=
    match dofs with
    | [] => Some 0%nat
    | d :: ds =>
      match mfind lt_dof d v, total_rows v ds with
      | Some b, Some n => Some (length b + n)%nat
      | _, _ => None
      end
    end.

  (** ToEigen, DofVectorConvertEigen.h:21-34.  The target has TotalRows entries
      and the segments are written one after the other; since the segment sizes
      are the very sizes summed in TotalRows, this is concatenation. *)
  Fixpoint to_eigen (v : dofvec) (dofs : list Z) : option vec :=
    match dofs with
    | [] => Some []
    | d :: ds =>
      match mfind lt_dof d v, to_eigen v ds with
      | Some b, Some r => Some (b ++ r)
      | _, _ => None
      end
    end.

  (** FromEigen, DofVectorConvertEigen.h:40-53: [source.segment(start, rows)] is
      undefined (assertion) beyond the end of [source].  Non-const operator[]
      creates an empty block for an unknown dof type. *)
  Fixpoint from_eigen_at (source : vec) (start : nat) (dofs : list Z) (dest : dofvec) : option dofvec :=
    match dofs with
    | [] => Some dest
    | d :: ds =>
      let rows := length (fst (@dc_index vec [] dest d)) in
      if Nat.leb (start + rows) (length source)
      then from_eigen_at source (start + rows) ds
             (mset lt_dof d (firstn rows (skipn start source)) (snd (@dc_index vec [] dest d)))
      else None
    end.
  Definition from_eigen (source : vec) (dofs : list Z) (dest : dofvec) : option dofvec :=
    from_eigen_at source 0 dofs dest.

  (** ** Eigen::SparseMatrix: dimensions and the list of stored entries *)
  Record smat := mkMat { srows : nat; scols : nat; trip : list (nat * nat * F) }.

  (** [setFromTriplets] adds up duplicates, so the entry is the sum *)
  Definition entry (m : smat) (i j : nat) : F :=
    sum_over (trip m) (fun t => let '(r, c, x) := t in if andb (Nat.eqb r i) (Nat.eqb c j) then x else r0).

  Definition in_range (m : smat) : Prop :=
    Forall (fun t => let '(r, c, _) := t in (r < srows m /\ c < scols m)%nat) (trip m).

  Definition dofmat := list ((Z * Z) * smat).
  Definition mat_at (v : dofmat) (a b : Z) : option smat := mfind lt_dofpair (a, b) v.

  Definition shift (dr dc : nat) (t : nat * nat * F) : nat * nat * F :=
    let '(r, c, x) := t in (r + dr, c + dc, x)%nat.

  (** one row of blocks: the inner loop of DofMatrixSparseConvertEigen.h:52-60 *)
  Fixpoint row_triplets (v : dofmat) (dofRow : Z) (startRow startCol : nat) (dofs : list Z)
    : option (list (nat * nat * F)) :=
    match dofs with
    | [] => Some []
    | d :: ds =>
      match mat_at v dofRow d with
      | None => None
      | Some m =>
        match row_triplets v dofRow startRow (startCol + scols m) ds with
        | None => None
        | Some r => Some (map (shift startRow startCol) (trip m) ++ r)
        end
      end
    end.

  Fixpoint all_triplets (v : dofmat) (startRow : nat) (rowDofs dofs : list Z)
    : option (list (nat * nat * F)) :=
    match rowDofs with
    | [] => Some []
    | d :: ds =>
      match row_triplets v d startRow 0 dofs, mat_at v d d with
      | Some r, Some diag =>
        match all_triplets v (startRow + srows diag) ds dofs with
        | None => None
        | Some rs => Some (r ++ rs)
        end
      | _, _ => None
      end
    end.

  Fixpoint total_dim (dim : smat -> nat) (v : dofmat) (dofs : list Z) : option nat :=
    match dofs with
    | [] => Some 0%nat
    | d :: ds =>
      match mat_at v d d, total_dim dim v ds with
      | Some m, Some n => Some (dim m + n)%nat
      | _, _ => None
      end
    end.

  (** ToEigen of a DofMatrixSparse, DofMatrixSparseConvertEigen.h:40-67
      (TotalRows/TotalCols: lines 7-23) *)
  Definition mat_to_eigen (v : dofmat) (dofs : list Z) : option smat :=
    match dofs with
    | [d] => mat_at v d d
    | _ =>
      match all_triplets v 0 dofs dofs, total_dim srows v dofs, total_dim scols v dofs with
      | Some t, Some r, Some c => Some (mkMat r c t)
      | _, _, _ => None
      end
    end.

  (** matrix times vector, for the product law *)
  Definition mat_vec (m : smat) (x : nat -> F) (i : nat) : F :=
    sum_n (scols m) (fun j => rmul (entry m i j) (x j)).
End Vec.
Arguments vec : clear implicits. Arguments dofvec : clear implicits.
Arguments smat : clear implicits. Arguments dofmat : clear implicits.
