(** * Models of nuto/mechanics/cell/SimpleAssembler.cpp and Assembler.cpp

    Numbers are elements of a commutative ring: sums are exact, so that the
    order of summation can be discussed; rounding is not modelled.  The results
    of [cell.Integrate(f)] and [cell.DofNumbering(dof)] are data of the cell. *)
From Coq Require Import List ZArith Arith Bool.
From Verif Require Import Algebra Outcome DofModel.
Import ListNotations.

(** ** OpenMP

    [#pragma omp parallel] with [omp for nowait] and [omp critical]
    (SimpleAssembler.cpp:45-63, 72-97, 108-148): each thread owns a local
    object, takes iterations from the loop and merges its object into the shared
    one in the critical section.  A step lets any thread take any remaining
    iteration, or commit; this covers every static, dynamic or guided schedule
    and every order of the critical sections (and more: a thread may commit
    although iterations are left).  Steps of different threads are interleaved
    iteration by iteration; iterations touch thread local data only. *)
Section Par.
  Context {C L G : Type} (step : L -> C -> outcome L) (merge : G -> L -> outcome G).

  Record pstate := mkP { pool : list C; locals : list (option L); glob : G }.

  Fixpoint set_nth {A} (i : nat) (x : A) (l : list A) : list A :=
    match l, i with
    | [], _ => []
    | _ :: l', O => x :: l'
    | y :: l', S i' => y :: set_nth i' x l'
    end.

  Inductive pstep : pstate -> outcome pstate -> Prop :=
  | PTake p1 c p2 ls g i l : nth_error ls i = Some (Some l) ->
      pstep (mkP (p1 ++ c :: p2) ls g)
            (omap (fun l' => mkP (p1 ++ p2) (set_nth i (Some l') ls) g) (step l c))
  | PCommit p ls g i l : nth_error ls i = Some (Some l) ->
      pstep (mkP p ls g) (omap (fun g' => mkP p (set_nth i None ls) g') (merge g l)).

  (** complete executions of the parallel region and their results.  An exception has to be caught in the region by the
      thread that throws it; none is, so one that leaves an iteration or the critical section is not reported to the
      caller: the program is terminated (OpenMP is enabled by default, CMakeLists.txt:6), here [UB] *)
  Inductive pexec : pstate -> outcome G -> Prop :=
  | PDone ls g : Forall (fun l => l = None) ls -> pexec (mkP [] ls g) (Ok g)
  | PStep s s' r : pstep s (Ok s') -> pexec s' r -> pexec s r
  | PThrow s : pstep s Throw -> pexec s UB
  | PUB s : pstep s UB -> pexec s UB.

  Definition parallel (threads : nat) (l0 : L) (g0 : G) (cells : list C) : outcome G -> Prop :=
    pexec (mkP cells (repeat (Some l0) threads) g0).
End Par.
Arguments pstate : clear implicits.

Section Assembler.
  Context {F : CRing}.

  (** ** shared helpers *)

  (** DofIntersection, SimpleAssembler.cpp:25-36; AvailableDofTypes has the same
      loop, Assembler.cpp:9-17.  The [continue] in the inner loop has no effect:
      a type listed twice in [two] appears twice in the result. *)
  Definition dof_intersection (one two : list Z) : list Z :=
    flat_map (fun d1 => map (fun _ => d1) (filter (Z.eqb d1) two)) one.

  (** [v(n) += x] on an Eigen vector; out of range indices are undefined *)
  Definition vec_add_at (v : vec F) (n : Z) (x : F) : outcome (vec F) :=
    if andb (Z.leb 0 n) (Z.ltb n (Z.of_nat (length v)))
    then Ok (set_nth (Z.to_nat n) (radd (nth (Z.to_nat n) v r0) x) v)
    else UB.

  (** the innermost loop: SimpleAssembler.cpp:57-58, 90-91, Assembler.cpp:25-29 *)
  Fixpoint scatter (v : vec F) (nums : list Z) (x : vec F) : outcome (vec F) :=
    match nums with
    | [] => Ok v
    | n :: ns =>
      match x with
      | [] => UB
      | a :: x' => obind (vec_add_at v n a) (fun v' => scatter v' ns x')
      end
    end.

  (** [result[dof] ...] for a list of dof types.  With an empty numbering the loop
      body is not executed and no block is touched. *)
  Fixpoint scatter_dofs (num : Z -> list Z) (x : dofvec F) (dofs : list Z) (v : dofvec F) : outcome (dofvec F) :=
    match dofs with
    | [] => Ok v
    | d :: ds =>
      if Nat.eqb (length (num d)) 0 then scatter_dofs num x ds v else
      match mfind lt_dof d x with
      | None => Throw
      | Some xd =>
        let (vd, v1) := @dc_index (vec F) [] v d in
        obind (scatter vd (num d) xd) (fun vd' => scatter_dofs num x ds (mset lt_dof d vd' v1))
      end
    end.

  (** ProperlyResizedVector, SimpleAssembler.cpp:158-166: the const operator[]
      throws for unknown dof types, a negative size is undefined *)
  Definition info_size (info : dof_info) (d : Z) : outcome nat :=
    match mfind lt_dof d (numIndependent info), mfind lt_dof d (numDependent info) with
    | Some a, Some b => if Z.leb 0 (a + b) then Ok (Z.to_nat (a + b)) else UB
    | _, _ => Throw
    end.

  Fixpoint properly_resized (info : dof_info) (dofs : list Z) (v : dofvec F) : outcome (dofvec F) :=
    match dofs with
    | [] => Ok v
    | d :: ds => obind (info_size info d) (fun n => properly_resized info ds (mset lt_dof d (repeat r0 n) v))
    end.

  (** ThrowOnZeroDofNumbering, SimpleAssembler.cpp:16-23 *)
  Definition missing_numbering (info : dof_info) (dofs : list Z) : bool :=
    existsb (fun d => match mfind lt_dof d (numIndependent info) with None => true | _ => false end) dofs.

  Definition of_option {A} (o : option A) : outcome A := match o with Some a => Ok a | None => UB end.

  (** ** BuildVector, SimpleAssembler.cpp:38-65 *)
  Record vcell := mkVCell { vc_val : dofvec F; vc_num : Z -> list Z }.

  Definition vector_cell (dofTypes : list Z) (l : dofvec F) (c : vcell) : outcome (dofvec F) :=
    scatter_dofs (vc_num c) (vc_val c) (dof_intersection (bv_keys (vc_val c)) dofTypes) l.

  Definition build_vector (info : dof_info) (threads : nat) (cells : list vcell) (dofTypes : list Z)
    (r : outcome (dofvec F)) : Prop :=
    if missing_numbering info dofTypes then r = Throw
    else match properly_resized info dofTypes [] with
         | Ok zero => parallel (vector_cell dofTypes) (fun g l => of_option (dv_add g l)) threads zero zero cells r
         | Throw => r = Throw
         | UB => r = UB
         end.

  (** ** dense matrices: Eigen::MatrixXd *)
  Record dmat := mkD { drows : nat; dcols : nat; dat : nat -> nat -> F }.
  Definition dofdense := list ((Z * Z) * dmat).

  (** DofMatrixContainer::DofTypes, DofMatrixContainer.h:84-107 *)
  Definition add_unique (l : list Z) (d : Z) : list Z := if existsb (Z.eqb d) l then l else l ++ [d].
  Definition mat_types {B} (m : list ((Z * Z) * B)) : list Z :=
    fold_left (fun l e => add_unique (add_unique l (fst (fst e))) (snd (fst e))) m [].

  (** DofMatrixContainer<TripletList>: only the non-const operator() is used, a
      missing list is an empty one *)
  Definition triplets := Z -> Z -> list (Z * Z * F).
  Definition push (t : triplets) (a b : Z) (l : list (Z * Z * F)) : triplets :=
    fun a' b' => if andb (Z.eqb a' a) (Z.eqb b' b) then t a' b' ++ l else t a' b'.

  (** SimpleAssembler.cpp:126-136, Assembler.cpp:46-56: all entries of a local
      matrix with their global numbers; an index beyond the local matrix is
      undefined *)
  Definition local_triplets (numI numJ : list Z) (m : dmat) : outcome (list (Z * Z * F)) :=
    if orb (Nat.eqb (length numI * length numJ) 0)
           (andb (Nat.leb (length numI) (drows m)) (Nat.leb (length numJ) (dcols m)))
    then Ok (flat_map (fun i => map (fun j => (nth i numI 0%Z, nth j numJ 0%Z, dat m i j)) (seq 0 (length numJ)))
                      (seq 0 (length numI)))
    else UB.

  Fixpoint matrix_row (num : Z -> list Z) (h : dofdense) (dI : Z) (dofs : list Z) (t : triplets) : outcome triplets :=
    match dofs with
    | [] => Ok t
    | dJ :: ds =>
      match mfind lt_dofpair (dI, dJ) h with
      | None => Throw
      | Some m => obind (local_triplets (num dI) (num dJ) m) (fun l => matrix_row num h dI ds (push t dI dJ l))
      end
    end.
  Fixpoint matrix_rows (num : Z -> list Z) (h : dofdense) (rows dofs : list Z) (t : triplets) : outcome triplets :=
    match rows with
    | [] => Ok t
    | dI :: ds => obind (matrix_row num h dI dofs t) (fun t' => matrix_rows num h ds dofs t')
    end.

  (** ** BuildMatrix, SimpleAssembler.cpp:100-156 *)
  Record mcell := mkMCell { mc_val : dofdense; mc_num : Z -> list Z }.

  Definition matrix_cell (dofTypes : list Z) (t : triplets) (c : mcell) : outcome triplets :=
    let dofs := dof_intersection (mat_types (mc_val c)) dofTypes in
    matrix_rows (mc_num c) (mc_val c) dofs dofs t.

  (** lines 140-147: the lists of the dof types in [dofTypes] are spliced; a
      second splice of the same pair moves an empty list *)
  Definition splice (dofTypes : list Z) (g l : triplets) : triplets :=
    fun a b => if andb (existsb (Z.eqb a) dofTypes) (existsb (Z.eqb b) dofTypes) then g a b ++ l a b else g a b.

  (** setFromTriplets: out of range entries are undefined *)
  Definition set_from_triplets (rows cols : nat) (l : list (Z * Z * F)) : outcome (smat F) :=
    if forallb (fun t => let '(r, c, _) := t in
         andb (andb (Z.leb 0 r) (Z.ltb r (Z.of_nat rows))) (andb (Z.leb 0 c) (Z.ltb c (Z.of_nat cols)))) l
    then Ok (mkMat rows cols (map (fun t => let '(r, c, x) := t in (Z.to_nat r, Z.to_nat c, x)) l))
    else UB.

  Fixpoint set_blocks (info : dof_info) (t : triplets) (pairs : list (Z * Z)) (h : dofmat F) : outcome (dofmat F) :=
    match pairs with
    | [] => Ok h
    | (a, b) :: ps =>
      obind (info_size info a) (fun n => obind (info_size info b) (fun m =>
        obind (set_from_triplets n m (t a b)) (fun s => set_blocks info t ps (mset lt_dofpair (a, b) s h))))
    end.

  (** lines 149-155; ProperlyResizedMatrix (lines 168-179) gives every block its size *)
  Definition build_matrix (info : dof_info) (threads : nat) (cells : list mcell) (dofTypes : list Z)
    (r : outcome (dofmat F)) : Prop :=
    if missing_numbering info dofTypes then r = Throw
    else exists t, parallel (matrix_cell dofTypes) (fun g l => Ok (splice dofTypes g l)) threads
                     (fun _ _ => []) (fun _ _ => []) cells t /\
           r = obind t (fun t' => set_blocks info t' (list_prod dofTypes dofTypes) []).

  (** ** VectorAssembler, Assembler.cpp:88-114 and Assembler::Add, lines 20-31 *)
  Definition available_dofs {B} (numbering : list (Z * B)) (dofTypes : list Z) : list Z :=
    match dofTypes with [] => bv_keys numbering | _ => dof_intersection (bv_keys numbering) dofTypes end.

  Definition num_of (numbering : list (Z * list Z)) (d : Z) : list Z :=
    match mfind lt_dof d numbering with Some n => n | None => [] end.

  Inductive va_op :=
  | VaResize (sizes : list (Z * nat))
  | VaAdd (v : dofvec F) (numbering : list (Z * list Z)) (dofTypes : list Z)
  | VaSetZero.

  Definition va_resize (sizes : list (Z * nat)) (v : dofvec F) : dofvec F :=
    fold_left (fun v s => mset lt_dof (fst s) (repeat r0 (snd s)) v) sizes v.

  Definition va_step (s : dofvec F) (o : va_op) : outcome (dofvec F) :=
    match o with
    | VaResize sizes => Ok (va_resize sizes s)
    | VaAdd v n ds => scatter_dofs (num_of n) v (available_dofs n ds) s
    | VaSetZero => Ok (dv_set_zero s)
    end.
  Fixpoint va_run (s : dofvec F) (ops : list va_op) : outcome (dofvec F) :=
    match ops with [] => Ok s | o :: ops' => obind (va_step s o) (fun s' => va_run s' ops') end.

  (** ** MatrixAssembler, Assembler.cpp:116-176
      The stored matrix keeps its values as a list of triplets whose sum counts;
      Eigen's [setZero] and [resize] drop them all. *)
  Record masm := mkMA { ma_trip : triplets; ma_mat : dofmat F; ma_fin : bool }.
  Definition ma_empty : masm := mkMA (fun _ _ => []) [] false.

  Inductive ma_op :=
  | MaResize (sizes : list (Z * nat))
  | MaAdd (m : dofdense) (numbering : list (Z * list Z)) (dofTypes : list Z)
  | MaSetZero | MaFinish.

  (** Resize, lines 121-130 *)
  Definition ma_resize (sizes : list (Z * nat)) (m : dofmat F) : dofmat F :=
    fold_left (fun m p => mset lt_dofpair (fst (fst p), fst (snd p)) (mkMat (snd (fst p)) (snd (snd p)) []) m)
      (list_prod sizes sizes) m.

  (** Assembler::Add into the matrix, lines 60-85: coeffRef(..) += value *)
  Fixpoint mat_add_row (num : Z -> list Z) (h : dofdense) (dI : Z) (dofs : list Z) (m : dofmat F) : outcome (dofmat F) :=
    match dofs with
    | [] => Ok m
    | dJ :: ds =>
      match mfind lt_dofpair (dI, dJ) h with
      | None => Throw
      | Some x =>
        let b := match mat_at m dI dJ with Some b => b | None => mkMat 0 0 [] end in
        obind (local_triplets (num dI) (num dJ) x) (fun l =>
        obind (set_from_triplets (srows b) (scols b) l) (fun s =>
          mat_add_row num h dI ds (mset lt_dofpair (dI, dJ) (mkMat (srows b) (scols b) (trip b ++ trip s)) m)))
      end
    end.
  Fixpoint mat_add_rows (num : Z -> list Z) (h : dofdense) (rows dofs : list Z) (m : dofmat F) : outcome (dofmat F) :=
    match rows with
    | [] => Ok m
    | dI :: ds => obind (mat_add_row num h dI dofs m) (fun m' => mat_add_rows num h ds dofs m')
    end.

  (** Finish, lines 151-169 *)
  Fixpoint ma_finish (t : triplets) (pairs : list (Z * Z)) (m : dofmat F) : outcome (dofmat F) :=
    match pairs with
    | [] => Ok m
    | (a, b) :: ps =>
      let blk := match mat_at m a b with Some blk => blk | None => mkMat 0 0 [] end in
      obind (set_from_triplets (srows blk) (scols blk) (t a b)) (fun s =>
        ma_finish t ps (mset lt_dofpair (a, b) s m))
    end.

  Definition ma_step (s : masm) (o : ma_op) : outcome masm :=
    match o with
    | MaResize sizes => if ma_fin s then Throw else Ok (mkMA (ma_trip s) (ma_resize sizes (ma_mat s)) false)
    | MaAdd m n ds =>
      let dofs := available_dofs n ds in
      if ma_fin s then omap (fun m' => mkMA (ma_trip s) m' true) (mat_add_rows (num_of n) m dofs dofs (ma_mat s))
      else omap (fun t => mkMA t (ma_mat s) false) (matrix_rows (num_of n) m dofs dofs (ma_trip s))
    | MaSetZero =>   (* lines 144-149; every pair of stored dof types is visited *)
      let ts := mat_types (ma_mat s) in
      Ok (mkMA (ma_trip s)
            (fold_left (fun m p => mset lt_dofpair p
               (match mfind lt_dofpair p m with Some b => mkMat (srows b) (scols b) [] | None => mkMat 0 0 [] end) m)
               (list_prod ts ts) (ma_mat s)) (ma_fin s))
    | MaFinish =>
      if ma_fin s then Ok s
      else let ts := mat_types (ma_mat s) in
           omap (fun m => mkMA (fun a b => if andb (existsb (Z.eqb a) ts) (existsb (Z.eqb b) ts) then [] else ma_trip s a b) m true)
             (ma_finish (ma_trip s) (list_prod ts ts) (ma_mat s))
    end.
  Fixpoint ma_run (s : masm) (ops : list ma_op) : outcome masm :=
    match ops with [] => Ok s | o :: ops' => obind (ma_step s o) (fun s' => ma_run s' ops') end.
  (** Get, lines 171-176 *)
  Definition ma_get (s : masm) : outcome (dofmat F) := if ma_fin s then Ok (ma_mat s) else Throw.
End Assembler.
Arguments vcell : clear implicits. Arguments mcell : clear implicits. Arguments dmat : clear implicits.
Arguments dofdense : clear implicits. Arguments triplets : clear implicits. Arguments masm : clear implicits.
Arguments va_op : clear implicits. Arguments ma_op : clear implicits.

(** ** BuildDiagonallyLumpedMatrix, SimpleAssembler.cpp:67-98, over the reals.
    [x / 0] is an arbitrary real here (infinity or NaN in the code).
    [num d] is DofType::GetNum. *)
From Coq Require Import Reals.
Section Lumped.
  Variable num : Z -> nat.
  Definition local_diagonal (m : dmat R_cring) : list R := map (fun i => dat m i i) (seq 0 (Nat.min (drows m) (dcols m))).
  Definition full_sum (m : dmat R_cring) : R :=
    @sum_n R_cring (drows m) (fun i => @sum_n R_cring (dcols m) (fun j => dat m i j)).
  Definition lumped_local (d : Z) (m : dmat R_cring) : list R :=
    let diag := local_diagonal m in
    map (fun x => (x * ((full_sum m / @lsum R_cring diag) / INR (num d)))%R) diag.

  (** const operator(dof, dof) throws if there is no diagonal block *)
  Fixpoint lumped_dofs (nums : Z -> list Z) (h : dofdense R_cring) (dofs : list Z) (v : dofvec R_cring)
    : outcome (dofvec R_cring) :=
    match dofs with
    | [] => Ok v
    | d :: ds =>
      match mfind lt_dofpair (d, d) h with
      | None => Throw
      | Some m =>
        let (vd, v1) := @dc_index (vec R_cring) [] v d in
        obind (scatter vd (nums d) (lumped_local d m)) (fun vd' => lumped_dofs nums h ds (mset lt_dof d vd' v1))
      end
    end.
  Definition lumped_cell (dofTypes : list Z) (l : dofvec R_cring) (c : mcell R_cring) : outcome (dofvec R_cring) :=
    lumped_dofs (mc_num c) (mc_val c) (dof_intersection (mat_types (mc_val c)) dofTypes) l.

  Definition build_lumped (info : dof_info) (threads : nat) (cells : list (mcell R_cring)) (dofTypes : list Z)
    (r : outcome (dofvec R_cring)) : Prop :=
    match properly_resized info dofTypes [] with
    | Ok zero => parallel (lumped_cell dofTypes) (fun g l => of_option (dv_add g l)) threads zero zero cells r
    | Throw => r = Throw
    | UB => r = UB
    end.
End Lumped.
