(** * Model of nuto/mechanics/tools/TimeDependentProblem.cpp and CellStorage.cpp *)
From Coq Require Import List ZArith Arith Bool Reals.
From Verif Require Import Outcome GroupModel DofModel ConstraintModel Algebra MergerModel AssemblerModel CellModel.
Import ListNotations.

(** what the class and the mesh it points to hold: the memo of mMerger, the dof numbers and values of the nodes, and the
    DofInfo of mAssembler *)
Record tdp := mkTdp { t_memo : memo; t_nodes : nodes; t_values : node_values; t_info : dof_info }.

(** a group with the given elements: the memo of [MergerModel] keeps the elements only *)
Definition group_of (l : list Z) : outcome group := match group_add_all group_empty l with Some g => Ok g | None => UB end.

(** the loop of RenumberDofs, TimeDependentProblem.cpp:18-30, for one dof type.  [old] is a copy: the empty vector that
    operator[] inserts is seen by nobody.  [garbage] are the entries after resize. *)
Definition renumber_one (mesh : list felement) (c : constraints) (old : dofvec R_cring) (garbage : Z -> nat -> R)
    (d : Z) (s : tdp) (new : dofvec R_cring) : outcome (tdp * dofvec R_cring) :=
  let (b, old1) := @dc_index (list R) [] old d in
  obind (if Nat.eqb (length b) 0 then Ok (t_memo s, t_values s)
         else merge mesh (t_nodes s) old1 [d] 0 (t_memo s) (t_values s)) (fun mv =>
  obind (merger_nodes mesh (fst mv) d) (fun lm =>
  obind (group_of (fst lm)) (fun g =>
  obind (build_numbering (t_nodes s) g d c) (fun r =>
    let '(h', numInd, numDep) := r in
    let info := dof_info_merge (t_info s) d (mkInfo [(d, numInd)] [(d, numDep)]) in
    if Z.ltb (numInd + numDep) 0 then UB else
    let new1 : dofvec R_cring := mset lt_dof d (map (garbage d) (seq 0 (Z.to_nat (numInd + numDep)))) new in
    omap (fun mx => (mkTdp (fst mx) h' (snd mv) info, snd mx)) (extract mesh h' (snd mv) [d] 0 (snd lm) new1))))).
Fixpoint renumber_loop (mesh : list felement) (c : constraints) (old : dofvec R_cring) (garbage : Z -> nat -> R)
    (dofTypes : list Z) (s : tdp) (new : dofvec R_cring) : outcome (tdp * dofvec R_cring) :=
  match dofTypes with
  | [] => Ok (s, new)
  | d :: ds => obind (renumber_one mesh c old garbage d s new) (fun r => renumber_loop mesh c old garbage ds (fst r) (snd r))
  end.
(** RenumberDofs, TimeDependentProblem.cpp:11-33: the local dofInfos starts empty and replaces the DofInfo of mAssembler *)
Definition renumber_dofs (mesh : list felement) (c : constraints) (dofTypes : list Z) (old : dofvec R_cring)
    (garbage : Z -> nat -> R) (s : tdp) : outcome (tdp * dofvec R_cring) :=
  renumber_loop mesh c old garbage dofTypes (mkTdp (t_memo s) (t_nodes s) (t_values s) (mkInfo [] [])) [].

(** an entry of mGradientFunctions: what the cells of the group return for the bound function at (t, dt), given the
    values at the nodes, with the dof numbers of their elements *)
Definition gradient_function := R -> R -> node_values -> nodes -> list (vcell R_cring).

(** the loop of Gradient, TimeDependentProblem.cpp:63-66: any schedule of BuildVector's threads *)
Inductive gradient_loop (info : dof_info) (threads : nat) (dofs : list Z) (t dt : R) (v : node_values) (h : nodes)
  : list gradient_function -> dofvec R_cring -> outcome (dofvec R_cring) -> Prop :=
| gl_done acc : gradient_loop info threads dofs t dt v h [] acc (Ok acc)
| gl_throw f fs acc : build_vector info threads (f t dt v h) dofs Throw -> gradient_loop info threads dofs t dt v h (f :: fs) acc Throw
| gl_ub f fs acc : build_vector info threads (f t dt v h) dofs UB -> gradient_loop info threads dofs t dt v h (f :: fs) acc UB
| gl_size f fs acc g : build_vector info threads (f t dt v h) dofs (Ok g) -> dv_add acc g = None ->
    gradient_loop info threads dofs t dt v h (f :: fs) acc UB
| gl_next f fs acc g acc' r : build_vector info threads (f t dt v h) dofs (Ok g) -> dv_add acc g = Some acc' ->
    gradient_loop info threads dofs t dt v h fs acc' r -> gradient_loop info threads dofs t dt v h (f :: fs) acc r.

(** Gradient, TimeDependentProblem.cpp:57-67 *)
Inductive tdp_gradient (mesh : list felement) (threads : nat) (fs : list gradient_function) (s : tdp) (values : dofvec R_cring)
  (dofs : list Z) (t dt : R) : outcome (tdp * dofvec R_cring) -> Prop :=
| tg_merge_throw : merge mesh (t_nodes s) values dofs 0 (t_memo s) (t_values s) = Throw ->
    tdp_gradient mesh threads fs s values dofs t dt Throw
| tg_merge_ub : merge mesh (t_nodes s) values dofs 0 (t_memo s) (t_values s) = UB ->
    tdp_gradient mesh threads fs s values dofs t dt UB
| tg_merged m v r : merge mesh (t_nodes s) values dofs 0 (t_memo s) (t_values s) = Ok (m, v) ->
    gradient_loop (t_info s) threads dofs t dt v (t_nodes s) fs [] r ->
    tdp_gradient mesh threads fs s values dofs t dt (omap (fun g => (mkTdp m (t_nodes s) v (t_info s), g)) r).

(** Eigen's += of sparse matrices: other dimensions are an assertion failure *)
Definition smat_add (a b : smat R_cring) : option (smat R_cring) :=
  if andb (Nat.eqb (srows a) (srows b)) (Nat.eqb (scols a) (scols b)) then Some (mkMat (srows a) (scols a) (trip a ++ trip b)) else None.
(** DofMatrixContainer::operator+=, DofMatrixContainer.h:27-37 *)
Definition dofmat_add (a b : dofmat R_cring) : option (dofmat R_cring) := bv_add lt_dofpair smat_add a b.

(** an entry of mHessian0Functions, as in [gradient_function] *)
Definition hessian_function := R -> R -> node_values -> nodes -> list (mcell R_cring).

(** the loop of Hessian0, TimeDependentProblem.cpp:74-76 *)
Inductive hessian_loop (info : dof_info) (threads : nat) (dofs : list Z) (t dt : R) (v : node_values) (h : nodes)
  : list hessian_function -> dofmat R_cring -> outcome (dofmat R_cring) -> Prop :=
| hl_done acc : hessian_loop info threads dofs t dt v h [] acc (Ok acc)
| hl_throw f fs acc : build_matrix info threads (f t dt v h) dofs Throw -> hessian_loop info threads dofs t dt v h (f :: fs) acc Throw
| hl_ub f fs acc : build_matrix info threads (f t dt v h) dofs UB -> hessian_loop info threads dofs t dt v h (f :: fs) acc UB
| hl_size f fs acc g : build_matrix info threads (f t dt v h) dofs (Ok g) -> dofmat_add acc g = None ->
    hessian_loop info threads dofs t dt v h (f :: fs) acc UB
| hl_next f fs acc g acc' r : build_matrix info threads (f t dt v h) dofs (Ok g) -> dofmat_add acc g = Some acc' ->
    hessian_loop info threads dofs t dt v h fs acc' r -> hessian_loop info threads dofs t dt v h (f :: fs) acc r.

(** Hessian0, TimeDependentProblem.cpp:69-78 *)
Inductive tdp_hessian (mesh : list felement) (threads : nat) (fs : list hessian_function) (s : tdp) (values : dofvec R_cring)
  (dofs : list Z) (t dt : R) : outcome (tdp * dofmat R_cring) -> Prop :=
| th_merge_throw : merge mesh (t_nodes s) values dofs 0 (t_memo s) (t_values s) = Throw ->
    tdp_hessian mesh threads fs s values dofs t dt Throw
| th_merge_ub : merge mesh (t_nodes s) values dofs 0 (t_memo s) (t_values s) = UB ->
    tdp_hessian mesh threads fs s values dofs t dt UB
| th_merged m v r : merge mesh (t_nodes s) values dofs 0 (t_memo s) (t_values s) = Ok (m, v) ->
    hessian_loop (t_info s) threads dofs t dt v (t_nodes s) fs [] r ->
    tdp_hessian mesh threads fs s values dofs t dt (omap (fun g => (mkTdp m (t_nodes s) v (t_info s), g)) r).

(** a cell as UpdateHistory sees it: integration type and coordinate element *)
Record ucell := mkUcell { uc_id : Z; uc_ips : nat; uc_ip : nat -> list R; uc_coordinates : list R; uc_numNodes : nat;
  uc_dim : nat; uc_dShape : list R -> mfun }.
(** an entry of mUpdateFunctions: what the function does to the state [S] of the program at an integration point, given
    the values at the nodes *)
Definition update_function (S : Type) := R -> R -> node_values -> S -> ipdata -> S.
(** lines 85-86, for one function *)
Fixpoint update_cells {S} (f : S -> ipdata -> S) (cells : list ucell) (x : S) : outcome S :=
  match cells with
  | [] => Ok x
  | c :: cs => obind (cell_apply (uc_id c) (uc_ips c) (uc_ip c) (uc_coordinates c) (uc_numNodes c) (uc_dim c) (uc_dShape c) f x)
                 (fun x' => update_cells f cs x')
  end.
(** lines 84-86 *)
Fixpoint update_loop {S} (t dt : R) (v : node_values) (fs : list (list ucell * update_function S)) (x : S) : outcome S :=
  match fs with
  | [] => Ok x
  | (cells, f) :: fs' => obind (update_cells (f t dt v) cells x) (fun x' => update_loop t dt v fs' x')
  end.
(** UpdateHistory, TimeDependentProblem.cpp:80-87 *)
Definition tdp_update {S} (mesh : list felement) (fs : list (list ucell * update_function S)) (s : tdp) (values : dofvec R_cring)
    (dofs : list Z) (t dt : R) (x : S) : outcome (tdp * S) :=
  obind (merge mesh (t_nodes s) values dofs 0 (t_memo s) (t_values s)) (fun mv =>
  omap (fun x' => (mkTdp (fst mv) (t_nodes s) (snd mv) (t_info s), x')) (update_loop t dt (snd mv) fs x)).

(** Bind_dt, Bind_t and Bind, TimeDependentProblem.h:90-108: the integrand ignores the time, the time step or both *)
Definition bind_dt {A} (f : R -> A) : R -> R -> A := fun _ dt => f dt.
Definition bind_t {A} (f : R -> A) : R -> R -> A := fun t _ => f t.
Definition bind_none {A} (f : A) : R -> R -> A := fun _ _ => f.

(** ** CellStorage
    a cell: its element and its id; the storage owns the cells, the address of a cell is its position *)
Record scell := mkScell { sc_element : Z; sc_id : Z }.
Definition INT_MAX : Z := 2147483647.
(** the loop of AddCells, CellStorage.cpp:10-14: cellStartId++ beyond INT_MAX is undefined *)
Fixpoint add_cells_loop (elements : list Z) (next : Z) (cells : list scell) (g : group) : outcome (list scell * group) :=
  match elements with
  | [] => Ok (cells, g)
  | e :: es =>
    if Z.leb INT_MAX next then UB else
    match group_add g (Z.of_nat (length cells)) with
    | None => UB
    | Some g' => add_cells_loop es (next + 1) (cells ++ [mkScell e next]) g'
    end
  end.
(** AddCells, CellStorage.cpp:6-16 *)
Definition add_cells (cells : list scell) (elements : list Z) (cellStartId : Z) : outcome (list scell * group) :=
  add_cells_loop elements cellStartId cells group_empty.
