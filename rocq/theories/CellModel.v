(** * Models of nuto/mechanics/cell: Cell, CellData, CellIpData, Jacobian,
      DifferentialOperators, Matrix, and of ElementFem

    Numbers are reals (rounding is not modelled).  An Eigen matrix is a function
    of the row and column index together with its dimensions. *)
From Coq Require Import List ZArith Arith Bool Reals.
From Verif Require Import Outcome DofModel RSum.
Import ListNotations.
Local Open Scope R_scope.

Definition mfun := nat -> nat -> R.

(** [M(r, c) = x] *)
Definition mput (M : mfun) (r c : nat) (x : R) : mfun :=
  fun i j => if andb (Nat.eqb i r) (Nat.eqb j c) then x else M i j.

(** ** DifferentialOperators.h *)

(** Gradient, DifferentialOperators.h:16-22 *)
Definition nabla_gradient (dNdX : mfun) : mfun := fun i j => dNdX j i.

(** Strain, DifferentialOperators.h:24-91: one pass of the loop for dim = 2
      (lines 37-47) and dim = 3 (lines 52-84) *)
Definition strain_node2 (dNdX : mfun) (B : mfun) (iNode : nat) : mfun :=
  let iColumn := (2 * iNode)%nat in
  let x := dNdX iNode 0%nat in let y := dNdX iNode 1%nat in
  mput (mput (mput (mput B 0 iColumn x) 1 (iColumn + 1) y) 2 iColumn y) 2 (iColumn + 1) x.
Definition strain_node3 (dNdX : mfun) (B : mfun) (iNode : nat) : mfun :=
  let iColumn := (3 * iNode)%nat in
  let x := dNdX iNode 0%nat in let y := dNdX iNode 1%nat in let z := dNdX iNode 2%nat in
  let B := mput (mput (mput B 0 iColumn x) 1 (iColumn + 1) y) 2 (iColumn + 2) z in
  let B := mput (mput B 3 (iColumn + 1) z) 3 (iColumn + 2) y in
  let B := mput (mput B 4 iColumn z) 4 (iColumn + 2) x in
  mput (mput B 5 iColumn y) 5 (iColumn + 1) x.

(** result: number of rows and entries *)
Definition nabla_strain (dim numNodes : nat) (dNdX : mfun) : outcome (nat * mfun) :=
  match dim with
  | 1%nat => Ok (1%nat, fun i j => dNdX j i)
  | 2%nat => Ok (3%nat, fold_left (strain_node2 dNdX) (seq 0 numNodes) (fun _ _ => 0))
  | 3%nat => Ok (6%nat, fold_left (strain_node3 dNdX) (seq 0 numNodes) (fun _ _ => 0))
  | _ => Throw
  end.

(** ** Matrix::N, Matrix.h:8-14: [n] starts uninitialised ([garbage]) *)
Definition n_block (dim : nat) (shape : nat -> R) (n : mfun) (i : nat) : mfun :=
  fun r c => if andb (Nat.ltb r dim) (andb (Nat.leb (i * dim) c) (Nat.ltb c (i * dim + dim)))
             then (if Nat.eqb r (c - i * dim) then 1 else 0) * shape i else n r c.
Definition matrix_N (garbage : mfun) (shape : nat -> R) (numNodes dim : nat) : mfun :=
  fold_left (n_block dim shape) (seq 0 numNodes) garbage.

(** matrix times vector *)
Definition mvmul (cols : nat) (M : mfun) (v : nat -> R) (i : nat) : R := rsum cols (fun j => M i j * v j).

(** ** ElementFem, ElementFem.h:33-75: node values and dof numbers in node blocks.
    [value k i] is component i of node k. *)
Definition extract_node_values (dim numNodes : nat) (value : nat -> nat -> R) : list R :=
  flat_map (fun k => map (value k) (seq 0 dim)) (seq 0 numNodes).
Definition element_dof_numbering (dim numNodes : nat) (number : nat -> nat -> Z) : list Z :=
  flat_map (fun k => map (number k) (seq 0 dim)) (seq 0 numNodes).

(** ** Jacobian, Jacobian.h:16-98 *)

(** CalculateFixedSize, Jacobian.h:131-146: the map (x0 y0 z0 x1 ...) -> columns *)
Definition jacobian_matrix (spaceDim numShapes : nat) (nodeValues : nat -> R) (dN : mfun) : mfun :=
  fun i j => rsum numShapes (fun k => nodeValues (k * spaceDim + i)%nat * dN k j).

(** Eigen's fixed size determinant and inverse (cofactors over determinant) *)
Definition det2 (J : mfun) : R := J 0%nat 0%nat * J 1%nat 1%nat - J 1%nat 0%nat * J 0%nat 1%nat.
Definition inv2 (J : mfun) : mfun := fun i j =>
  / det2 J * match i, j with
  | 0%nat, 0%nat => J 1%nat 1%nat | 0%nat, 1%nat => - J 0%nat 1%nat
  | 1%nat, 0%nat => - J 1%nat 0%nat | 1%nat, 1%nat => J 0%nat 0%nat
  | _, _ => 0 end.
(** cofactor of a 3x3 matrix, indices modulo 3 *)
Definition cof3 (J : mfun) (i j : nat) : R :=
  let i1 := ((i + 1) mod 3)%nat in let i2 := ((i + 2) mod 3)%nat in
  let j1 := ((j + 1) mod 3)%nat in let j2 := ((j + 2) mod 3)%nat in
  J i1 j1 * J i2 j2 - J i1 j2 * J i2 j1.
Definition det3 (J : mfun) : R := J 0%nat 0%nat * cof3 J 0 0 + J 1%nat 0%nat * cof3 J 1 0 + J 2%nat 0%nat * cof3 J 2 0.
Definition inv3 (J : mfun) : mfun := fun i j => / det3 J * cof3 J j i.

Definition norm2v (x y : R) : R := sqrt (x * x + y * y).
Definition norm3v (x y z : R) : R := sqrt (x * x + y * y + z * z).

Record jacobian := mkJac { jRows : nat; jCols : nat; jGet : mfun; jInv : mfun; jDet : R; jNormal : option (nat -> R) }.

(** the constructor; [nodeValues.rows() / numNodes] is the global dimension.
    numNodes = 0 divides by zero.  For square Jacobians beyond 3D no case of the
    switch applies and the members stay uninitialised. *)
Definition make_jacobian (nodeValues : list R) (numNodes interpolationDim : nat) (dN : mfun) : outcome jacobian :=
  if Nat.eqb numNodes 0 then UB else
  let globalDim := (length nodeValues / numNodes)%nat in
  let nv := fun i => nth i nodeValues 0 in
  let J := jacobian_matrix globalDim numNodes nv dN in
  if Nat.eqb interpolationDim globalDim then
    match globalDim with
    | 1%nat => Ok (mkJac 1 1 J (fun i j => / J i j) (J 0%nat 0%nat) None)
    | 2%nat => Ok (mkJac 2 2 J (inv2 J) (det2 J) None)
    | 3%nat => Ok (mkJac 3 3 J (inv3 J) (det3 J) None)
    | _ => UB
    end
  else if Nat.eqb globalDim (interpolationDim + 1) then
    match globalDim with
    | 2%nat =>  (* lines 55-66 *)
      let l := norm2v (J 1%nat 0%nat) (- J 0%nat 0%nat) in
      let nrm := fun i => match i with 0%nat => J 1%nat 0%nat / l | _ => - J 0%nat 0%nat / l end in
      let E := fun i j => match j with 0%nat => J i 0%nat | _ => nrm i end in
      Ok (mkJac 2 1 J (inv2 E) (- det2 E) (Some nrm))
    | 3%nat =>  (* lines 67-80 *)
      let cx := J 1%nat 0%nat * J 2%nat 1%nat - J 2%nat 0%nat * J 1%nat 1%nat in
      let cy := J 2%nat 0%nat * J 0%nat 1%nat - J 0%nat 0%nat * J 2%nat 1%nat in
      let cz := J 0%nat 0%nat * J 1%nat 1%nat - J 1%nat 0%nat * J 0%nat 1%nat in
      let l := norm3v cx cy cz in
      let nrm := fun i => match i with 0%nat => cx / l | 1%nat => cy / l | _ => cz / l end in
      let E := fun i j => match j with 0%nat => J i 0%nat | 1%nat => J i 1%nat | _ => nrm i end in
      Ok (mkJac 3 2 J (inv3 E) (det3 E) (Some nrm))
    | _ => Throw
    end
  else Throw.

(** Normal, Jacobian.h:115-123 *)
Definition jac_normal (j : jacobian) : outcome (nat -> R) :=
  if Nat.eqb (jCols j) (jRows j - 1) then match jNormal j with Some n => Ok n | None => UB end else Throw.

(** TransformDerivativeShapeFunctions, Jacobian.h:100-103: [dN * Inv()] *)
Definition transform_derivatives (j : jacobian) (dN : mfun) : mfun :=
  fun k i => rsum (jCols j) (fun l => dN k l * jInv j l i).

(** ** Cell, Cell.h *)

(** what an integrand can see of an integration point *)
Record ipdata := mkIp { ipCell : Z; ipId : nat; ipCoords : list R; ipJac : jacobian }.

Section Cell.
  (** integration type and coordinate element of the cell *)
  Variables (cellId : Z) (numIps : nat) (ipCoord : nat -> list R) (ipWeight : nat -> R).
  Variables (coordinates : list R) (numNodes : nat) (interpolationDim : nat) (dShape : list R -> mfun).

  (** the constructor compares the shapes, Cell.h:17-30 *)
  Definition cell_ctor (elementShape integrationShape : Z) : outcome unit :=
    if Z.eqb elementShape integrationShape then Ok tt else Throw.

  Definition make_ip (i : nat) : outcome ipdata :=
    omap (mkIp cellId i (ipCoord i)) (make_jacobian coordinates numNodes interpolationDim (dShape (ipCoord i))).

  (** Integrate, Cell.h:32-45, 105-119; the integrand [f] may have a state [S]
      (history data, counters).  [add] is operator+= of the result type. *)
  Fixpoint integrate_loop {S V} (add : V -> V -> outcome V) (scale : V -> R -> V)
           (f : S -> ipdata -> S * V) (ips : list nat) (s : S) (result : V) : outcome (S * V) :=
    match ips with
    | [] => Ok (s, result)
    | i :: ips' =>
      obind (make_ip i) (fun ip =>
        let (s', v) := f s ip in
        obind (add result (scale (scale v (jDet (ipJac ip))) (ipWeight i)))
              (fun r => integrate_loop add scale f ips' s' r))
    end.
  Definition integrate {S V} add scale (f : S -> ipdata -> S * V) (zero : V) (s : S) : outcome (S * V) :=
    integrate_loop add scale f (seq 0 numIps) s zero.

  (** Apply, Cell.h:47-58 *)
  Fixpoint apply_loop {S} (f : S -> ipdata -> S) (ips : list nat) (s : S) : outcome S :=
    match ips with [] => Ok s | i :: ips' => obind (make_ip i) (fun ip => apply_loop f ips' (f s ip)) end.
  Definition cell_apply {S} (f : S -> ipdata -> S) (s : S) : outcome S := apply_loop f (seq 0 numIps) s.

  (** Eval, Cell.h:80-93 *)
  Fixpoint eval_loop {S V} (f : S -> ipdata -> S * V) (ips : list nat) (s : S) (result : list V) : outcome (S * list V) :=
    match ips with
    | [] => Ok (s, result)
    | i :: ips' => obind (make_ip i) (fun ip => let (s', v) := f s ip in eval_loop f ips' s' (result ++ [v]))
    end.
  Definition cell_eval {S V} (f : S -> ipdata -> S * V) (s : S) : outcome (S * list V) := eval_loop f (seq 0 numIps) s [].
End Cell.

(** ** CellData and CellIpData caches

    [M]: matrices, [V]: vectors; [size] is Eigen's size().  The elements are an
    oracle: [elN d] = DofElement(d).GetNMatrix(ip), [elB d op] = op applied to the
    global derivatives, [elV d k] = ExtractNodeValues(k); they throw for unknown
    dof types and do not change during the life time of the cache. *)
Section Cache.
  Context {M V Op : Type} (msize : M -> nat) (vsize : V -> nat) (m0 : M) (v0 : V) (mul : M -> V -> V).
  Variables (elN : Z -> outcome M) (elB : Z -> Op -> outcome M) (elV : Z -> nat -> outcome V).

  Record cache := mkCache { cN : list (Z * M); cB : list (Z * M); cV : list (Z * list V) }.
  Definition cache_empty : cache := mkCache [] [] [].

  (** N, CellIpData.h:77-83 *)
  Definition get_N (c : cache) (d : Z) : cache * outcome M :=
    let (cur, m1) := dc_index m0 (cN c) d in
    if Nat.eqb (msize cur) 0 then
      match elN d with
      | Ok x => (mkCache (mset lt_dof d x m1) (cB c) (cV c), Ok x)
      | Throw => (mkCache m1 (cB c) (cV c), Throw) | UB => (mkCache m1 (cB c) (cV c), UB)
      end
    else (mkCache m1 (cB c) (cV c), Ok cur).

  (** B, CellIpData.h:89-95 *)
  Definition get_B (c : cache) (d : Z) (op : Op) : cache * outcome M :=
    let (cur, m1) := dc_index m0 (cB c) d in
    if Nat.eqb (msize cur) 0 then
      match elB d op with
      | Ok x => (mkCache (cN c) (mset lt_dof d x m1) (cV c), Ok x)
      | Throw => (mkCache (cN c) m1 (cV c), Throw) | UB => (mkCache (cN c) m1 (cV c), UB)
      end
    else (mkCache (cN c) m1 (cV c), Ok cur).

  Fixpoint put_at (l : list V) (n : nat) (x : V) : list V :=
    match l, n with [], _ => [] | _ :: l', O => x :: l' | y :: l', S n' => y :: put_at l' n' x end.

  (** GetNodeValues, CellData.h:33-43 *)
  Definition get_V (c : cache) (d : Z) (instance : nat) : cache * outcome V :=
    let (vs, m1) := @dc_index (list V) [] (cV c) d in
    let vs' := if Nat.leb (length vs) instance then vs ++ repeat v0 (instance + 1 - length vs) else vs in
    let cur := nth instance vs' v0 in
    if Nat.eqb (vsize cur) 0 then
      match elV d instance with
      | Ok x => (mkCache (cN c) (cB c) (mset lt_dof d (put_at vs' instance x) m1), Ok x)
      | Throw => (mkCache (cN c) (cB c) (mset lt_dof d vs' m1), Throw)
      | UB => (mkCache (cN c) (cB c) (mset lt_dof d vs' m1), UB)
      end
    else (mkCache (cN c) (cB c) (mset lt_dof d vs' m1), Ok cur).

  Inductive request := RN (d : Z) | RB (d : Z) (op : Op) | RV (d : Z) (instance : nat)
                     | RValue (d : Z) (instance : nat) | RApply (d : Z) (op : Op) (instance : nat).
  Inductive answer := AM (m : outcome M) | AV (v : outcome V).

  (** Value, CellIpData.h:48-51; Apply, CellIpData.h:70-73 (operands evaluated
      left to right; the order does not change the answers) *)
  Definition mulo (m : outcome M) (v : outcome V) : outcome V := obind m (fun m' => omap (mul m') v).
  Definition serve (c : cache) (r : request) : cache * answer :=
    match r with
    | RN d => let (c', m) := get_N c d in (c', AM m)
    | RB d op => let (c', m) := get_B c d op in (c', AM m)
    | RV d k => let (c', v) := get_V c d k in (c', AV v)
    | RValue d k => let (c1, m) := get_N c d in
        match m with Ok _ => let (c2, v) := get_V c1 d k in (c2, AV (mulo m v)) | _ => (c1, AV (mulo m Throw)) end
    | RApply d op k => let (c1, m) := get_B c d op in
        match m with Ok _ => let (c2, v) := get_V c1 d k in (c2, AV (mulo m v)) | _ => (c1, AV (mulo m Throw)) end
    end.
  Fixpoint serve_all (c : cache) (rs : list request) : list answer :=
    match rs with [] => [] | r :: rs' => let (c', a) := serve c r in a :: serve_all c' rs' end.
End Cache.
