(** * Models of nuto/mechanics/nodes/NodeSimple.h (dof numbers),
      nuto/mechanics/dofs/DofNumbering.cpp and nuto/mechanics/constraints *)
From Coq Require Import List ZArith Arith Bool Reals.
From Flocq Require Import Core.
From Verif Require Import Algebra Outcome GroupModel DofModel.
Import ListNotations.
Local Open Scope Z_scope.

(** ** Nodes
    [mDofNumbers] of the node at each address; GetNumValues() is its length
    (NodeSimple.h:18-36, 82-85: both vectors get the same size).  Node values are
    not needed here. *)
Definition nodes := Z -> list Z.

(** one dof: node address and component *)
Definition dofkey := (Z * Z)%type.

(** GetDofNumber, NodeSimple.h:56-60: out of range is undefined. *)
Definition dof_number (h : nodes) (k : dofkey) : outcome Z :=
  if Z.ltb (snd k) 0 then UB
  else match nth_error (h (fst k)) (Z.to_nat (snd k)) with Some n => Ok n | None => UB end.

(** ** Term and Equation, Term.h, Equation.h *)
Record term := mkTerm { tkey : dofkey; coef : R }.
(** the dependent term always has coefficient 1 (Equation.h:19-23) *)
Record equation := mkEq { edep : dofkey; eind : list term; erhs : R -> R }.

(** Term::Term, Term.h:18-28: throws if component >= GetNumValues() (negative
    components pass). *)
Definition new_term (h : nodes) (node comp : Z) (c : R) : outcome term :=
  if Z.leb (Z.of_nat (length (h node))) comp then Throw else Ok (mkTerm (node, comp) c).

(** Equation::Equation, Equation.h:19-23 *)
Definition new_equation (h : nodes) (node comp : Z) (rhs : R -> R) : outcome equation :=
  omap (fun t => mkEq (tkey t) [] rhs) (new_term h node comp 1%R).

(** ** Constraints, Constraints.h:47-130 *)

(** std::set<Term, TermCompare>, Constraints.h:127-128: the comparison (node
    address, then component; Constraints.cpp:157-162) is [lt_dofpair] on
    [(address, component)]; a set is a map to [unit]. *)
Definition termset := list (dofkey * unit).
Definition ts_contains (s : termset) (k : dofkey) : bool :=
  match mfind lt_dofpair k s with Some _ => true | None => false end.
(** std::set::insert does not replace an existing equivalent element; for
    [unit] values this is the same as overwriting *)
Definition ts_insert (s : termset) (k : dofkey) : termset := mset lt_dofpair k tt s.

Record constraints := mkCons { deps : termset; indeps : termset; eqs : dc (list equation) }.
Definition cons_empty : constraints := mkCons [] [] [].

(** TermChecker::CheckEquation, Constraints.cpp:164-189: [None] = throws *)
Definition check_equation (c : constraints) (e : equation) : option (termset * termset) :=
  if ts_contains (deps c) (edep e) then None
  else if ts_contains (indeps c) (edep e) then None
  else if existsb (fun t => ts_contains (deps c) (tkey t)) (eind e) then None
  else Some (ts_insert (deps c) (edep e),
             fold_left (fun s t => ts_insert s (tkey t)) (eind e) (indeps c)).

(** Constraints::Add(dof, equation), Constraints.cpp:7-12; the flag tells whether
    the call threw. *)
Definition cons_add (c : constraints) (dof : Z) (e : equation) : constraints * bool :=
  match check_equation c e with
  | None => (c, true)
  | Some (d, i) =>
    let l := match mfind lt_dof dof (eqs c) with Some l => l | None => [] end in
    (mkCons d i (mset lt_dof dof (l ++ [e]) (eqs c)), false)
  end.

(** the loop of Constraints::Add(dof, equations): an exception leaves the loop *)
Fixpoint cons_add_loop (c : constraints) (dof : Z) (es : list equation) : constraints * bool :=
  match es with
  | [] => (c, false)
  | e :: es' => let (c', threw) := cons_add c dof e in
                if threw then (c', true) else cons_add_loop c' dof es'
  end.
(** Constraints::Add(dof, equations), Constraints.cpp:14-21: an empty collection throws *)
Definition cons_add_many (c : constraints) (dof : Z) (es : list equation) : constraints * bool :=
  match es with [] => (c, true) | _ => cons_add_loop c dof es end.

Inductive cons_op := AddOne (dof : Z) (e : equation) | AddMany (dof : Z) (es : list equation).
Definition cons_step (c : constraints) (o : cons_op) : constraints * bool :=
  match o with AddOne d e => cons_add c d e | AddMany d es => cons_add_many c d es end.
Definition cons_run (c : constraints) (ops : list cons_op) : constraints :=
  fold_left (fun c o => fst (cons_step c o)) ops c.

(** GetNumEquations, Constraints.cpp:139-144, and the equations of a dof type *)
Definition equations (c : constraints) (dof : Z) : list equation :=
  match mfind lt_dof dof (eqs c) with Some l => l | None => [] end.
Definition has_equations (c : constraints) (dof : Z) : bool :=
  match mfind lt_dof dof (eqs c) with Some _ => true | None => false end.
Definition num_equations (c : constraints) (dof : Z) : nat := length (equations c dof).

(** ** DofNumbering::Build, DofNumbering.cpp *)

Definition upd (h : nodes) (a : Z) (l : list Z) : nodes := fun x => if Z.eqb x a then l else h x.

(** InitialUnconstrainedNumbering, DofNumbering.cpp:7-14 (file lines of the .cpp):
    [k] is the running dofNumber; components 0..n-1 of a node get k, k+1, ... *)
Fixpoint initial_numbering (h : nodes) (group : list Z) (k : nat) : nodes * nat :=
  match group with
  | [] => (h, k)
  | a :: g => let n := length (h a) in
              initial_numbering (upd h a (map Z.of_nat (seq k n))) g (k + n)
  end.

(** the check of DofNumbering.cpp:34-49: true = a node is missing, the call throws;
    [None]: Group::Contains failed (excluded by C01) *)
Fixpoint any_missing (g : group) (l : list dofkey) : option bool :=
  match l with
  | [] => Some false
  | k :: l' => match group_contains g (fst k) with
               | None => None
               | Some true => any_missing g l'
               | Some false => Some true
               end
  end.
Definition equation_keys (e : equation) : list dofkey := edep e :: map tkey (eind e).

(** Build, DofNumbering.cpp:32-58: the node numbers after the call, and what the call returns (number of independent and
    dependent dofs) or that it throws *)
Definition build_call (h : nodes) (g : group) (dof : Z) (c : constraints) : nodes * outcome (Z * Z) :=
  match any_missing g (flat_map equation_keys (equations c dof)) with
  | None => (h, UB)
  | Some true => (h, Throw)
  | Some false =>
    let numDependent := Z.of_nat (num_equations c dof) in
    let (h', numDofs) := initial_numbering h (mData g) 0 in
    (h', Ok (Z.of_nat numDofs - numDependent, numDependent)%Z)
  end.
(** the node numbers and the result of a call that returns *)
Definition build_numbering (h : nodes) (g : group) (dof : Z) (c : constraints) : outcome (nodes * Z * Z) :=
  let (h', r) := build_call h g dof c in omap (fun nums => (h', fst nums, snd nums)) r.

(** DofNumbering::Get, DofNumbering.cpp:60-67 *)
Fixpoint get_numbers (h : nodes) (l : list Z) (comp : Z) : outcome (list Z) :=
  match l with
  | [] => Ok []
  | a :: l' => obind (dof_number h (a, comp)) (fun n => omap (cons n) (get_numbers h l' comp))
  end.

(** ** GetJKNumbering, Constraints.cpp:52-87 *)

(** lines 60-73: the dependent dof numbers are read and checked one by one;
    writing isDofConstrained at a negative index is undefined *)
Fixpoint dependent_numbers (h : nodes) (numDofs : nat) (es : list equation) : outcome (list nat) :=
  match es with
  | [] => Ok []
  | e :: es' =>
    obind (dof_number h (edep e)) (fun n =>
      if Z.eqb n (-1) then Throw
      else if Z.leb (Z.of_nat numDofs) n then Throw
      else if Z.ltb n 0 then UB
      else omap (cons (Z.to_nat n)) (dependent_numbers h numDofs es'))
  end.

Definition mem_nat (n : nat) (l : list nat) : bool := existsb (Nat.eqb n) l.

(** lines 54-57: VectorXi of negative size is undefined; lines 75-82: an
    entry beyond numJ entries is undefined (it happens iff a dof is dependent
    twice); result: mIndices *)
Definition jk_numbering (h : nodes) (numDofs : nat) (es : list equation) : outcome (list nat) :=
  if Nat.ltb numDofs (length es) then UB
  else
    obind (dependent_numbers h numDofs es) (fun dep =>
      let ind := filter (fun i => negb (mem_nat i dep)) (seq 0 numDofs) in
      if Nat.eqb (length ind) (numDofs - length es) then Ok (ind ++ dep) else UB).

(** ** BuildUnitConstraintMatrix, Constraints.cpp:89-137 *)

(** position of [x] in the permutation: the transposed permutation, lines 99-100 *)
Fixpoint index_of (x : nat) (l : list nat) : option nat :=
  match l with
  | [] => None
  | y :: l' => if Nat.eqb x y then Some O else option_map S (index_of x l')
  end.

(** std::abs(coefficient) > 1.e-18, line 130 *)
Definition keep_coef (c : R) : bool := if Rlt_dec (/ 10 ^ 18) (Rabs c) then true else false.

(** lines 120-133 for one equation.  Reading reverseJKNumbering out of range and a
    violated assert (line 125; without asserts the triplet lies outside the
    matrix) are undefined.  The test for -1 in line 126 comes after that read. *)
Fixpoint term_triplets (h : nodes) (jk : list nat) (numInd : nat) (row : nat) (ts : list term)
  : outcome (list (nat * nat * R)) :=
  match ts with
  | [] => Ok []
  | t :: ts' =>
    obind (dof_number h (tkey t)) (fun n =>
      if Z.ltb n 0 then UB
      else match index_of (Z.to_nat n) jk with
           | None => UB
           | Some col =>
             if Nat.ltb col numInd then
               omap (fun l => if keep_coef (coef t) then (row, col, (- coef t)%R) :: l else l)
                    (term_triplets h jk numInd row ts')
             else UB
           end)
  end.

Fixpoint equation_triplets (h : nodes) (jk : list nat) (numInd : nat) (es : list equation)
  : outcome (list (nat * nat * R)) :=
  match es with
  | [] => Ok []
  | e :: es' =>
    obind (dof_number h (edep e)) (fun row =>
      if Z.ltb row 0 then UB
      else obind (term_triplets h jk numInd (Z.to_nat row) (eind e)) (fun l =>
             omap (fun l' => l ++ l') (equation_triplets h jk numInd es')))
  end.

Definition unit_constraint_matrix (h : nodes) (c : constraints) (dof : Z) (numDofs : nat)
  : outcome (smat R_cring) :=
  if negb (has_equations c dof) then
    Ok (mkMat (F := R_cring) numDofs numDofs (map (fun i => (i, i, 1%R)) (seq 0 numDofs)))
  else
    let es := equations c dof in
    obind (jk_numbering h numDofs es) (fun jk =>
      let numInd := (numDofs - length es)%nat in
      let units := map (fun i => (nth i jk O, i, 1%R)) (seq 0 numInd) in
      omap (fun l => mkMat (F := R_cring) numDofs numInd (units ++ l))
           (equation_triplets h jk numInd es)).

(** ** right hand sides *)

(** GetRhs, Constraints.cpp:23-34 *)
Definition get_rhs (c : constraints) (dof : Z) (time : R) : list R :=
  map (fun e => erhs e time) (equations c dof).

(** conversion to float and back: rounding to 24 bits, to nearest, ties to even *)
Definition to_float (x : R) : R := round radix2 (FLT_exp (-149) 24) ZnearestE x.

(** GetSparseGlobalRhs, Constraints.cpp:37-50: a map from dof numbers to stored
    entries, absent means zero; [coeffRef] outside the vector is undefined.
    [conv] is the conversion to the scalar type of the vector, which is
    [SparseVector<float>] (line 44). Overflow of the conversion is not modelled. *)
Fixpoint sparse_rhs_loop (conv : R -> R) (h : nodes) (numDofs : nat) (es : list equation) (time : R)
    (acc : list (Z * R)) : outcome (list (Z * R)) :=
  match es with
  | [] => Ok acc
  | e :: es' =>
    obind (dof_number h (edep e)) (fun n =>
      if Z.ltb n 0 then UB else if Z.leb (Z.of_nat numDofs) n then UB
      else sparse_rhs_loop conv h numDofs es' time (mset lt_dof n (conv (erhs e time)) acc))
  end.
Definition sparse_global_rhs (h : nodes) (c : constraints) (dof : Z) (numDofs : nat) (time : R)
  : outcome (list (Z * R)) := sparse_rhs_loop to_float h numDofs (equations c dof) time [].
Definition sparse_at (v : list (Z * R)) (i : nat) : R :=
  match mfind lt_dof (Z.of_nat i) v with Some x => x | None => 0%R end.

(** ** Direction, ConstraintCompanion.cpp:57-80 *)

(** [maxCoeff(&i)] of the absolute values: the first index of the maximum *)
Fixpoint max_abs_from (best : nat) (bv : R) (i : nat) (l : list R) : nat * R :=
  match l with
  | [] => (best, bv)
  | x :: l' => if Rlt_dec bv (Rabs x) then max_abs_from i (Rabs x) (S i) l'
               else max_abs_from best bv (S i) l'
  end.
Definition max_abs (l : list R) : option (nat * R) :=
  match l with [] => None | x :: l' => Some (max_abs_from 0 (Rabs x) 1 l') end.

Definition norm2 (l : list R) : R := sqrt (fold_right (fun x s => (x * x + s)%R) 0%R l).
(** [normalize()]: divides by the norm (the norm is positive here) *)
Definition normalize (l : list R) : list R := map (fun x => (x / norm2 l)%R) l.

(** the loop of lines 74-76 *)
Fixpoint direction_terms (h : nodes) (node : Z) (m : nat) (dm : R) (i : nat) (l : list R) : outcome (list term) :=
  match l with
  | [] => Ok []
  | x :: l' =>
    if Rlt_dec 0 (Rabs x) then
      if Nat.eqb i m then direction_terms h node m dm (S i) l'
      else obind (new_term h node (Z.of_nat i) (- x / dm)%R) (fun t =>
             omap (cons t) (direction_terms h node m dm (S i) l'))
    else direction_terms h node m dm (S i) l'
  end.

Definition direction (h : nodes) (node : Z) (d : list R) (rhs : R -> R) : outcome equation :=
  match max_abs d with
  | None => UB                                    (* maxCoeff of an empty vector *)
  | Some (m, v) =>
    if Rlt_dec v (/ 10 ^ 6) then Throw
    else
      let n := normalize d in
      let dm := nth m n 0%R in
      obind (new_equation h node (Z.of_nat m) (fun t => (rhs t / dm)%R)) (fun e =>
        omap (fun ts => mkEq (edep e) (eind e ++ ts) (erhs e)) (direction_terms h node m dm 0 n))
  end.
