(** * Specifications for C10-C16 *)
From Coq Require Import List ZArith Arith Bool Reals.
From Verif Require Import Algebra DofModel ConstraintModel.
Import ListNotations.

(** ** C12: an equation log.  A new equation conflicts with an accepted one if they
    share the dependent dof, or the dependent dof of one occurs among the
    independent terms of the other. *)
Definition key_eqb (a b : dofkey) : bool := Z.eqb (fst a) (fst b) && Z.eqb (snd a) (snd b).
Definition ind_keys (e : equation) : list dofkey := map tkey (eind e).
Definition conflicts (e e' : equation) : bool :=
  key_eqb (edep e) (edep e') || existsb (key_eqb (edep e)) (ind_keys e')
  || existsb (key_eqb (edep e')) (ind_keys e).

Definition eqlog := list (Z * equation).
Definition log_add (log : eqlog) (dof : Z) (e : equation) : eqlog * bool :=
  if existsb (fun p => conflicts e (snd p)) log then (log, true) else (log ++ [(dof, e)], false).
(** adding several: up to the first conflict; none at all is an error *)
Fixpoint log_add_loop (log : eqlog) (dof : Z) (es : list equation) : eqlog * bool :=
  match es with
  | [] => (log, false)
  | e :: es' => let (log', threw) := log_add log dof e in
                if threw then (log', true) else log_add_loop log' dof es'
  end.
Definition log_step (log : eqlog) (o : cons_op) : eqlog * bool :=
  match o with
  | AddOne d e => log_add log d e
  | AddMany d [] => (log, true)
  | AddMany d es => log_add_loop log d es
  end.
Definition log_run (ops : list cons_op) : eqlog := fold_left (fun l o => fst (log_step l o)) ops [].

(** every accepted equation of dof type [dof], in the order of acceptance *)
Definition log_of (dof : Z) (log : eqlog) : list equation :=
  map snd (filter (fun p => Z.eqb (fst p) dof) log).

Definition op_equations (o : cons_op) : list equation :=
  match o with AddOne _ e => [e] | AddMany _ es => es end.
(** no equation contains its own dependent dof among its independent terms *)
Definition no_self_reference (ops : list cons_op) : Prop :=
  forall o e, In o ops -> In e (op_equations o) -> ~ In (edep e) (ind_keys e).

(** ** C10: all dofs of a list of nodes, node by node, component by component *)
Definition all_dofs (size : Z -> nat) (group : list Z) : list dofkey :=
  @flat_map Z dofkey (fun a => @map nat dofkey (fun c => (a, Z.of_nat c)) (seq 0 (size a))) group.

(** ** C13: an equation holds for the dof values [u] at time [t];
    [num] gives the number of a dof *)
Definition holds (num : dofkey -> nat) (u : nat -> R) (t : R) (e : equation) : Prop :=
  (u (num (edep e)) + fold_right (fun tm s => coef tm * u (num (tkey tm)) + s) 0 (eind e) = erhs e t)%R.

(** the prescribed value of dof number [i]: rhs(t) of the equation that makes it
    dependent, zero if there is none *)
Definition prescribed (num : dofkey -> nat) (es : list equation) (t : R) (i : nat) : R :=
  match find (fun e => Nat.eqb (num (edep e)) i) es with Some e => erhs e t | None => 0%R end.

(** the numbering is fit for the equations: every dof they mention has a number
    below [N], different dofs have different numbers *)
Definition numbered (h : nodes) (es : list equation) (N : nat) (num : dofkey -> nat) : Prop :=
  (forall e k, In e es -> In k (edep e :: ind_keys e) -> dof_number h k = Outcome.Ok (Z.of_nat (num k)) /\ num k < N) /\
  (forall e e' k k', In e es -> In e' es -> In k (edep e :: ind_keys e) -> In k' (edep e' :: ind_keys e') ->
     num k = num k' -> k = k').

(** ** C16 *)
Definition dot (a b : list R) : R := fold_right Rplus 0%R (map (fun p => (fst p * snd p)%R) (combine a b)).
(** the equation holds for the values [u] of the components of [node] *)
Definition holds_at_node (u : list R) (t : R) (e : equation) : Prop :=
  let val (k : dofkey) := nth (Z.to_nat (snd k)) u 0%R in
  (val (edep e) + fold_right (fun tm s => coef tm * val (tkey tm) + s) 0 (eind e) = erhs e t)%R.
