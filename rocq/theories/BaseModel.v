(** * Models of nuto/base/UniqueId.h and nuto/base/ValueVector.h *)
From Coq Require Import List ZArith Arith.
Import ListNotations.
Local Open Scope Z_scope.

(** ** UniqueId<T>, UniqueId.h:9-29

    One static [int mIdCounter] per class [T] (classes are named by [nat]); the
    default constructor takes the counter and increments it (UniqueId.h:13-16).
    Copy construction and copy assignment are the implicit ones and copy [mId].
    Objects are named by the order in which they come into existence.
    [mIdCounter++] on INT_MAX is signed overflow, hence undefined: [None]. *)
Inductive uid_op :=
| UidConstruct (cls : nat)
| UidCopy (src : nat)            (* T b(a) *)
| UidAssign (dst src : nat).     (* b = a  *)

Definition int_max : Z := 2147483647.

Record uid_state := mkUid { counter : nat -> Z; objects : list (nat * Z) }.

(** the program start: [int UniqueId<T>::mIdCounter = 0], UniqueId.h:28-29 *)
Definition uid_init : uid_state := mkUid (fun _ => 0) [].

Definition upd (f : nat -> Z) (k : nat) (v : Z) : nat -> Z :=
  fun i => if Nat.eqb i k then v else f i.

Fixpoint set_nth {A} (n : nat) (x : A) (l : list A) : list A :=
  match l, n with
  | [], _ => []
  | _ :: l', O => x :: l'
  | y :: l', S n' => y :: set_nth n' x l'
  end.

(** [None]: undefined behaviour (overflow) or an ill-formed program (use of an
    object that does not exist, or assignment between different classes, which
    does not compile). *)
Definition uid_step (s : uid_state) (o : uid_op) : option uid_state :=
  match o with
  | UidConstruct c =>
    if counter s c =? int_max then None
    else Some (mkUid (upd (counter s) c (counter s c + 1)) (objects s ++ [(c, counter s c)]))
  | UidCopy src =>
    match nth_error (objects s) src with
    | None => None
    | Some x => Some (mkUid (counter s) (objects s ++ [x]))
    end
  | UidAssign dst src =>
    match nth_error (objects s) dst, nth_error (objects s) src with
    | Some d, Some x =>
      if Nat.eqb (fst d) (fst x) then Some (mkUid (counter s) (set_nth dst x (objects s))) else None
    | _, _ => None
    end
  end.

Fixpoint uid_run (s : uid_state) (ops : list uid_op) : option uid_state :=
  match ops with
  | [] => Some s
  | o :: ops' => match uid_step s o with None => None | Some s' => uid_run s' ops' end
  end.

(** ** ValueVector<T>, ValueVector.h:16-83

    The heap maps addresses to live values; [make_unique] (ValueVector.h:28,34)
    allocates a fresh address, erasing a [unique_ptr] frees it.  Addresses are
    not reused in the model: a reference to an erased element is dangling
    whether or not the allocator hands out the same address again. *)
Section ValueVector.
  Context {V : Type}.

  Record vv_state := mkVV { heap : list (option V); vdata : list nat }.

  Definition vv_init : vv_state := mkVV [] [].

  (** dereferencing a reference: [None] is undefined behaviour *)
  Definition vv_deref (s : vv_state) (r : nat) : option V :=
    match nth_error (heap s) r with Some (Some v) => Some v | _ => None end.

  (** Add, ValueVector.h:25-36; returns the reference [*mData.back()] *)
  Definition vv_add (s : vv_state) (v : V) : vv_state * nat :=
    (mkVV (heap s ++ [Some v]) (vdata s ++ [length (heap s)]), length (heap s)).

  (** assignment through a reference *)
  Definition vv_write (s : vv_state) (r : nat) (v : V) : option vv_state :=
    match vv_deref s r with
    | None => None
    | Some _ => Some (mkVV (set_nth r (Some v) (heap s)) (vdata s))
    end.

  (** freeing a list of addresses: the destructors of the erased unique_ptrs *)
  Fixpoint vv_free (h : list (option V)) (l : list nat) : list (option V) :=
    match l with [] => h | r :: l' => vv_free (set_nth r None h) l' end.

  (** Erase(from, to), ValueVector.h:77-80: [std::vector::erase]; a range that
      is not inside the vector is undefined.  Erase(it), ValueVector.h:72-75,
      is the range [it, it+1). *)
  Definition vv_erase (s : vv_state) (from to : nat) : option vv_state :=
    if andb (Nat.leb from to) (Nat.leb to (length (vdata s)))
    then Some (mkVV (vv_free (heap s) (firstn (to - from) (skipn from (vdata s))))
                    (firstn from (vdata s) ++ skipn to (vdata s)))
    else None.

  (** operator[], ValueVector.h:63-70 *)
  Definition vv_at (s : vv_state) (i : nat) : option V :=
    match nth_error (vdata s) i with None => None | Some r => vv_deref s r end.

  Inductive vv_op := VvAdd (v : V) | VvWrite (r : nat) (v : V) | VvErase (from to : nat).

  Definition vv_step (s : vv_state) (o : vv_op) : option vv_state :=
    match o with
    | VvAdd v => Some (fst (vv_add s v))
    | VvWrite r v => vv_write s r v
    | VvErase from to => vv_erase s from to
    end.

  Fixpoint vv_run (s : vv_state) (ops : list vv_op) : option vv_state :=
    match ops with
    | [] => Some s
    | o :: ops' => match vv_step s o with None => None | Some s' => vv_run s' ops' end
    end.
End ValueVector.
Arguments vv_state : clear implicits.
Arguments vv_op : clear implicits.
