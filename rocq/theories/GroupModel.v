(** * Model of nuto/base/Group.h

    Objects are identified by their memory address, a [Z].  A [Group<T>] stores
    pointers only, so the objects themselves do not appear in the model. *)
From Coq Require Import List ZArith Arith.
Import ListNotations.
Local Open Scope Z_scope.

(** [std::lower_bound] on a random access range of pointers (called in
    Group.h:26 and Group.h:37), the halving loop of the C++ library:
    [first]/[len] describe the remaining range.  [None] models an access out
    of range (undefined behaviour) or exhausted fuel; the theorems show that
    neither happens.  The fuel is the length of the range, and [len] at least
    halves in each round. *)
Fixpoint lower_bound_loop (fuel : nat) (l : list Z) (first len : nat) (a : Z) : option nat :=
  match len with
  | O => Some first
  | S _ =>
    match fuel with
    | O => None
    | S fuel' =>
      let half := Nat.div2 len in
      match nth_error l (first + half) with
      | None => None
      | Some m =>
        if m <? a then lower_bound_loop fuel' l (first + half + 1) (len - half - 1) a
        else lower_bound_loop fuel' l first half a
      end
    end
  end.

Definition lower_bound (l : list Z) (a : Z) : option nat :=
  lower_bound_loop (length l) l 0%nat (length l) a.

(** [std::vector::insert] at position [i] (Group.h:29). *)
Definition insert_at (i : nat) (a : Z) (l : list Z) : list Z := firstn i l ++ a :: skipn i l.

(** SortedUniqueVector::Add, Group.h:24-33.  Result: the new vector and whether
    the element was added. *)
Definition suv_add (l : list Z) (a : Z) : option (list Z * bool) :=
  match lower_bound l a with
  | None => None
  | Some i =>
    match nth_error l i with
    | None => Some (insert_at i a l, true)              (* it == end() *)
    | Some b => if b =? a then Some (l, false) else Some (insert_at i a l, true)
    end
  end.

(** SortedUniqueVector::Contains, Group.h:35-41. *)
Definition suv_contains (l : list Z) (a : Z) : option bool :=
  match lower_bound l a with
  | None => None
  | Some i =>
    match nth_error l i with
    | None => Some false
    | Some b => Some (b =? a)
    end
  end.

(** class Group, Group.h:14-140: [mData] chronological, [mUnique] sorted. *)
Record group := mkGroup { mData : list Z; mUnique : list Z }.

(** Group(), Group.h:55. *)
Definition group_empty : group := mkGroup [] [].

(** Group::Add, Group.h:85-89. *)
Definition group_add (g : group) (a : Z) : option group :=
  match suv_add (mUnique g) a with
  | None => None
  | Some (u, true) => Some (mkGroup (mData g ++ [a]) u)
  | Some (u, false) => Some (mkGroup (mData g) u)
  end.

(** Group::Contains, Group.h:93-96. *)
Definition group_contains (g : group) (a : Z) : option bool := suv_contains (mUnique g) a.

(** Group::Size, Group.h:105-108. *)
Definition group_size (g : group) : nat := length (mData g).

(** Adding the elements of a range one after the other: the loops of the
    initializer-list constructor (Group.h:67-71) and of Unite (Group.h:147-148). *)
Fixpoint group_add_all (g : group) (l : list Z) : option group :=
  match l with
  | [] => Some g
  | a :: l' => match group_add g a with None => None | Some g' => group_add_all g' l' end
  end.

(** Unite of two groups, Group.h:143-150. *)
Definition unite (one two : group) : option group := group_add_all one (mData two).

(** variadic Unite, Group.h:153-157: right-nested. *)
Fixpoint unite_all (one : group) (args : list group) : option group :=
  match args with
  | [] => Some one
  | a :: args' => match unite_all a args' with None => None | Some r => unite one r end
  end.

(** The loops of Difference ([keep = false], Group.h:160-168) and Intersection
    ([keep = true], Group.h:171-179). *)
Fixpoint filter_add (keep : bool) (two new : group) (l : list Z) : option group :=
  match l with
  | [] => Some new
  | t :: l' =>
    match group_contains two t with
    | None => None
    | Some c =>
      if Bool.eqb c keep
      then match group_add new t with None => None | Some new' => filter_add keep two new' l' end
      else filter_add keep two new l'
    end
  end.

Definition difference (one two : group) : option group := filter_add false two group_empty (mData one).
Definition intersection (one two : group) : option group := filter_add true two group_empty (mData one).

(** SymmetricDifference, Group.h:183-187. *)
Definition symmetric_difference (one two : group) : option group :=
  match unite one two, intersection one two with
  | Some u, Some i => difference u i
  | _, _ => None
  end.
