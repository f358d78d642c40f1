(** * Properties C01-C04 (nuto/base) *)
From Coq Require Import List ZArith Arith.
From Verif Require Import GroupModel GroupSpec GroupProofs BaseModel BaseSpec BaseProofs.
Import ListNotations.

(** C01.  Objects of any type [A] at any pairwise different addresses: after the
    Add history [history] (the code never fails), iteration shows the first
    occurrences in order, Size counts them, Contains decides membership. *)
Theorem C01_group_is_insertion_ordered_set :
  forall (A : Type) (dec : forall x y : A, {x = y} + {x <> y}) (addr : A -> Z)
    (Hinj : forall x y, addr x = addr y -> x = y) (history : list A),
  exists g, group_add_all group_empty (map addr history) = Some g /\
    mData g = map addr (first_occurrences dec history) /\
    group_size g = length (first_occurrences dec history) /\
    forall x, exists b, group_contains g (addr x) = Some b /\ (b = true <-> In x history).
Proof. exact @group_refines_set. Qed.
Print Assumptions C01_group_is_insertion_ordered_set.

(** the specification itself: no duplicates, same elements *)
Theorem C01_first_occurrences_spec :
  forall (A : Type) (dec : forall x y : A, {x = y} + {x <> y}) (l : list A),
  NoDup (first_occurrences dec l) /\ (forall x, In x (first_occurrences dec l) <-> In x l).
Proof.
  exact (fun A dec l => conj (NoDup_first_occ dec l [])
    (fun x => conj (fun h => proj1 (proj1 (in_first_occ dec l [] x) h))
                   (fun h => proj2 (in_first_occ dec l [] x) (conj h (fun f => f))))).
Qed.

Example C01_example :
  option_map mData (group_add_all group_empty [30; 10; 20; 10; 30; 5]%Z) = Some [30; 10; 20; 5]%Z.
Proof. reflexivity. Qed.

(** C02.  [group_ok] holds for every group a program can build
    ([C02_reachable_groups_ok]); the four set operations return the expected
    elements in the expected order, and a group that is again well-formed. *)
Theorem C02_reachable_groups_ok :
  forall l g, group_add_all group_empty l = Some g -> group_ok g.
Proof.
  exact (fun l g H => match group_history l with
    | ex_intro _ g' (conj H' (conj ok _)) =>
      eq_ind g' group_ok ok g (f_equal (fun o => match o with Some x => x | None => g end)
                                 (eq_trans (eq_sym H') H)) end).
Qed.

Theorem C02_unite :
  forall one two, group_ok one -> group_ok two ->
  exists g, unite one two = Some g /\ group_ok g /\
    mData g = mData one ++ filter (fun x => negb (mem Z.eq_dec x (mData one))) (mData two).
Proof. exact unite_spec. Qed.
Print Assumptions C02_unite.

Theorem C02_unite_many :
  forall args one, group_ok one -> Forall group_ok args ->
  exists g, unite_all one args = Some g /\ group_ok g /\
    mData g = first_occurrences Z.eq_dec (concat (map mData (one :: args))).
Proof. exact unite_all_spec. Qed.
Print Assumptions C02_unite_many.

Theorem C02_difference :
  forall one two, group_ok one -> group_ok two ->
  exists g, difference one two = Some g /\ group_ok g /\
    mData g = filter (fun x => negb (mem Z.eq_dec x (mData two))) (mData one).
Proof. exact difference_spec. Qed.
Print Assumptions C02_difference.

Theorem C02_intersection :
  forall one two, group_ok one -> group_ok two ->
  exists g, intersection one two = Some g /\ group_ok g /\
    mData g = filter (fun x => mem Z.eq_dec x (mData two)) (mData one).
Proof. exact intersection_spec. Qed.
Print Assumptions C02_intersection.

Theorem C02_symmetric_difference :
  forall one two, group_ok one -> group_ok two ->
  exists g, symmetric_difference one two = Some g /\ group_ok g /\
    mData g = filter (fun x => negb (mem Z.eq_dec x (mData two))) (mData one)
           ++ filter (fun x => negb (mem Z.eq_dec x (mData one))) (mData two).
Proof. exact symmetric_difference_spec. Qed.
Print Assumptions C02_symmetric_difference.

Example C02_example :
  exists g h, group_add_all group_empty [3; 1; 2]%Z = Some g /\ group_add_all group_empty [2; 7; 3]%Z = Some h /\
    group_ok g /\ group_ok h /\
    option_map mData (symmetric_difference g h) = Some [1; 7]%Z.
Proof.
  destruct (group_history [3; 1; 2]%Z) as (g & Hg & Hok & _).
  destruct (group_history [2; 7; 3]%Z) as (h & Hh & Hok' & _).
  exists g, h. repeat split; auto; try apply Hok; try apply Hok'.
  vm_compute in Hg, Hh. injection Hg as <-. injection Hh as <-. reflexivity.
Qed.

(** C03.  For every program of constructions, copies and assignments that does
    not overflow the [int] counter: object [i] carries the id
    "number of earlier constructions of its class" of the construction it
    stems from, and two objects of one class with equal ids stem from the same
    construction. *)
Theorem C03_unique_ids :
  forall ops s, uid_run uid_init ops = Some s ->
  length (objects s) = length (origins ops) /\
  (forall i o, nth_error (origins ops) i = Some o ->
     exists c, nth_error ops o = Some (UidConstruct c) /\
               nth_error (objects s) i = Some (c, Z.of_nat (constructions c o ops))) /\
  (forall i j oi oj x, nth_error (origins ops) i = Some oi -> nth_error (origins ops) j = Some oj ->
     nth_error (objects s) i = Some x -> nth_error (objects s) j = Some x -> oi = oj).
Proof. exact unique_ids_lemma. Qed.
Print Assumptions C03_unique_ids.

Example C03_example :
  option_map objects (uid_run uid_init
    [UidConstruct 0; UidConstruct 1; UidConstruct 0; UidCopy 2; UidConstruct 0; UidAssign 0 4])
  = Some [(0%nat, 2%Z); (1%nat, 0%Z); (0%nat, 1%Z); (0%nat, 1%Z); (0%nat, 2%Z)].
Proof. reflexivity. Qed.

(** C04.  After any history the live references and their values are exactly the
    pairs of the abstract list ([vv_abs_run] of BaseSpec.v), references are
    unique, and indexing and iteration follow insertion order. *)
Theorem C04_value_vector :
  forall (V : Type) (ops : list (vv_op V)) s', vv_run vv_init ops = Some s' ->
    let l := vv_abs_run 0 [] ops in
    (forall r v, vv_deref s' r = Some v <-> In (r, v) l) /\
    NoDup (map fst l) /\
    (forall i, vv_at s' i = option_map snd (nth_error l i)) /\ length (vdata s') = length l.
Proof. exact @value_vector_lemma. Qed.
Print Assumptions C04_value_vector.

(** in particular a reference obtained earlier stays valid with the same value
    while elements are only added or other elements are written *)
Theorem C04_references_stay_valid :
  forall (V : Type) (ops1 ops2 : list (vv_op V)) s1 s2 r v,
    vv_run vv_init ops1 = Some s1 -> vv_run s1 ops2 = Some s2 ->
    vv_deref s1 r = Some v ->
    (forall w, ~ In (VvWrite r w) ops2) ->
    (forall from to, ~ In (VvErase from to) ops2) ->
    vv_deref s2 r = Some v.
Proof. exact @vv_reference_stable. Qed.
Print Assumptions C04_references_stay_valid.

Example C04_example :
  exists s, vv_run vv_init [VvAdd 10; VvAdd 20; VvAdd 30; VvWrite 1 21; VvErase 0 1; VvAdd 40] = Some s /\
    vv_at s 0 = Some 21 /\ vv_at s 2 = Some 40 /\ vv_deref s 0 = None.
Proof. eexists. split; [reflexivity|]. repeat split. Qed.
