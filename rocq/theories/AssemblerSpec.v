(** * Specifications for C17-C19 *)
From Coq Require Import List ZArith Arith Bool.
From Verif Require Import Algebra DofModel DofSpec AssemblerModel.
Import ListNotations.

Section Spec.
  Context {F : CRing}.

  (** what a local vector [x] with global numbers [nums] contributes to entry [n] *)
  Definition contrib (nums : list Z) (x : vec F) (n : nat) : F :=
    sum_n (length nums) (fun i => if Z.eqb (nth i nums 0%Z) (Z.of_nat n) then nth i x r0 else r0).

  (** the same for a local matrix and entry (r, c) *)
  Definition contrib2 (numI numJ : list Z) (m : dmat F) (r c : nat) : F :=
    sum_n (length numI) (fun i => sum_n (length numJ) (fun j =>
      if andb (Z.eqb (nth i numI 0%Z) (Z.of_nat r)) (Z.eqb (nth j numJ 0%Z) (Z.of_nat c)) then dat m i j else r0)).

  (** the contribution of a cell to entry [n] of dof type [d]; zero without a block *)
  Definition vcell_contrib (c : vcell F) (d : Z) (n : nat) : F :=
    match mfind lt_dof d (vc_val c) with Some x => contrib (vc_num c d) x n | None => r0 end.
  Definition mcell_contrib (c : mcell F) (a b : Z) (i j : nat) : F :=
    match mfind lt_dofpair (a, b) (mc_val c) with
    | Some m => contrib2 (mc_num c a) (mc_num c b) m i j | None => r0 end.

  (** the numbers of a dof are valid indices into a vector of size [n] *)
  Definition numbers_below (nums : list Z) (n : nat) : Prop := Forall (fun k => 0 <= k < Z.of_nat n)%Z nums.

  (** DofInfo knows the sizes [N] of the dof types *)
  Definition sizes_known (info : dof_info) (dofTypes : list Z) (N : Z -> nat) : Prop :=
    forall d, In d dofTypes -> exists a b, mfind lt_dof d (numIndependent info) = Some a /\
      mfind lt_dof d (numDependent info) = Some b /\ (0 <= a + b)%Z /\ N d = Z.to_nat (a + b).

  (** a cell fits: local values and numbers belong together and the numbers are valid *)
  Definition vcell_fits (dofTypes : list Z) (N : Z -> nat) (c : vcell F) : Prop :=
    ascending (vc_val c) /\
    forall d x, In d dofTypes -> mfind lt_dof d (vc_val c) = Some x ->
      length x = length (vc_num c d) /\ numbers_below (vc_num c d) (N d).

  (** ascending pairs of keys, as in every std::map with CompareDofPairs *)
  Definition ascending2 {B} (m : list ((Z * Z) * B)) : Prop :=
    Sorted.StronglySorted (fun a b => lt_dofpair a b = true) (map fst m).

  (** a local matrix has a block for every pair of its dof types, and the blocks fit *)
  Definition mcell_fits (dofTypes : list Z) (N : Z -> nat) (c : mcell F) : Prop :=
    ascending2 (mc_val c) /\
    forall a b, In a dofTypes -> In b dofTypes -> In a (mat_types (mc_val c)) -> In b (mat_types (mc_val c)) ->
      exists m, mfind lt_dofpair (a, b) (mc_val c) = Some m /\
        drows m = length (mc_num c a) /\ dcols m = length (mc_num c b) /\
        numbers_below (mc_num c a) (N a) /\ numbers_below (mc_num c b) (N b).

  (** C19: abstract state of an assembler: sizes and values *)
  Record avec := mkAV { av_size : Z -> option nat; av_val : Z -> nat -> F }.
  Definition av_empty : avec := mkAV (fun _ => None) (fun _ _ => r0).

  Definition add_contrib (v : dofvec F) (numbering : list (Z * list Z)) (dofTypes : list Z) (d : Z) (n : nat) : F :=
    match mfind lt_dof d numbering, mfind lt_dof d v with
    | Some nums, Some x =>
      if orb (match dofTypes with [] => true | _ => false end) (existsb (Z.eqb d) dofTypes) then contrib nums x n else r0
    | _, _ => r0
    end.

  Definition av_step (s : avec) (o : va_op F) : avec :=
    match o with
    | VaResize sizes =>   (* the named dof types get a new size and the value zero *)
      mkAV (fun d => match find (fun p => Z.eqb (fst p) d) sizes with Some p => Some (snd p) | None => av_size s d end)
           (fun d n => if existsb (fun p => Z.eqb (fst p) d) sizes then r0 else av_val s d n)
    | VaAdd v num ds => mkAV (av_size s) (fun d n => radd (av_val s d n) (add_contrib v num ds d n))
    | VaSetZero => mkAV (av_size s) (fun _ _ => r0)
    end.

  (** an operation fits the current sizes *)
  Definition va_fits (s : avec) (o : va_op F) : Prop :=
    match o with
    | VaResize sizes => NoDup (map fst sizes)
    | VaAdd v num ds => ascending v /\ ascending num /\ NoDup ds /\
        forall d nums, mfind lt_dof d num = Some nums -> (ds = [] \/ In d ds) ->
          exists x n, mfind lt_dof d v = Some x /\ length x = length nums /\
            av_size s d = Some n /\ numbers_below nums n
    | VaSetZero => True
    end.
  Fixpoint va_all_fit (s : avec) (ops : list (va_op F)) : Prop :=
    match ops with [] => True | o :: ops' => va_fits s o /\ va_all_fit (av_step s o) ops' end.

  (** the matrix assembler: sum of the contributions since the last reset *)
  Definition madd_contrib (m : dofdense F) (numbering : list (Z * list Z)) (dofTypes : list Z) (a b : Z) (i j : nat) : F :=
    let sel d := orb (match dofTypes with [] => true | _ => false end) (existsb (Z.eqb d) dofTypes) in
    match mfind lt_dof a numbering, mfind lt_dof b numbering, mfind lt_dofpair (a, b) m with
    | Some na, Some nb, Some x => if andb (sel a) (sel b) then contrib2 na nb x i j else r0
    | _, _, _ => r0
    end.
  Fixpoint since_reset (ops : list (ma_op F)) (acc : Z -> Z -> nat -> nat -> F) : Z -> Z -> nat -> nat -> F :=
    match ops with
    | [] => acc
    | MaAdd m n ds :: ops' => since_reset ops' (fun a b i j => radd (acc a b i j) (madd_contrib m n ds a b i j))
    | MaSetZero :: ops' => since_reset ops' (fun _ _ _ _ => r0)
    | _ :: ops' => since_reset ops' acc
    end.

  Definition ma_fits (sizes : list (Z * nat)) (o : ma_op F) : Prop :=
    match o with
    | MaAdd m num ds => ascending2 m /\ ascending num /\ NoDup ds /\
        (forall a b na nb, mfind lt_dof a num = Some na -> mfind lt_dof b num = Some nb ->
          (ds = [] \/ In a ds) -> (ds = [] \/ In b ds) ->
          exists x, mfind lt_dofpair (a, b) m = Some x /\ drows x = length na /\ dcols x = length nb) /\
        (forall a na, mfind lt_dof a num = Some na -> (ds = [] \/ In a ds) ->
          exists n, In (a, n) sizes /\ numbers_below na n)
    | _ => True
    end.
End Spec.
