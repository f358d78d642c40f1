(** * Model of nuto/math/Gmres.h
    Numbers are exact reals.  A vector is a function of the index, of which the first [n] entries count.  The sparse matrix
    and the preconditioner are matrices: precond.solve multiplies by [P].  Eigen's makeGivens is an argument [givens];
    applyOnTheLeft with the adjoint rotation is [rot]. *)
From Coq Require Import List Arith Bool Reals.
From Verif Require Import RSum Outcome AdaptiveModel CollisionModel.
Import ListNotations.
Local Open Scope R_scope.

Definition gvec := nat -> R.
Definition gmat := nat -> nat -> R.
Definition gmul (n : nat) (A : gmat) (x : gvec) : gvec := fun i => rsum n (fun j => A i j * x j).
Definition gdot (n : nat) (x y : gvec) : R := rsum n (fun i => x i * y i).
Definition gnorm (n : nat) (x : gvec) : R := sqrt (gdot n x x).

(** the plane rotation of rows l and l + 1 with (c, s) *)
Definition rot (l : nat) (g : R * R) (v : gvec) : gvec := fun r =>
  if Nat.eqb r l then fst g * v l - snd g * v (S l)
  else if Nat.eqb r (S l) then snd g * v l + fst g * v (S l) else v r.
(** lines 76-79: the rotations 0 .. m-1 in this order *)
Fixpoint rots (G : nat -> R * R) (m : nat) (v : gvec) : gvec :=
  match m with O => v | S l => rot l (G l) (rots G l v) end.

(** lines 65-69: Gram-Schmidt against the columns 0 .. m-1; result: the coefficients and what is left of w *)
Fixpoint gram (n : nat) (V : nat -> gvec) (m : nat) (w : gvec) : gvec * gvec :=
  match m with
  | O => (fun _ => 0, w)
  | S l => let (h, w1) := gram n V l w in
           let x := gdot n w1 (V l) in
           (fun r => if Nat.eqb r l then x else h r, fun k => w1 k - x * V l k)
  end.

(** triangularView<Upper>().solveInPlace(y), from the last row upwards: [k] rows are left, [acc] are the solved ones.  A
    row whose right hand side has become 0 is not divided; division of something else by 0 gives no number ([None]). *)
Fixpoint back_solve (Hc : nat -> gvec) (s : gvec) (m k : nat) (acc : gvec) : option gvec :=
  match k with
  | O => Some acc
  | S l =>
    let num := s l - rsum m (fun j => if Nat.ltb l j then Hc j l * acc j else 0) in
    if reqb num 0 then back_solve Hc s m l (fun j => if Nat.eqb j l then 0 else acc j)
    else if reqb (Hc l l) 0 then None
    else back_solve Hc s m l (fun j => if Nat.eqb j l then num / Hc l l else acc j)
  end.

(** columns of V, columns of H after the rotations, the rotations and the vector s *)
Record arnoldi := mkArn { aV : nat -> gvec; aH : nat -> gvec; aG : nat -> R * R; aS : gvec }.

(** the result of one pass of the while loop: x after an early return, x at the end, or entries that are no numbers *)
Inductive cycle := Early (x : gvec) | EndOfCycle (x : gvec) | NotANumber (early : bool).

Section Gmres.
  Variables (n : nat) (A P : gmat) (b : gvec) (givens : R -> R -> R * R) (tolerance : R) (krylovDimension maxNumRestarts : nat).

  Definition upd_col {X} (f : nat -> X) (i : nat) (x : X) : nat -> X := fun j => if Nat.eqb j i then x else f j.

  (** lines 63-91 for column [i]: the rows below i + 1 of H.col(i) are zero from the initialisation, line 26.  [V.col(i + 1)]
      is not a number if the norm is zero: the flag. *)
  Definition column (st : arnoldi) (i : nat) : arnoldi * bool :=
    let w0 := gmul n P (gmul n A (aV st i)) in
    let (h, w) := gram n (aV st) (S i) w0 in
    let nw := gnorm n w in
    let col := upd_col h (S i) nw in
    let col1 := rots (aG st) i col in
    let g := givens (col1 i) (col1 (S i)) in
    (mkArn (upd_col (aV st) (S i) (fun k => w k / nw)) (upd_col (aH st) i (rot i g col1)) (upd_col (aG st) i g) (rot i g (aS st)),
     reqb nw 0).

  (** lines 95-97, 104-106: x + V * y with the first [m] columns *)
  Definition corrected (st : arnoldi) (m : nat) (x : gvec) : option gvec :=
    match back_solve (aH st) (aS st) m m (fun _ => 0) with
    | Some y => Some (fun k => x k + rsum m (fun j => aV st j k * y j))
    | None => None
    end.

  Definition rhsNorm : R := if rltb (gnorm n b) (1 / 100000) then 1 else gnorm n b.  (* lines 43-46 *)

  (** the for loop, lines 61-106, with [left] columns to do.  s has n entries: s[i + 1] with i + 1 >= n is out of bounds.
      A column that is no number makes everything that follows no number; the comparison in line 93 is then false. *)
  Fixpoint columns (x : gvec) (st : arnoldi) (i left : nat) : outcome cycle :=
    match left with
    | O => Ok (match corrected st i x with Some x' => EndOfCycle x' | None => NotANumber false end)
    | S left' =>
      if Nat.ltb (S i) n then
        let (st', nan) := column st i in
        if rltb (Rabs (aS st' (S i))) (tolerance * rhsNorm)
        then Ok (match corrected st' (S i) x with Some x' => Early x' | None => NotANumber true end)
        else if (nan && negb (Nat.eqb left' 0))%bool then (if Nat.ltb (S i + left') n then Ok (NotANumber false) else UB)
        else columns x st' (S i) left'
      else UB
    end.

  Definition residual (x : gvec) : gvec := gmul n P (fun k => b k - gmul n A x k).  (* lines 41, 109 *)

  (** lines 55-106: one pass; [rNorm] is the norm of r *)
  Definition one_cycle (x r : gvec) (rNorm : R) : outcome cycle :=
    columns x (mkArn (fun _ k => r k / rNorm) (fun _ _ => 0) (fun _ => (1, 0)) (fun k => if Nat.eqb k 0 then rNorm else 0)) 0 krylovDimension.

  (** what the caller gets: the approximation and the number of restarts; or x has entries that are no numbers, then the
      number of restarts is modelled for an early return only *)
  Inductive answer := Answer (x : gvec) (restarts : nat) | NoNumber (restarts : option nat).

  (** the while loop, lines 51-113; [left]: restarts that are still allowed. *)
  Fixpoint restarts (x : gvec) (done left : nat) : outcome answer :=
    let r := residual x in
    let rNorm := gnorm n r in
    if rltb (tolerance * rhsNorm) rNorm then
      match left with
      | O => Ok (Answer x done)
      | S left' =>
        match one_cycle x r rNorm with
        | Ok (Early x') => Ok (Answer x' done)
        | Ok (EndOfCycle x') => restarts x' (S done) left'
        | Ok (NotANumber early) => Ok (NoNumber (if early then Some done else None))
        | Throw => Throw
        | UB => UB
        end
      end
    else Ok (Answer x done).

  (** Gmres, lines 16-116: e1[0] with n = 0 is out of bounds, line 35 *)
  Definition Gmres (x : gvec) : outcome answer := if Nat.eqb n 0 then UB else restarts x 0 maxNumRestarts.
End Gmres.
