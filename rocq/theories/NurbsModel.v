(** * Model of nuto/mechanics/iga/Nurbs.h *)
From Coq Require Import List Arith Bool Reals.
From Verif Require Import RSum Outcome AdaptiveModel.
Import ListNotations.
Local Open Scope R_scope.

(** ** FindSpan *)

(** Nurbs.h:130-143, the search loop.  [left] = how often the iteration counter may still be raised (line 139 throws
    as soon as it exceeds the number of knots).  An index outside the vector is undefined behaviour; the second
    comparison is evaluated only if the first is false. *)
Fixpoint fs_loop (left : nat) (p : R) (knots : list R) (low high : nat) : outcome nat :=
  let mid := Nat.div2 (low + high) in
  match nth_error knots mid with
  | None => UB
  | Some km =>
      if rltb p km
      then match left with O => Throw | S l => fs_loop l p knots low mid end
      else match nth_error knots (S mid) with
           | None => UB
           | Some km1 =>
               if rleb km1 p
               then match left with O => Throw | S l => fs_loop l p knots mid high end
               else Ok mid
           end
  end.

(** Nurbs.h:114-144.  Reading knots[0] of an empty vector and a negative index numBasisFuns (degree >= size) are
    undefined behaviour.  int is modelled by unbounded naturals; the result -1 (size = degree + 1), an invalid index for
    every caller, is counted as undefined behaviour too. *)
Definition FindSpan (p : R) (degree : nat) (knots : list R) : outcome nat :=
  let size := length knots in
  match nth_error knots 0, nth_error knots (size - 1) with
  | Some k0, Some kl =>
      if rltb p k0 then Throw
      else if rltb kl p then Throw
      else if Nat.leb size degree then UB
      else let numBasisFuns := (size - degree - 1)%nat in
           match nth_error knots numBasisFuns with
           | None => UB
           | Some kn => if Req_EM_T p kn
                        then match numBasisFuns with O => UB | S n => Ok n end
                        else fs_loop size p knots degree numBasisFuns
           end
  | _, _ => UB
  end.

(** ** BasisFunctionsAndDerivatives *)

(** Eigen vectors and matrices as functions; [vset], [mset] assign one coefficient *)
Definition vset (v : nat -> R) (i : nat) (x : R) : nat -> R := fun k => if Nat.eqb k i then x else v k.
Definition mset (m : nat -> nat -> R) (i j : nat) (x : R) : nat -> nat -> R :=
  fun a b => if andb (Nat.eqb a i) (Nat.eqb b j) then x else m a b.

(** Nurbs.h:170-176, the loop over r (from [r], [cnt] more rounds) for one j; returns saved and ndu *)
Fixpoint ndu_inner (cnt : nat) (left right : nat -> R) (j r : nat) (saved : R) (ndu : nat -> nat -> R)
  : R * (nat -> nat -> R) :=
  match cnt with
  | O => (saved, ndu)
  | S c =>
      let ndu1 := mset ndu j r (right (S r) + left (j - r)%nat) in
      let temp := ndu1 r (j - 1)%nat / ndu1 j r in
      let ndu2 := mset ndu1 r j (saved + right (S r) * temp) in
      ndu_inner c left right j (S r) (left (j - r)%nat * temp) ndu2
  end.

Record ndu_state := { st_left : nat -> R; st_right : nat -> R; st_ndu : nat -> nat -> R }.

(** Nurbs.h:165-178, the loop over j (from [j], [cnt] more rounds) *)
Fixpoint ndu_outer (cnt : nat) (t : R) (span : nat) (u : nat -> R) (j : nat) (s : ndu_state) : ndu_state :=
  match cnt with
  | O => s
  | S c =>
      let left := vset (st_left s) j (t - u (span + 1 - j)%nat) in
      let right := vset (st_right s) j (u (span + j)%nat - t) in
      let '(saved, ndu) := ndu_inner j left right j 0 0 (st_ndu s) in
      ndu_outer c t span u (S j) {| st_left := left; st_right := right; st_ndu := mset ndu j j saved |}
  end.

(** Nurbs.h:158-178; [junk] is the uninitialised content of the Eigen objects *)
Definition ndu_table (junk : nat -> nat -> R) (t : R) (span degree : nat) (u : nat -> R) : nat -> nat -> R :=
  st_ndu (ndu_outer degree t span u 1
            {| st_left := junk 0%nat; st_right := junk 1%nat; st_ndu := mset junk 0 0 1 |}).

(** Nurbs.h:217-221, the loop over j (from [j], [cnt] more rounds); the index rk + j is r + j - k *)
Fixpoint a_loop (cnt : nat) (ndu : nat -> nat -> R) (s1 s2 k r pk1 j : nat) (a : nat -> nat -> R) (d : R)
  : (nat -> nat -> R) * R :=
  match cnt with
  | O => (a, d)
  | S c =>
      let a' := mset a s2 j ((a s1 j - a s1 (j - 1)%nat) / ndu pk1 (r + j - k)%nat) in
      a_loop c ndu s1 s2 k r pk1 (S j) a' (d + a' s2 j * ndu (r + j - k)%nat (pk1 - 1)%nat)
  end.

(** Nurbs.h:195-233, the loop over k (from [k], [cnt] more rounds) for one r.  The signed comparisons
    rk >= -1, r - 1 <= pk and r <= pk are written k <= r + 1, r + k <= degree + 1 and r + k <= degree;
    pk1 = pk + 1 = degree + 1 - k. *)
Fixpoint k_loop (cnt : nat) (ndu : nat -> nat -> R) (degree r k s1 s2 : nat) (a out : nat -> nat -> R)
  : (nat -> nat -> R) * (nat -> nat -> R) :=
  match cnt with
  | O => (a, out)
  | S c =>
      let pk1 := (degree + 1 - k)%nat in
      let '(a1, d1) := if Nat.leb k r
                       then let x := mset a s2 0 (a s1 0%nat / ndu pk1 (r - k)%nat) in
                            (x, x s2 0%nat * ndu (r - k)%nat (pk1 - 1)%nat)
                       else (a, 0) in
      let j1 := if Nat.leb k (r + 1) then 1%nat else (k - r)%nat in
      let j2 := if Nat.leb (r + k) (degree + 1) then (k - 1)%nat else (degree - r)%nat in
      let '(a2, d2) := a_loop (S j2 - j1)%nat ndu s1 s2 k r pk1 j1 a1 d1 in
      let '(a3, d3) := if Nat.leb (r + k) degree
                       then let x := mset a2 s2 k (- a2 s1 (k - 1)%nat / ndu pk1 r) in
                            (x, d2 + x s2 k * ndu r (pk1 - 1)%nat)
                       else (a2, d2) in
      k_loop c ndu degree r (S k) s2 s1 a3 (mset out k r d3)
  end.

(** Nurbs.h:187-234, the loop over r (from [r], [cnt] more rounds) *)
Fixpoint r_loop (cnt : nat) (ndu : nat -> nat -> R) (degree order r : nat) (a out : nat -> nat -> R) : nat -> nat -> R :=
  match cnt with
  | O => out
  | S c => let '(a', out') := k_loop order ndu degree r 1 0 1 (mset a 0 0 1) out in
           r_loop c ndu degree order (S r) a' out'
  end.

(** Nurbs.h:237-242, the factors degree, degree (degree - 1), ...; the int r is an exact (possibly zero) number *)
Fixpoint factor_loop (cnt : nat) (degree k : nat) (f : R) (out : nat -> nat -> R) : nat -> nat -> R :=
  match cnt with
  | O => out
  | S c => factor_loop c degree (S k) (f * (INR degree - INR k))
             (fun i j => if andb (Nat.eqb i k) (Nat.leb j degree) then out i j * f else out i j)
  end.

(** Nurbs.h:154-245.  All knots read are knots[span + 1 - degree .. span + degree]; anything outside the vector is
    undefined behaviour.  The three junk arguments are the uninitialised content of the Eigen objects. *)
Definition BasisFunctionsAndDerivatives (junk1 junk2 junk3 : nat -> nat -> R) (order : nat) (t : R) (span degree : nat)
    (knots : list R) : outcome (nat -> nat -> R) :=
  if orb (Nat.eqb degree 0) (andb (Nat.leb degree (S span)) (Nat.ltb (span + degree) (length knots)))
  then
    let u := fun i => nth i knots 0 in
    let ndu := ndu_table junk1 t span degree u in
    let out0 := fun i j => if andb (Nat.eqb i 0) (Nat.leb j degree) then ndu j degree else junk2 i j in
    Ok (factor_loop order degree 1 (INR degree) (r_loop (S degree) ndu degree order 0 junk3 out0))
  else UB.

(** ** Rational basis functions *)

(** Nurbs.h:267-303 (and the identical 390-424 of Nurbs<1>): the value for basis function [i] of the span; the weights
    of the span are w(0..degree) = weights[span - degree + i] *)
Definition rational_value (order degree : nat) (ders : nat -> nat -> R) (w : nat -> R) (i : nat) : R :=
  let sum := fun k => rsum (S degree) (fun j => ders k j * w j) in
  match order with
  | 0%nat => ders 0%nat i * w i / sum 0%nat
  | 1%nat => (ders 1%nat i * sum 0%nat - ders 0%nat i * sum 1%nat) * w i / (sum 0%nat * sum 0%nat)
  | _ => let sum2 := sum 0%nat * sum 0%nat in
         w i * (ders 2%nat i / sum 0%nat - 2 * ders 1%nat i * sum 1%nat / sum2 - ders 0%nat i * sum 2%nat / sum2 +
                2 * ders 0%nat i * sum 1%nat * sum 1%nat / (sum2 * sum 0%nat))
  end.

(** Nurbs.h:378-426, Nurbs<1>: span search, basis functions, weights, quotient rule.  Returned: the degree + 1 values.
    [assert(der <= 2)] is not modelled as an abort: callers pass 0, 1 or 2. *)
Definition Rational1 (junk1 junk2 junk3 : nat -> nat -> R) (order : nat) (t : R) (degree : nat) (knots weights : list R)
  : outcome (nat -> R) :=
  obind (FindSpan t degree knots) (fun span =>
  obind (BasisFunctionsAndDerivatives junk1 junk2 junk3 order t span degree knots) (fun ders =>
  if andb (Nat.leb degree span) (Nat.ltb span (length weights))
  then Ok (rational_value order degree ders (fun i => nth (span - degree + i)%nat weights 0))
  else UB)).

(** Nurbs.h:451-530, Nurbs<2>: [s0], [s1] the 1D tables of the two directions (row = derivative), [w i j] the weight of
    the i-th basis function in direction 1 and the j-th in direction 0 (line 455).  Row (i, j), column [c]. *)
Definition sum2d (d0 d1 : nat) (s0 s1 w : nat -> nat -> R) (k0 k1 : nat) : R :=
  rsum (S d1) (fun i => rsum (S d0) (fun j => s0 k0 j * s1 k1 i * w i j)).

(** order 0, lines 457-460 and 488-492 *)
Definition rational2_value (d0 d1 : nat) (s0 s1 w : nat -> nat -> R) (i j : nat) : R :=
  s0 0%nat j * s1 0%nat i * w i j / sum2d d0 d1 s0 s1 w 0 0.

(** order 1, lines 461-466 and 493-502; column 0 and 1 *)
Definition rational2_first (d0 d1 : nat) (s0 s1 w : nat -> nat -> R) (i j c : nat) : R :=
  let sum := sum2d d0 d1 s0 s1 w in
  match c with
  | 0%nat => (s0 1%nat j * s1 0%nat i * sum 0%nat 0%nat - s0 0%nat j * s1 0%nat i * sum 1%nat 0%nat) * w i j / (sum 0%nat 0%nat * sum 0%nat 0%nat)
  | _ => (s0 0%nat j * s1 1%nat i * sum 0%nat 0%nat - s0 0%nat j * s1 0%nat i * sum 0%nat 1%nat) * w i j / (sum 0%nat 0%nat * sum 0%nat 0%nat)
  end.

(** order 2, lines 467-477 and 503-528; the third term of column 1 reads shapeFunctions[0](0, i) (line 515) and the
    fourth term of column 2 squares sum(5) (line 523), as in the source *)
Definition rational2_second (d0 d1 : nat) (s0 s1 w : nat -> nat -> R) (i j c : nat) : R :=
  let sum := sum2d d0 d1 s0 s1 w in
  let q0 := sum 0%nat 0%nat in let q1 := sum 1%nat 0%nat in let q2 := sum 2%nat 0%nat in
  let q3 := sum 0%nat 1%nat in let q4 := sum 0%nat 2%nat in let q5 := sum 1%nat 1%nat in
  match c with
  | 0%nat => (s0 2%nat j * s1 0%nat i / q0 - 2 * s0 1%nat j * s1 0%nat i * q1 / (q0 * q0) - s0 0%nat j * s1 0%nat i * q2 / (q0 * q0) +
              2 * s0 0%nat j * s1 0%nat i * q1 * q1 / (q0 * q0 * q0)) * w i j
  | 1%nat => (s0 0%nat j * s1 2%nat i / q0 - 2 * s0 0%nat j * s1 1%nat i * q3 / (q0 * q0) - s0 0%nat j * s1 0%nat i * q4 / (q0 * q0) +
              2 * s0 0%nat j * s0 0%nat i * q3 * q3 / (q0 * q0 * q0)) * w i j
  | _ => (s0 1%nat j * s1 1%nat i / q0 - s0 1%nat j * s1 0%nat i * q3 / (q0 * q0) - s0 0%nat j * s1 1%nat i * q1 / (q0 * q0) -
          s0 1%nat j * s1 0%nat i * q5 * q5 / (q0 * q0) + 2 * s0 0%nat j * s1 0%nat i * q1 * q3 / (q0 * q0 * q0)) * w i j
  end.

(** ** Element control points *)

(** Nurbs.h:339-353 with Evaluate (89-110), one coordinate: sum over the control points of the span *)
Definition Evaluate1 (junk1 junk2 junk3 : nat -> nat -> R) (order : nat) (t : R) (degree : nat) (knots weights points : list R)
  : outcome R :=
  obind (FindSpan t degree knots) (fun span =>
  obind (Rational1 junk1 junk2 junk3 order t degree knots weights) (fun shape =>
  if andb (Nat.leb degree span) (Nat.ltb span (length points))
  then Ok (rsum (S degree) (fun j => shape j * nth (span - degree + j)%nat points 0))
  else UB)).
