(** * Model of the root finding in nuto/math/Legendre.cpp *)
From Coq Require Import List Arith Bool Reals.
From Verif Require Import Outcome LegendreModel.
Import ListNotations.
Local Open Scope R_scope.

(** FindLegendreRoot(guess, n, derivative), Legendre.cpp:23-35, at most [fuel] passes of the endless loop.
    [Ok None]: the loop has not returned after [fuel] passes.  When the divisor Legendre(n, x, derivative + 1) is zero the
    quotient is an infinity or NaN, no later pass can satisfy the test, and the loop never returns.  Exact arithmetic. *)
Fixpoint find_root (fuel : nat) (n derivative : nat) (x : R) : outcome (option R) :=
  match fuel with
  | O => Ok None
  | S fuel' =>
    obind (legendre n x derivative) (fun value =>
    obind (legendre n x (derivative + 1)) (fun slope =>
      if Req_EM_T slope 0 then Ok None
      else
        let xnew := x - value / slope in
        if Rlt_dec (Rabs (x - xnew)) (1 / 10 ^ 15) then Ok (Some xnew) else find_root fuel' n derivative xnew))
  end.

(** boost::range::transform of the guesses, Legendre.cpp:39-40 *)
Fixpoint find_each (fuel : nat) (n derivative : nat) (guess : list R) : outcome (option (list R)) :=
  match guess with
  | [] => Ok (Some [])
  | g :: rest =>
    obind (find_root fuel n derivative g) (fun r =>
      match r with
      | None => Ok None
      | Some r => obind (find_each fuel n derivative rest) (fun rs => Ok (option_map (cons r) rs))
      end)
  end.

(** boost::range::sort, Legendre.cpp:41, as insertion sort (any sorting algorithm gives the same list of numbers) *)
Fixpoint insert_number (x : R) (l : list R) : list R :=
  match l with [] => [x] | y :: l' => if Rlt_dec y x then y :: insert_number x l' else x :: l end.
Definition sort_numbers (l : list R) : list R := fold_right insert_number [] l.

(** FindLegendreRoots, Legendre.cpp:37-42 *)
Definition find_roots (fuel : nat) (guess : list R) (n derivative : nat) : outcome (option (list R)) :=
  obind (find_each fuel n derivative guess) (fun r => Ok (option_map sort_numbers r)).

(** FirstGuess, Legendre.cpp:44-50; M_PI is taken as the number pi *)
Definition first_guess (n : nat) : list R :=
  map (fun i => cos (PI * (4 * INR i - 1) / (4 * INR n + 2))) (seq 1 n).

(** LegendreRoots, Legendre.cpp:52-55 *)
Definition legendre_roots (fuel n : nat) : outcome (option (list R)) := find_roots fuel (first_guess n) n 0.

(** LegendreDerivRoots, Legendre.cpp:57-66; for n = 0 std::vector<double>(-1) throws std::length_error *)
Definition legendre_deriv_roots (fuel n : nat) : outcome (option (list R)) :=
  match n with
  | O => Throw
  | S _ =>
    let ys := first_guess n in
    find_roots fuel (map (fun i => / 2 * (nth (i - 1) ys 0 + nth i ys 0)) (seq 1 (n - 1))) n 1
  end.
