(** * Specification vocabulary for the constitutive laws (no reference to the laws themselves) *)
From Coq Require Import List Arith Bool Reals.
From Coquelicot Require Import Coquelicot.
From Verif Require Import RSum.
Import ListNotations.
Local Open Scope R_scope.

(** [g] is the differential of [f] at [x]: the derivative along every direction [v] is the sum of g_j v_j *)
Definition differential (n : nat) (f : (nat -> R) -> R) (x g : nat -> R) : Prop :=
  forall v : nat -> R, is_derive (fun t => f (fun i => x i + t * v i)) 0 (rsum n (fun j => g j * v j)).

(** the 3D tensors behind the Voigt vectors (xx, yy, zz, yz, zx, xy); shear strains are doubled, shear stresses are not *)
Definition sym_tensor (xx yy zz yz zx xy : R) : nat -> nat -> R :=
  fun i j => match i, j with
             | 0%nat, 0%nat => xx | 1%nat, 1%nat => yy | 2%nat, 2%nat => zz
             | 1%nat, 2%nat => yz | 2%nat, 1%nat => yz
             | 0%nat, 2%nat => zx | 2%nat, 0%nat => zx
             | 0%nat, 1%nat => xy | 1%nat, 0%nat => xy
             | _, _ => 0
             end.
Definition strain_tensor (v : nat -> R) := sym_tensor (v 0%nat) (v 1%nat) (v 2%nat) (v 3%nat / 2) (v 4%nat / 2) (v 5%nat / 2).
Definition stress_tensor (v : nat -> R) := sym_tensor (v 0%nat) (v 1%nat) (v 2%nat) (v 3%nat) (v 4%nat) (v 5%nat).

Definition trace (T : nat -> nat -> R) : R := T 0%nat 0%nat + T 1%nat 1%nat + T 2%nat 2%nat.
Definition delta (i j : nat) : R := if Nat.eqb i j then 1 else 0.

(** Hooke's law of an isotropic solid in compliance form: E eps = (1 + nu) sigma - nu tr(sigma) 1 *)
Definition hooke (E nu : R) (eps sigma : nat -> nat -> R) : Prop :=
  forall i j, (i < 3)%nat -> (j < 3)%nat -> E * eps i j = (1 + nu) * sigma i j - nu * trace sigma * delta i j.

(** 3x3 matrices *)
Definition mul3 (A B : nat -> nat -> R) : nat -> nat -> R := fun i j => A i 0%nat * B 0%nat j + A i 1%nat * B 1%nat j + A i 2%nat * B 2%nat j.
Definition tr3 (A : nat -> nat -> R) : nat -> nat -> R := fun i j => A j i.
Definition det3 (A : nat -> nat -> R) : R :=
  A 0%nat 0%nat * (A 1%nat 1%nat * A 2%nat 2%nat - A 1%nat 2%nat * A 2%nat 1%nat) -
  A 0%nat 1%nat * (A 1%nat 0%nat * A 2%nat 2%nat - A 1%nat 2%nat * A 2%nat 0%nat) +
  A 0%nat 2%nat * (A 1%nat 0%nat * A 2%nat 1%nat - A 1%nat 1%nat * A 2%nat 0%nat).
Definition orthogonal (Q : nat -> nat -> R) : Prop :=
  forall i j, (i < 3)%nat -> (j < 3)%nat -> mul3 Q (tr3 Q) i j = delta i j.
(** the characteristic polynomial of T at the point x *)
Definition charpoly (T : nat -> nat -> R) (x : R) : R := det3 (fun i j => x * delta i j - T i j).
(** [w] is the strain [v] seen from the coordinate system rotated by Q *)
Definition rotated (Q : nat -> nat -> R) (v w : nat -> R) : Prop :=
  forall i j, (i < 3)%nat -> (j < 3)%nat -> strain_tensor w i j = mul3 Q (mul3 (strain_tensor v) (tr3 Q)) i j.

(** one sided derivative *)
Definition right_derivative (f : R -> R) (x l : R) : Prop :=
  forall eps, 0 < eps -> exists delta, 0 < delta /\ forall h, 0 < h < delta -> Rabs ((f (x + h) - f x) / h - l) < eps.

(** [k] is the largest of 0 and the values in the list *)
Definition maximum_from_zero (values : list R) (k : R) : Prop :=
  0 <= k /\ (forall x, In x values -> x <= k) /\ (k = 0 \/ In k values).

(** what a user expects of a damage law: values in [0,1), no damage up to kappa0, monotone, continuous, and a second
    function that is its derivative away from the kinks and its right derivative everywhere *)
Definition damage_law_ok (kappa0 : R) (kink : R -> Prop) (w dw : R -> R) : Prop :=
  (forall k, 0 <= k -> 0 <= w k < 1) /\
  (forall k, k <= kappa0 -> w k = 0) /\
  (forall k k', 0 <= k <= k' -> w k <= w k') /\
  (forall k, continuous w k) /\
  (forall k, ~ kink k -> is_derive w k (dw k)) /\
  (forall k, right_derivative w k (dw k)).
