(** * Specification for C31: bit interleaving *)
From Coq Require Import NArith.
Local Open Scope N_scope.

(** bit 3q of the code is bit q of x, bit 3q+1 that of y, bit 3q+2 that of z, ten bits each *)
Definition interleaves3 (code x y z : N) : Prop :=
  code < 2 ^ 30 /\ forall q, q < 10 ->
    N.testbit code (3 * q) = N.testbit x q /\ N.testbit code (3 * q + 1) = N.testbit y q /\ N.testbit code (3 * q + 2) = N.testbit z q.
(** 16 bits each *)
Definition interleaves2 (code x y : N) : Prop :=
  code < 2 ^ 32 /\ forall q, q < 16 -> N.testbit code (2 * q) = N.testbit x q /\ N.testbit code (2 * q + 1) = N.testbit y q.
