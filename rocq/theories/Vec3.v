(** Vectors of R^3 ([Eigen::Vector3d]) over exact reals. *)
From Coq Require Import Reals.
Local Open Scope R_scope.

Record v3 := V3 { vx : R; vy : R; vz : R }.
Definition vadd (a b : v3) : v3 := V3 (vx a + vx b) (vy a + vy b) (vz a + vz b).
Definition vsub (a b : v3) : v3 := V3 (vx a - vx b) (vy a - vy b) (vz a - vz b).
Definition smul (k : R) (a : v3) : v3 := V3 (k * vx a) (k * vy a) (k * vz a).
Definition dot (a b : v3) : R := vx a * vx b + vy a * vy b + vz a * vz b.
Definition vsum (a : v3) : R := vx a + vy a + vz a.
Definition vnorm (a : v3) : R := sqrt (dot a a).
(** [operator[]] for a valid index *)
Definition vnth (a : v3) (i : nat) : R := match i with O => vx a | S O => vy a | _ => vz a end.
