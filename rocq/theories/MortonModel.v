(** * Model of nuto/math/MortonOrder.h.  uint32_t values are N below 2^32. *)
From Coq Require Import NArith ZArith Bool.
From Verif Require Import Outcome.
Local Open Scope N_scope.

(** unsigned 32 bit operations *)
Definition mask32 : N := 0xffffffff.
Definition wshl (x s : N) : N := N.land (N.shiftl x s) mask32.
Definition wadd (x y : N) : N := N.land (x + y) mask32.

(** Part1By1, MortonOrder.h:20-28 *)
Definition part1by1 (x : N) : N :=
  let x := N.land x 0x0000ffff in
  let x := N.land (N.lxor x (wshl x 8)) 0x00ff00ff in
  let x := N.land (N.lxor x (wshl x 4)) 0x0f0f0f0f in
  let x := N.land (N.lxor x (wshl x 2)) 0x33333333 in
  N.land (N.lxor x (wshl x 1)) 0x55555555.

(** Part1By2, MortonOrder.h:31-39 *)
Definition part1by2 (x : N) : N :=
  let x := N.land x 0x000003ff in
  let x := N.land (N.lxor x (wshl x 16)) 0xff0000ff in
  let x := N.land (N.lxor x (wshl x 8)) 0x0300f00f in
  let x := N.land (N.lxor x (wshl x 4)) 0x030c30c3 in
  N.land (N.lxor x (wshl x 2)) 0x09249249.

(** Compact1By1, MortonOrder.h:41-49 *)
Definition compact1by1 (x : N) : N :=
  let x := N.land x 0x55555555 in
  let x := N.land (N.lxor x (N.shiftr x 1)) 0x33333333 in
  let x := N.land (N.lxor x (N.shiftr x 2)) 0x0f0f0f0f in
  let x := N.land (N.lxor x (N.shiftr x 4)) 0x00ff00ff in
  N.land (N.lxor x (N.shiftr x 8)) 0x0000ffff.

(** Compact1By2, MortonOrder.h:52-60 *)
Definition compact1by2 (x : N) : N :=
  let x := N.land x 0x09249249 in
  let x := N.land (N.lxor x (N.shiftr x 2)) 0x030c30c3 in
  let x := N.land (N.lxor x (N.shiftr x 4)) 0x0300f00f in
  let x := N.land (N.lxor x (N.shiftr x 8)) 0xff0000ff in
  N.land (N.lxor x (N.shiftr x 16)) 0x000003ff.

(** EncodeMorton3D, MortonOrder.h:14-17 *)
Definition encode3 (x y z : N) : N := wadd (wadd (wshl (part1by2 z) 2) (wshl (part1by2 y) 1)) (part1by2 x).
(** the two-dimensional code; MortonOrder has no function for it, it is what DecodeMorton2X/Y decode *)
Definition encode2 (x y : N) : N := wadd (wshl (part1by1 y) 1) (part1by1 x).

(** decode functions, MortonOrder.h:62-85 *)
Definition decode2x (code : N) : N := compact1by1 (N.shiftr code 0).
Definition decode2y (code : N) : N := compact1by1 (N.shiftr code 1).
Definition decode3x (code : N) : N := compact1by2 (N.shiftr code 0).
Definition decode3y (code : N) : N := compact1by2 (N.shiftr code 1).
Definition decode3z (code : N) : N := compact1by2 (N.shiftr code 2).

(** Neighbor3D, MortonOrder.h:87-94 *)
Definition neighbor3 (key dx dy dz : N) : N :=
  encode3 (wadd (decode3x key) dx) (wadd (decode3y key) dy) (wadd (decode3z key) dz).

(** int32_t addition: overflow is undefined *)
Definition iadd (x y : Z) : outcome Z :=
  let s := (x + y)%Z in if ((Z.ltb s (- 2 ^ 31)) || (Z.leb (2 ^ 31) s))%bool%Z then UB else Ok s.

(** NegNeighbor3D, MortonOrder.h:96-106; || evaluates from left to right *)
Definition neg_neighbor3 (key : N) (dx dy dz : Z) : outcome N :=
  obind (iadd (Z.of_N (decode3x key)) dx) (fun x =>
  if Z.ltb x 0 then Ok mask32 else
  obind (iadd (Z.of_N (decode3y key)) dy) (fun y =>
  if Z.ltb y 0 then Ok mask32 else
  obind (iadd (Z.of_N (decode3z key)) dz) (fun z =>
  if Z.ltb z 0 then Ok mask32 else Ok (encode3 (Z.to_N x) (Z.to_N y) (Z.to_N z))))).
