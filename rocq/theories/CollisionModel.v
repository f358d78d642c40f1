(** Model of the collidables of the event-driven particle simulation:
    nuto/geometryConcrete/collision/collidables/*.cpp.
    Numbers are exact reals, also the long doubles of CollidableWallCylinder.
    Divisions by zero give the IEEE outcome where the code goes on to compare it. *)
From Coq Require Import Reals ZArith.
From Verif Require Import Outcome AdaptiveModel Vec3.
Local Open Scope R_scope.

(** Event::EVENTNULL, Event.cpp:15 *)
Definition EVENTNULL : R := -1.
(** 1e-n *)
Definition tenm (n : nat) : R := / 10 ^ n.

(** CollidableParticleSphere.h: the members.  [sid] is the identity of the object
    (compared with [this == &rSphere]). *)
Record sphere := mkSphere {
  sid : Z; spos : v3; svel : v3; srad : R; sradG : R; srad0 : R; sgrow : R; stime : R; sreset : R }.

(** CollidableParticleSphere.cpp:21-31 *)
Definition new_sphere (i : Z) (p v : v3) (r g : R) : sphere := mkSphere i p v r r r g 0 0.

(** MoveAndGrow, CollidableParticleSphere.cpp:33-42 *)
Definition move_and_grow (s : sphere) (t : R) : sphere :=
  mkSphere (sid s) (vadd (spos s) (smul (t - stime s) (svel s))) (svel s)
    (sradG s + sgrow s * (t - sreset s)) (sradG s) (srad0 s) (sgrow s) t (sreset s).

(** SetGrowthRate, CollidableParticleSphere.cpp:44-53 *)
Definition set_growth_rate (s : sphere) (f t : R) : sphere :=
  mkSphere (sid s) (spos s) (svel s) (srad s) (sradG s + sgrow s * (t - sreset s)) (srad0 s)
    (sgrow s * f) (stime s) t.

Definition set_velocity (s : sphere) (v : v3) : sphere :=
  mkSphere (sid s) (spos s) v (srad s) (sradG s) (srad0 s) (sgrow s) (stime s) (sreset s).

(** Eigen's normalize(): divides by the norm if the squared norm is positive *)
Definition normalize (a : v3) : v3 := if rltb 0 (dot a a) then smul (/ sqrt (dot a a)) a else a.

(** SphereCollision1D, CollidableParticleSphere.cpp:55-59 *)
Definition collision_1d (v1 v2 m1 m2 : R) : R := (v1 * (m1 - m2) + 2 * v2 * m2) / (m1 + m2).

(** PerformCollision(CollidableParticleSphere&), CollidableParticleSphere.cpp:66-114:
    [this] and [rSphere] after the call *)
Definition perform_spheres (s1 s2 : sphere) : sphere * sphere :=
  let m1 := srad s1 * srad s1 * srad s1 in
  let m2 := srad s2 * srad s2 * srad s2 in
  let n := normalize (vsub (spos s1) (spos s2)) in
  let vn1 := dot n (svel s1) in
  let vn2 := dot n (svel s2) in
  let vt1 := vsub (svel s1) (smul vn1 n) in
  let vt2 := vsub (svel s2) (smul vn2 n) in
  let w1 := collision_1d vn1 vn2 m1 m2 in
  let w2 := collision_1d vn2 vn1 m2 m1 in
  let eff := w1 - w2 in
  let d1 := - eff * m2 / (m1 + m2) in
  let d2 := - eff - d1 in
  let w1' := if rltb eff 0 then w1 + d1 else w1 in
  let w2' := if rltb eff 0 then w2 - d2 else w2 in
  let u1 := w1' + 2 * sgrow s1 in
  let u2 := w2' - 2 * sgrow s2 in
  (set_velocity s1 (vadd (smul u1 n) vt1), set_velocity s2 (vadd (smul u2 n) vt2)).

(** PredictCollision(CollidableParticleSphere&), CollidableParticleSphere.cpp:126-173 *)
Definition predict_spheres (this other : sphere) : outcome R :=
  if Z.eqb (sid this) (sid other) then Ok EVENTNULL
  else
    let later := rltb (stime other) (stime this) in
    let s1 := if later then this else other in
    let s2 := if later then other else this in
    let baseTime := stime s1 in
    let dP := vsub (spos s1) (vadd (spos s2) (smul (stime s1 - stime s2) (svel s2))) in
    let dV := vsub (svel s1) (svel s2) in
    let dR := srad s1 + srad s2 + sgrow s2 * (stime s1 - stime s2) in
    let dG := sgrow s1 + sgrow s2 in
    let a := dot dV dV - dG * dG in
    let b := 2 * (dot dV dP - dR * dG) in
    let c := dot dP dP - dR * dR in
    if rltb c (- (2 * tenm 10) * srad s1) then Throw
    else
      let disc := b * b - 4 * a * c in
      if rltb disc (- tenm 12) then Ok EVENTNULL
      else
        let disc := Rmax disc 0 in
        if rltb b 0 then Ok (baseTime + 2 * c / (- b + sqrt disc))
        else if rltb a 0 then Ok (baseTime + (- b - sqrt disc) / (2 * a))
        else Ok EVENTNULL.

(** CollidableWallBase: position, direction, mNonNullAxis, mIsAxisAligned.  The constructor
    (CollidableWallBase.cpp:17-27) sets the two flags from the direction it is given and
    normalizes the direction afterwards. [None]: GetNonNullAxis returns -1. *)
Record wall := mkWall { wpos : v3; wdir : v3; waxis : option nat; waligned : bool }.
Definition reqb (x y : R) : bool := if Req_EM_T x y then true else false.
(** GetNonNullAxis, CollidableWallBase.cpp:135-141 *)
Definition non_null_axis (d : v3) : option nat :=
  if negb (reqb (vx d) 0) then Some 0%nat
  else if negb (reqb (vy d) 0) then Some 1%nat
  else if negb (reqb (vz d) 0) then Some 2%nat else None.
Definition new_wall (p d : v3) : wall :=
  mkWall p (normalize d) (non_null_axis d) (reqb (Rabs (vsum d)) 1).

(** conversion of a double to int: truncation towards zero *)
Definition trunc (x : R) : Z := if rltb x 0 then (- Int_part (- x))%Z else Int_part x.

(** PerformCollision, CollidableWallPhysical.cpp:18-28 *)
Definition perform_wall (w : wall) (s : sphere) : sphere :=
  let vn := dot (svel s) (wdir w) in
  let v1 := if rltb vn 0 then vadd (svel s) (smul (- 2 * vn) (wdir w)) else svel s in
  set_velocity s (vadd v1 (smul (sgrow s) (wdir w))).

(** PredictCollision, CollidableWallPhysical.cpp:30-63.  [mPosition[-1]] is undefined. *)
Definition wall_distances (w : wall) (s : sphere) : outcome (R * R) :=
  if waligned w then
    match waxis w with
    | None => UB
    | Some k =>
      let sign := IZR (trunc (vnth (wdir w) k)) in
      Ok (sign * (vnth (spos s) k - vnth (wpos w) k) - srad s, sign * vnth (svel s) k - sgrow s)
    end
  else Ok (dot (wdir w) (vsub (spos s) (wpos w)) - srad s, dot (svel s) (wdir w) - sgrow s).
Definition wall_time (s : sphere) (stat dyn : R) : R :=
  if andb (rltb stat (tenm 15)) (rleb 0 dyn) then EVENTNULL
  else if reqb dyn 0 then EVENTNULL    (* -static / 0. is -infinity here, not >= 0 *)
  else let tc := - stat / dyn in if rleb 0 tc then stime s + tc else EVENTNULL.
Definition predict_wall (w : wall) (s : sphere) : outcome R :=
  obind (wall_distances w s) (fun '(stat, dyn) => Ok (wall_time s stat dyn)).

(** CollidableWallVirtual.cpp:42-105: the time at which a sphere that is not yet in the outside box
    reaches the wall ([inOutside = false]), or leaves the inside box completely ([true]). *)
Definition virtual_distances (w : wall) (inOutside : bool) (s : sphere) : outcome (R * R) :=
  let sg := if inOutside then 1 else -1 in
  if waligned w then
    match waxis w with
    | None => UB
    | Some k =>
      let d := IZR (trunc (vnth (wdir w) k)) in
      Ok (d * (vnth (spos s) k - vnth (wpos w) k) + sg * srad s, d * vnth (svel s) k + sg * sgrow s)
    end
  else Ok (dot (wdir w) (vsub (spos s) (wpos w)) + sg * srad s, dot (svel s) (wdir w) + sg * sgrow s).
(** [- stat / dyn >= 0] with [dyn <= 0] in IEEE arithmetic; [dyn = 0]: -stat/0 is +infinity for stat < 0
    (an infinite event time, beyond every barrier: no event), -infinity or NaN otherwise. *)
Definition virtual_time (s : sphere) (inOutside : bool) (stat dyn : R) : R :=
  if rltb 0 dyn then EVENTNULL
  else
    let stat := if inOutside then stat
                else if andb (rltb stat 0) (rltb (- tenm 12 * srad s) stat) then 0 else stat in
    if reqb dyn 0 then EVENTNULL
    else let tc := - stat / dyn in if rleb 0 tc then stime s + tc else EVENTNULL.
Definition predict_virtual (w : wall) (inOutside : bool) (s : sphere) : outcome R :=
  obind (virtual_distances w inOutside s) (fun '(stat, dyn) => Ok (virtual_time s inOutside stat dyn)).

(** CollidableWallCylinder: radius; the direction is normalized by the base class *)
Record cylinder := mkCyl { cwall : wall; cradius : R }.
Definition new_cylinder (p d : v3) (r : R) : cylinder := mkCyl (new_wall p d) r.
(** the part of [x] perpendicular to [d] *)
Definition perp (d x : v3) : v3 := vsub x (smul (dot x d) d).
(** PerformCollision, CollidableWallCylinder.cpp:24-41 *)
Definition perform_cylinder (w : cylinder) (s : sphere) : outcome sphere :=
  let n0 := perp (wdir (cwall w)) (vsub (wpos (cwall w)) (spos s)) in
  if reqb (dot n0 n0) 0 then Throw
  else
    let n := normalize n0 in
    let vn := dot (svel s) n in
    let v1 := if rltb vn 0 then vadd (svel s) (smul (- 2 * vn) n) else svel s in
    Ok (set_velocity s (vadd v1 (smul (sgrow s) n))).
(** PredictCollision, CollidableWallCylinder.cpp:43-83.  In the branch [b > 0] the denominator is negative. *)
Definition predict_cylinder (w : cylinder) (s : sphere) : outcome R :=
  let d := wdir (cwall w) in
  let dP := perp d (vsub (spos s) (wpos (cwall w))) in
  let dV := perp d (svel s) in
  let dR := cradius w - srad s in
  let dG := - sgrow s in
  let a := dot dV dV - dG * dG in
  let c := dot dP dP - dR * dR in
  let b := 2 * (dot dV dP - dR * dG) in
  if rltb (2 * tenm 10 * srad s) c then Throw
  else
    let disc := b * b - 4 * a * c in
    if rltb (- tenm 11) disc then
      let disc := if rltb disc 0 then 0 else disc in
      if rltb 0 b then
        let tc := 2 * c / (- b - sqrt disc) in
        if rleb 0 tc then Ok (stime s + tc) else Ok EVENTNULL
      else if andb (rltb 0 a) (rleb b 0) then Ok (stime s + (- b + sqrt disc) / (2 * a))
      else Ok EVENTNULL
    else Ok EVENTNULL.
