(** * Model of nuto/geometryConcrete/GmshWriter.cpp: the geometry that the written script describes

    The writer puts together constant pieces of gmsh script and numbers.  A piece is a list of statements ([stmt]), one for each
    statement of the text; their meaning is the one documented by gmsh with its default Geometry.OldNewReg = 1: newp is one more
    than the largest number of a point, and newl, newll, news, newsl, newv and newreg are all one more than the largest number of
    any other object.

    Simplifications.  The variables of a gmsh script are global; here every call of a function starts without variables, and a
    variable that is read before it was assigned is an error ([Throw]): the functions only read what they have assigned.
    Extrude makes, among others, a copy of a surface (or line) at the distance h along its normal, called Ex[0], and the volume
    (surface) in between, called Ex[1]; copies of a common edge (point) coincide; the other objects that it makes are left out.
    Mesh sizes and options are left out.  A number is written with operator<<, six significant digits. *)
From Coq Require Import String List ZArith Bool Reals.
From Flocq Require Import Core.
From Verif Require Import Outcome Vec3.
From Verif Require SerializeModel.
Import ListNotations.
Local Open Scope Z_scope.

(** ** The objects of a gmsh model *)
(** a curve: Line(t) = {a, b}, Circle(t) = {a, centre, b}, or the copy of a curve made by Extrude *)
Inductive curve := CLine (a b : Z) | CCircle (a centre b : Z) | COffset (c : Z).
(** an oriented curve: false stands for the minus sign *)
Definition signed : Type := bool * Z.
(** a surface inside of line loops, the copy of a surface, or the strip between a curve and its copy *)
Inductive surface := SLoops (loops : list Z) | SOffset (s : Z) | SStrip (c : Z).
(** a volume inside of surface loops, or the layer between a surface and its copy *)
Inductive volume := VShells (shells : list Z) | VLayer (s : Z).
Record model := mkModel { points : list (Z * v3); curves : list (Z * curve); loops : list (Z * list signed);
                          surfaces : list (Z * surface); shells : list (Z * list Z); volumes : list (Z * volume) }.
Definition no_model : model := mkModel [] [] [] [] [] [].

(** ** Statements *)
(** the numbers that the functions read *)
Record params := mkParams { xC : R; yC : R; zC : R; Rad : R; xS : R; yS : R; zS : R; xE : R; yE : R; zE : R; radius : R; height : R }.
Inductive ref := Var (x : string) | Next (x : string).    (* x and x + 1 *)
Inductive stmt :=
| NewP (x : string)                                   (* x = newp; *)
| NewR (x : string)                                   (* x = newl; newll; news; newsl; newv; newreg *)
| Point (x : string) (c : params -> v3)               (* Point(x) = {...} *)
| Line (x a b : string)
| Circle (x a c b : string)
| LineLoop (x : string) (l : list (bool * string))
| SurfaceOf (x loop : string)                         (* Plane Surface(x) = {loop} or Ruled Surface(x) = {loop} *)
| NewSurface (loop : string)                          (* Plane Surface(newreg) = {loop} *)
| SurfaceLoop (x : string) (l : list ref)
| VolumeOf (x shell : string)
| ExtrudeSurface (ex0 ex1 s : string)                 (* Ex[] = Extrude { Surface {s}; Layers {{1}, {h}}; Recombine; } *)
| ExtrudeLine (ex0 ex1 c : string)
| SetAggregate (x : string)                           (* theAggregates[i] = x; *)
| SetOuter (x : string)                               (* theOuterInterface[i] = x; *)
| SetInterface (n k : nat) (x : string).              (* theInterfaces[n * i + k] = x; *)

(** ** Interpreter *)
Record state := mkState { vars : list (string * Z); nextp : Z; nextr : Z; geo : model;
                          theAggregates : list Z; theOuter : list Z; theInterfaces : list Z }.
Fixpoint lookup (x : string) (l : list (string * Z)) : outcome Z :=
  match l with [] => Throw | (y, t) :: l' => if (x =? y)%string then Ok t else lookup x l' end.
Fixpoint omapM {A B} (f : A -> outcome B) (l : list A) : outcome (list B) :=
  match l with [] => Ok [] | a :: l' => obind (f a) (fun b => omap (cons b) (omapM f l')) end.
Definition eval (vs : list (string * Z)) (r : ref) : outcome Z :=
  match r with Var x => lookup x vs | Next x => omap (fun t => t + 1) (lookup x vs) end.
Definition assign (s : state) (x : string) (t : Z) : state :=
  mkState ((x, t) :: vars s) (nextp s) (nextr s) (geo s) (theAggregates s) (theOuter s) (theInterfaces s).
Definition with_point (s : state) (t : Z) (m : model) : state :=
  mkState (vars s) (Z.max (nextp s) (t + 1)) (nextr s) m (theAggregates s) (theOuter s) (theInterfaces s).
Definition with_object (s : state) (t : Z) (m : model) : state :=
  mkState (vars s) (nextp s) (Z.max (nextr s) (t + 1)) m (theAggregates s) (theOuter s) (theInterfaces s).
Definition with_arrays (s : state) (a o i : list Z) : state := mkState (vars s) (nextp s) (nextr s) (geo s) a o i.
Definition add_point (s : state) (t : Z) (c : v3) : state :=
  let m := geo s in with_point s t (mkModel (points m ++ [(t, c)]) (curves m) (loops m) (surfaces m) (shells m) (volumes m)).
Definition add_curve (s : state) (t : Z) (c : curve) : state :=
  let m := geo s in with_object s t (mkModel (points m) (curves m ++ [(t, c)]) (loops m) (surfaces m) (shells m) (volumes m)).
Definition add_loop (s : state) (t : Z) (l : list signed) : state :=
  let m := geo s in with_object s t (mkModel (points m) (curves m) (loops m ++ [(t, l)]) (surfaces m) (shells m) (volumes m)).
Definition add_surface (s : state) (t : Z) (f : surface) : state :=
  let m := geo s in with_object s t (mkModel (points m) (curves m) (loops m) (surfaces m ++ [(t, f)]) (shells m) (volumes m)).
Definition add_shell (s : state) (t : Z) (l : list Z) : state :=
  let m := geo s in with_object s t (mkModel (points m) (curves m) (loops m) (surfaces m) (shells m ++ [(t, l)]) (volumes m)).
Definition add_volume (s : state) (t : Z) (v : volume) : state :=
  let m := geo s in with_object s t (mkModel (points m) (curves m) (loops m) (surfaces m) (shells m) (volumes m ++ [(t, v)])).

(** one statement in the call number [i] (the variable i of the script) of a function with the numbers [P]; the arrays are written
    in the order of their indices, anything else is an error *)
Definition exec (P : params) (i : nat) (s : state) (c : stmt) : outcome state :=
  match c with
  | NewP x => Ok (assign s x (nextp s))
  | NewR x => Ok (assign s x (nextr s))
  | Point x c => omap (fun t => add_point s t (c P)) (lookup x (vars s))
  | Line x a b =>
    obind (lookup x (vars s)) (fun t => obind (lookup a (vars s)) (fun ta => obind (lookup b (vars s)) (fun tb => Ok (add_curve s t (CLine ta tb)))))
  | Circle x a c b =>
    obind (lookup x (vars s)) (fun t => obind (lookup a (vars s)) (fun ta => obind (lookup c (vars s)) (fun tc =>
    obind (lookup b (vars s)) (fun tb => Ok (add_curve s t (CCircle ta tc tb))))))
  | LineLoop x l => obind (lookup x (vars s)) (fun t => omap (add_loop s t) (omapM (fun '(b, y) => omap (pair b) (lookup y (vars s))) l))
  | SurfaceOf x l => obind (lookup x (vars s)) (fun t => omap (fun tl => add_surface s t (SLoops [tl])) (lookup l (vars s)))
  | NewSurface l => omap (fun tl => add_surface s (nextr s) (SLoops [tl])) (lookup l (vars s))
  | SurfaceLoop x l => obind (lookup x (vars s)) (fun t => omap (add_shell s t) (omapM (eval (vars s)) l))
  | VolumeOf x y => obind (lookup x (vars s)) (fun t => omap (fun ts => add_volume s t (VShells [ts])) (lookup y (vars s)))
  | ExtrudeSurface e0 e1 x => omap (fun t =>
      let s1 := add_surface (assign s e0 (nextr s)) (nextr s) (SOffset t) in
      add_volume (assign s1 e1 (nextr s1)) (nextr s1) (VLayer t)) (lookup x (vars s))
  | ExtrudeLine e0 e1 x => omap (fun t =>
      let s1 := add_curve (assign s e0 (nextr s)) (nextr s) (COffset t) in
      add_surface (assign s1 e1 (nextr s1)) (nextr s1) (SStrip t)) (lookup x (vars s))
  | SetAggregate x => if Nat.eqb (length (theAggregates s)) i
                      then omap (fun t => with_arrays s (theAggregates s ++ [t]) (theOuter s) (theInterfaces s)) (lookup x (vars s)) else Throw
  | SetOuter x => if Nat.eqb (length (theOuter s)) i
                  then omap (fun t => with_arrays s (theAggregates s) (theOuter s ++ [t]) (theInterfaces s)) (lookup x (vars s)) else Throw
  | SetInterface n k x => if Nat.eqb (length (theInterfaces s)) (n * i + k)
                          then omap (fun t => with_arrays s (theAggregates s) (theOuter s) (theInterfaces s ++ [t])) (lookup x (vars s)) else Throw
  end.
Fixpoint exec_all (P : params) (i : nat) (s : state) (l : list stmt) : outcome state :=
  match l with [] => Ok s | c :: l' => obind (exec P i s c) (fun s' => exec_all P i s' l') end.
(** Call F; *)
Definition call (P : params) (i : nat) (s : state) (f : list stmt) : outcome state :=
  exec_all P i (mkState [] (nextp s) (nextr s) (geo s) (theAggregates s) (theOuter s) (theInterfaces s)) f.

(** ** The pieces of script *)
Local Open Scope string_scope.
Definition plus (x : string) : bool * string := (true, x).
Definition minus (x : string) : bool * string := (false, x).
Definition c3 (x y z : params -> R) (P : params) : v3 := V3 (x P) (y P) (z P).
Local Open Scope R_scope.
(** sAggregate and sAggregateWithInterface up to the volume, GmshWriter.cpp:6-43 and 52-89 *)
Definition sphere : list stmt :=
  [ NewP "p0"; Point "p0" (c3 xC yC zC);
    NewP "p1"; Point "p1" (c3 (fun P => xC P + Rad P) yC zC);
    NewP "p2"; Point "p2" (c3 xC (fun P => yC P + Rad P) zC);
    NewP "p3"; Point "p3" (c3 xC yC (fun P => zC P + Rad P));
    NewP "p4"; Point "p4" (c3 (fun P => xC P - Rad P) yC zC);
    NewP "p5"; Point "p5" (c3 xC (fun P => yC P - Rad P) zC);
    NewP "p6"; Point "p6" (c3 xC yC (fun P => zC P - Rad P));
    NewR "c0"; Circle "c0" "p1" "p0" "p6"; NewR "c1"; Circle "c1" "p6" "p0" "p4";
    NewR "c2"; Circle "c2" "p4" "p0" "p3"; NewR "c3"; Circle "c3" "p3" "p0" "p1";
    NewR "c4"; Circle "c4" "p1" "p0" "p2"; NewR "c5"; Circle "c5" "p2" "p0" "p4";
    NewR "c6"; Circle "c6" "p4" "p0" "p5"; NewR "c7"; Circle "c7" "p5" "p0" "p1";
    NewR "c8"; Circle "c8" "p6" "p0" "p2"; NewR "c9"; Circle "c9" "p2" "p0" "p3";
    NewR "c10"; Circle "c10" "p3" "p0" "p5"; NewR "c11"; Circle "c11" "p5" "p0" "p6";
    NewR "l0"; LineLoop "l0" [plus "c4"; plus "c9"; plus "c3"];
    NewR "l1"; LineLoop "l1" [plus "c8"; minus "c4"; plus "c0"];
    NewR "l2"; LineLoop "l2" [plus "c11"; minus "c7"; minus "c0"];
    NewR "l3"; LineLoop "l3" [plus "c7"; minus "c3"; plus "c10"];
    NewR "l4"; LineLoop "l4" [minus "c9"; plus "c5"; plus "c2"];
    NewR "l5"; LineLoop "l5" [minus "c10"; minus "c2"; plus "c6"];
    NewR "l6"; LineLoop "l6" [minus "c1"; minus "c6"; minus "c11"];
    NewR "l7"; LineLoop "l7" [minus "c5"; minus "c8"; plus "c1"];
    NewR "s0"; SurfaceOf "s0" "l0"; NewR "s1"; SurfaceOf "s1" "l1"; NewR "s2"; SurfaceOf "s2" "l2"; NewR "s3"; SurfaceOf "s3" "l3";
    NewR "s4"; SurfaceOf "s4" "l4"; NewR "s5"; SurfaceOf "s5" "l5"; NewR "s6"; SurfaceOf "s6" "l6"; NewR "s7"; SurfaceOf "s7" "l7";
    NewR "theInnerInterface";
    NewR "theAggregate";
    SurfaceLoop "theInnerInterface" [Var "s0"; Var "s1"; Var "s2"; Var "s3"; Var "s4"; Var "s5"; Var "s6"; Var "s7"];
    VolumeOf "theAggregate" "theInnerInterface";
    SetAggregate "theAggregate" ].
(** sAggregate, GmshWriter.cpp:4-47 *)
Definition aggregate : list stmt := (sphere ++ [SetOuter "theInnerInterface"])%list.
(** sAggregateWithInterface, GmshWriter.cpp:49-112; its first statement R = R - 0.5 * h is in [aggregate_params] *)
Definition aggregate_with_interface : list stmt := (sphere ++
  [ ExtrudeSurface "Ex0[0]" "Ex0[1]" "s0"; ExtrudeSurface "Ex1[0]" "Ex1[1]" "s1"; ExtrudeSurface "Ex2[0]" "Ex2[1]" "s2";
    ExtrudeSurface "Ex3[0]" "Ex3[1]" "s3"; ExtrudeSurface "Ex4[0]" "Ex4[1]" "s4"; ExtrudeSurface "Ex5[0]" "Ex5[1]" "s5";
    ExtrudeSurface "Ex6[0]" "Ex6[1]" "s6"; ExtrudeSurface "Ex7[0]" "Ex7[1]" "s7";
    SetInterface 8 0 "Ex0[1]"; SetInterface 8 1 "Ex1[1]"; SetInterface 8 2 "Ex2[1]"; SetInterface 8 3 "Ex3[1]";
    SetInterface 8 4 "Ex4[1]"; SetInterface 8 5 "Ex5[1]"; SetInterface 8 6 "Ex6[1]"; SetInterface 8 7 "Ex7[1]";
    NewR "theOuterInterface[i]"; SetOuter "theOuterInterface[i]";
    SurfaceLoop "theOuterInterface[i]" [Var "Ex0[0]"; Var "Ex1[0]"; Var "Ex2[0]"; Var "Ex3[0]"; Var "Ex4[0]"; Var "Ex5[0]"; Var "Ex6[0]"; Var "Ex7[0]"] ])%list.
(** sBox3D, GmshWriter.cpp:115-158 *)
Definition box_3d : list stmt :=
  [ NewP "p0"; Point "p0" (c3 xS yS zE); NewP "p1"; Point "p1" (c3 xS yE zE);
    NewP "p2"; Point "p2" (c3 xE yE zE); NewP "p3"; Point "p3" (c3 xE yS zE);
    NewP "p4"; Point "p4" (c3 xS yS zS); NewP "p5"; Point "p5" (c3 xS yE zS);
    NewP "p6"; Point "p6" (c3 xE yE zS); NewP "p7"; Point "p7" (c3 xE yS zS);
    NewR "lT0"; Line "lT0" "p0" "p1"; NewR "lT1"; Line "lT1" "p1" "p2"; NewR "lT2"; Line "lT2" "p2" "p3"; NewR "lT3"; Line "lT3" "p3" "p0";
    NewR "lB0"; Line "lB0" "p4" "p5"; NewR "lB1"; Line "lB1" "p5" "p6"; NewR "lB2"; Line "lB2" "p6" "p7"; NewR "lB3"; Line "lB3" "p7" "p4";
    NewR "lC0"; Line "lC0" "p0" "p4"; NewR "lC1"; Line "lC1" "p1" "p5"; NewR "lC2"; Line "lC2" "p2" "p6"; NewR "lC3"; Line "lC3" "p3" "p7";
    NewR "lxS"; LineLoop "lxS" [minus "lT3"; plus "lC3"; plus "lB3"; minus "lC0"]; NewSurface "lxS";
    NewR "lxE"; LineLoop "lxE" [minus "lT1"; plus "lC1"; plus "lB1"; minus "lC2"]; NewSurface "lxE";
    NewR "lyS"; LineLoop "lyS" [minus "lT0"; plus "lC0"; plus "lB0"; minus "lC1"]; NewSurface "lyS";
    NewR "lyE"; LineLoop "lyE" [minus "lT2"; plus "lC2"; plus "lB2"; minus "lC3"]; NewSurface "lyE";
    NewR "lzS"; LineLoop "lzS" [plus "lT0"; plus "lT1"; plus "lT2"; plus "lT3"]; NewSurface "lzS";
    NewR "lzE"; LineLoop "lzE" [minus "lB3"; minus "lB2"; minus "lB1"; minus "lB0"]; NewSurface "lzE";
    NewR "theBox"; SurfaceLoop "theBox" [Next "lxS"; Next "lyS"; Next "lxE"; Next "lyE"; Next "lzS"; Next "lzE"] ].
(** sCylinder, GmshWriter.cpp:160-189 *)
Definition cylinder_3d : list stmt :=
  [ NewP "p0"; Point "p0" (c3 (fun _ => 0) (fun _ => 0) (fun _ => 0));
    NewP "p1"; Point "p1" (c3 (fun _ => 0) radius (fun _ => 0));
    NewP "p2"; Point "p2" (c3 (fun _ => 0) (fun P => - radius P) (fun _ => 0));
    NewR "c0"; Circle "c0" "p1" "p0" "p2"; NewR "c1"; Circle "c1" "p2" "p0" "p1";
    NewR "baseLoop"; LineLoop "baseLoop" [plus "c0"; plus "c1"];
    NewR "baseSurface"; SurfaceOf "baseSurface" "baseLoop";
    NewP "p3"; Point "p3" (c3 (fun _ => 0) (fun _ => 0) height);
    NewP "p4"; Point "p4" (c3 (fun _ => 0) radius height);
    NewP "p5"; Point "p5" (c3 (fun _ => 0) (fun P => - radius P) height);
    NewR "c2"; Circle "c2" "p4" "p3" "p5"; NewR "c3"; Circle "c3" "p5" "p3" "p4";
    NewR "topLoop"; LineLoop "topLoop" [plus "c2"; plus "c3"];
    NewR "topSurface"; SurfaceOf "topSurface" "topLoop";
    NewR "verticalOne"; Line "verticalOne" "p2" "p5"; NewR "verticalTwo"; Line "verticalTwo" "p1" "p4";
    NewR "barrelLoopOne"; LineLoop "barrelLoopOne" [plus "c0"; plus "verticalOne"; minus "c2"; minus "verticalTwo"];
    NewR "barrelLoopTwo"; LineLoop "barrelLoopTwo" [plus "c1"; plus "verticalTwo"; minus "c3"; minus "verticalOne"];
    NewR "barrelSurfaceOne"; SurfaceOf "barrelSurfaceOne" "barrelLoopOne"; NewR "barrelSurfaceTwo"; SurfaceOf "barrelSurfaceTwo" "barrelLoopTwo";
    NewR "theBox"; SurfaceLoop "theBox" [Var "barrelSurfaceOne"; Var "barrelSurfaceTwo"; Var "baseSurface"; Var "topSurface"] ].
(** sBox2D, GmshWriter.cpp:191-206 *)
Definition box_2d : list stmt :=
  [ NewP "p0"; Point "p0" (c3 xS yS (fun _ => 0)); NewP "p1"; Point "p1" (c3 xE yS (fun _ => 0));
    NewP "p2"; Point "p2" (c3 xE yE (fun _ => 0)); NewP "p3"; Point "p3" (c3 xS yE (fun _ => 0));
    NewR "l0"; Line "l0" "p0" "p1"; NewR "l1"; Line "l1" "p1" "p2"; NewR "l2"; Line "l2" "p2" "p3"; NewR "l3"; Line "l3" "p3" "p0";
    NewR "theBox"; LineLoop "theBox" [plus "l0"; plus "l1"; plus "l2"; plus "l3"] ].
(** sAggregate2D, GmshWriter.cpp:208-220 *)
Definition aggregate_2d : list stmt :=
  [ NewP "p1"; Point "p1" (c3 xC yC (fun _ => 0));
    NewP "p2"; Point "p2" (c3 (fun P => xC P + Rad P) yC (fun _ => 0));
    NewP "p3"; Point "p3" (c3 (fun P => xC P - Rad P) yC (fun _ => 0));
    NewR "c1"; Circle "c1" "p2" "p1" "p3"; NewR "c2"; Circle "c2" "p3" "p1" "p2";
    NewR "l1"; LineLoop "l1" [plus "c1"; plus "c2"];
    NewR "s1"; SurfaceOf "s1" "l1";
    SetOuter "l1"; SetAggregate "s1" ].
(** sAggregate2DWithInterface, GmshWriter.cpp:222-251 *)
Definition aggregate_2d_with_interface : list stmt :=
  [ NewP "p1"; Point "p1" (c3 xC yC (fun _ => 0));
    NewP "p2"; Point "p2" (c3 (fun P => xC P + Rad P) yC (fun _ => 0));
    NewP "p3"; Point "p3" (c3 xC (fun P => yC P + Rad P) (fun _ => 0));
    NewP "p4"; Point "p4" (c3 (fun P => xC P - Rad P) yC (fun _ => 0));
    NewP "p5"; Point "p5" (c3 xC (fun P => yC P - Rad P) (fun _ => 0));
    NewR "c1"; Circle "c1" "p2" "p1" "p3"; NewR "c2"; Circle "c2" "p3" "p1" "p4";
    NewR "c3"; Circle "c3" "p4" "p1" "p5"; NewR "c4"; Circle "c4" "p5" "p1" "p2";
    NewR "l1"; LineLoop "l1" [plus "c1"; plus "c2"; plus "c3"; plus "c4"];
    NewR "theInnerInterface"; SurfaceOf "theInnerInterface" "l1";
    SetAggregate "theInnerInterface";
    ExtrudeLine "Ex0[0]" "Ex0[1]" "c1"; ExtrudeLine "Ex1[0]" "Ex1[1]" "c2"; ExtrudeLine "Ex2[0]" "Ex2[1]" "c3"; ExtrudeLine "Ex3[0]" "Ex3[1]" "c4";
    SetInterface 4 0 "Ex0[1]"; SetInterface 4 1 "Ex1[1]"; SetInterface 4 2 "Ex2[1]"; SetInterface 4 3 "Ex3[1]";
    NewR "theOuterInterface[i]"; SetOuter "theOuterInterface[i]";
    LineLoop "theOuterInterface[i]" [plus "Ex0[0]"; plus "Ex1[0]"; plus "Ex2[0]"; plus "Ex3[0]"] ].

(** ** The three Write functions *)
(** a number as operator<< writes it with the default precision, and gmsh reads it *)
Definition written (x : R) : R := round SerializeModel.radix10 (FLX_exp 6) ZnearestE x.
Definition zero_params : params := mkParams 0 0 0 0 0 0 0 0 0 0 0 0.
Definition sphere_params (x y z r : R) : params := mkParams (written x) (written y) (written z) (written r) 0 0 0 0 0 0 0 0.
(** [R = R - 0.5 * h], GmshWriter.cpp:51 *)
Definition shrunk (P : params) (h : R) : params := mkParams (xC P) (yC P) (zC P) (Rad P - / 2 * h) 0 0 0 0 0 0 0 0.
Definition start : state := mkState [] 1 1 no_model [] [] [].
Local Open Scope string_scope.
Record result := mkResult { r_model : model; r_matrix : Z; r_box : Z; r_aggregates : list Z; r_outer : list Z; r_interfaces : list Z }.
(** an aggregate (x, y, z, r); in two dimensions z is not used *)
Definition agg : Type := v3 * R.
(** the loop of Aggregates3D, GmshWriter.cpp:301-310 *)
Fixpoint aggregates_3d (h : R) (i : nat) (s : state) (l : list agg) : outcome state :=
  match l with
  | [] => Ok s
  | (c, r) :: l' =>
    let P := sphere_params (vx c) (vy c) (vz c) r in
    obind (if Req_EM_T h 0 then call P i s aggregate else call (shrunk P (written h)) i s aggregate_with_interface)
      (fun s' => aggregates_3d h (S i) s' l')
  end.
(** reading a list that was never assigned is an error, like reading a variable *)
Definition assigned (l : list Z) : outcome (list Z) := match l with [] => Throw | _ => Ok l end.
(** Footer3D, GmshWriter.cpp:265-273: theMatrix is the region inside of theBox and outside of the outer interfaces *)
Definition footer_3d (s : state) : outcome result :=
  obind (assigned (theOuter s)) (fun _ => obind (assigned (theAggregates s)) (fun _ => omap (fun box => let t := nextr s in
    mkResult (geo (add_volume s t (VShells (box :: theOuter s)))) t box (theAggregates s) (theOuter s) (theInterfaces s)) (lookup "theBox" (vars s)))).
(** Write(out, Box3D, ...), GmshWriter.cpp:347-362 *)
Definition write_box_3d (lo hi : v3) (l : list agg) (h : R) : outcome result :=
  obind (aggregates_3d h 0 start l) (fun s =>
  obind (call (mkParams 0 0 0 0 (written (vx lo)) (written (vy lo)) (written (vz lo)) (written (vx hi)) (written (vy hi)) (written (vz hi)) 0 0) 0 s box_3d)
    footer_3d).
(** Write(out, Cylinder, ...), GmshWriter.cpp:364-375 *)
Definition write_cylinder (rad hei : R) (l : list agg) (h : R) : outcome result :=
  obind (aggregates_3d h 0 start l) (fun s =>
  obind (call (mkParams 0 0 0 0 0 0 0 0 0 0 (written rad) (written hei)) 0 s cylinder_3d) footer_3d).
(** Write(out, Box2D, ...), GmshWriter.cpp:313-344, and Footer2D, lines 275-286 *)
Fixpoint aggregates_2d (h : R) (i : nat) (s : state) (l : list agg) : outcome state :=
  match l with
  | [] => Ok s
  | (c, r) :: l' =>
    obind (call (sphere_params (vx c) (vy c) 0 r) i s (if Req_EM_T h 0 then aggregate_2d else aggregate_2d_with_interface))
      (fun s' => aggregates_2d h (S i) s' l')
  end.
Definition footer_2d (s : state) : outcome result :=
  obind (assigned (theOuter s)) (fun _ => obind (assigned (theAggregates s)) (fun _ => omap (fun box => let t := nextr s in
    mkResult (geo (add_surface s t (SLoops (box :: theOuter s)))) t box (theAggregates s) (theOuter s) (theInterfaces s)) (lookup "theBox" (vars s)))).
Definition write_box_2d (lo hi : v3) (l : list agg) (h : R) : outcome result :=
  obind (aggregates_2d h 0 start l) (fun s =>
  obind (call (mkParams 0 0 0 0 (written (vx lo)) (written (vy lo)) 0 (written (vx hi)) (written (vy hi)) 0 0 0) 0 s box_2d)
    footer_2d).
(** the physical groups: names of the options, and their members; Footer3D *)
Definition groups_3d (matrixName aggregateName interfaceName : string) (h : R) (r : result) : list (string * list Z) :=
  ([(matrixName, [r_matrix r]); (aggregateName, r_aggregates r)]
   ++ (if Req_EM_T h 0 then [] else [(interfaceName, r_interfaces r)]))%list.
(** Footer2D; the minus sign reverses the surfaces *)
Definition groups_2d (matrixName aggregateName interfaceName : string) (h : R) (r : result) : list (string * list Z) :=
  ([(matrixName, [r_matrix r]); (aggregateName, r_aggregates r)]
   ++ (if Req_EM_T h 0 then [] else [(interfaceName, map Z.opp (r_interfaces r))]))%list.
