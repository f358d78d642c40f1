(** * What the geometry written for gmsh should be (property C96)

    Objects of a model are referred to by number; nothing here mentions the statements of a script or how the numbers were chosen. *)
From Coq Require Import List ZArith Bool Reals Permutation.
From Verif Require Import Vec3 GeoModel.
Import ListNotations.
Local Open Scope R_scope.

(** ** Consistency: every number is given once to an object of a kind, and only existing objects are referred to *)
Definition defined {A} (t : Z) (l : list (Z * A)) : Prop := In t (map fst l).
Record consistent (m : model) : Prop := {
  once_points : NoDup (map fst (points m)); once_curves : NoDup (map fst (curves m)); once_loops : NoDup (map fst (loops m));
  once_surfaces : NoDup (map fst (surfaces m)); once_shells : NoDup (map fst (shells m)); once_volumes : NoDup (map fst (volumes m));
  refs_curves : forall t c, In (t, c) (curves m) ->
    match c with CLine a b => defined a (points m) /\ defined b (points m)
               | CCircle a z b => defined a (points m) /\ defined z (points m) /\ defined b (points m)
               | COffset c => defined c (curves m) end;
  refs_loops : forall t l e, In (t, l) (loops m) -> In e l -> defined (snd e) (curves m);
  refs_surfaces : forall t f, In (t, f) (surfaces m) ->
    match f with SLoops ls => forall l, In l ls -> defined l (loops m) | SOffset s => defined s (surfaces m) | SStrip c => defined c (curves m) end;
  refs_shells : forall t l f, In (t, l) (shells m) -> In f l -> defined f (surfaces m);
  refs_volumes : forall t v, In (t, v) (volumes m) ->
    match v with VShells l => forall s, In s l -> defined s (shells m) | VLayer s => defined s (surfaces m) end }.

(** ** Oriented curves *)
(** the oriented line [e] leads from point p to point q; the oriented arc [e] with centre z does *)
Definition line (m : model) (e : signed) (p q : Z) : Prop := In (snd e, if fst e then CLine p q else CLine q p) (curves m).
Definition arc (m : model) (e : signed) (z p q : Z) : Prop := In (snd e, if fst e then CCircle p z q else CCircle q z p) (curves m).
(** [f] is a face inside of one line loop *)
Definition bounded_by (m : model) (f : Z) (l : list signed) : Prop :=
  exists t, In (f, SLoops [t]) (surfaces m) /\ In (t, l) (loops m).
(** a closed surface whose faces have compatible orientations: every curve is used twice, once in each direction *)
Definition closed_surface (m : model) (fs : list Z) : Prop :=
  exists ls, Forall2 (bounded_by m) fs ls /\ NoDup (concat ls) /\ forall b c, In (b, c) (concat ls) -> In (negb b, c) (concat ls).
(** a closed surface, if orientations are disregarded: every curve is used twice *)
Definition closed_unoriented (m : model) (fs : list Z) : Prop :=
  exists ls, Forall2 (bounded_by m) fs ls /\ forall c, In c (map snd (concat ls)) -> count_occ Z.eq_dec (map snd (concat ls)) c = 2%nat.

(** ** Spheres *)
Definition sgn (b : bool) : R := if b then 1 else -1.
Definition corner_x (c : v3) (r : R) (b : bool) : v3 := V3 (vx c + sgn b * r) (vy c) (vz c).
Definition corner_y (c : v3) (r : R) (b : bool) : v3 := V3 (vx c) (vy c + sgn b * r) (vz c).
Definition corner_z (c : v3) (r : R) (b : bool) : v3 := V3 (vx c) (vy c) (vz c + sgn b * r).
(** triple product of the three corners, seen from c: positive if they are in anticlockwise order for someone outside *)
Definition triple (c p q s : v3) : R :=
  let a := vsub p c in let b := vsub q c in let d := vsub s c in
  vx a * (vy b * vz d - vz b * vy d) + vy a * (vz b * vx d - vx b * vz d) + vz a * (vx b * vy d - vy b * vx d).
(** the eighth of the sphere in the octant (x, y, z), bounded by three quarter circles about the centre, and oriented outward *)
Definition octant (m : model) (c : v3) (r : R) (o : bool * bool * bool) (f : Z) : Prop :=
  let '(x, y, z) := o in
  exists l e1 e2 e3 t p1 p2 p3 P2 P3,
    bounded_by m f l /\ Permutation l [e1; e2; e3] /\ arc m e1 t p1 p2 /\ arc m e2 t p2 p3 /\ arc m e3 t p3 p1
    /\ In (t, c) (points m) /\ In (p1, corner_x c r x) (points m) /\ In (p2, P2) (points m) /\ In (p3, P3) (points m)
    /\ ((P2 = corner_y c r y /\ P3 = corner_z c r z) \/ (P2 = corner_z c r z /\ P3 = corner_y c r y))
    /\ 0 < triple c (corner_x c r x) P2 P3.
Definition octants : list (bool * bool * bool) :=
  [(true, true, true); (true, true, false); (true, false, true); (true, false, false);
   (false, true, true); (false, true, false); (false, false, true); (false, false, false)].
Definition sphere_surface (m : model) (c : v3) (r : R) (fs : list Z) : Prop :=
  closed_surface m fs /\ exists os, Permutation os octants /\ Forall2 (octant m c r) os fs.

(** ** Boxes *)
Definition corner (lo hi : v3) (b : bool * bool * bool) : v3 :=
  let '(x, y, z) := b in V3 (if x then vx hi else vx lo) (if y then vy hi else vy lo) (if z then vz hi else vz lo).
Inductive axis := AX | AY | AZ.
Definition comp (a : axis) (b : bool * bool * bool) : bool := let '(x, y, z) := b in match a with AX => x | AY => y | AZ => z end.
(** two corners of a common edge: they differ in one coordinate *)
Definition adjacent (b b' : bool * bool * bool) : Prop :=
  exists a, comp a b <> comp a b' /\ forall a', a' <> a -> comp a' b = comp a' b'.
(** the rectangle whose corners are those corners of the box with the given side in the direction a *)
Definition rectangle (m : model) (lo hi : v3) (side : axis * bool) (f : Z) : Prop :=
  exists e1 e2 e3 e4 p1 p2 p3 p4 b1 b2 b3 b4 l,
    bounded_by m f l /\ Permutation l [e1; e2; e3; e4] /\ line m e1 p1 p2 /\ line m e2 p2 p3 /\ line m e3 p3 p4 /\ line m e4 p4 p1
    /\ Forall2 (fun p b => In (p, corner lo hi b) (points m) /\ comp (fst side) b = snd side) [p1; p2; p3; p4] [b1; b2; b3; b4]
    /\ NoDup [b1; b2; b3; b4] /\ adjacent b1 b2 /\ adjacent b2 b3 /\ adjacent b3 b4 /\ adjacent b4 b1.
Definition sides : list (axis * bool) := [(AX, false); (AX, true); (AY, false); (AY, true); (AZ, false); (AZ, true)].
Definition box_surface (m : model) (lo hi : v3) (fs : list Z) : Prop :=
  closed_surface m fs /\ exists ss, Permutation ss sides /\ Forall2 (rectangle m lo hi) ss fs.

(** ** The written geometry in three dimensions *)
Definition written3 (p : v3) : v3 := V3 (written (vx p)) (written (vy p)) (written (vz p)).
(** volume [v] is the ball of the aggregate, and the shell [o] is its surface *)
Definition plain_aggregate (m : model) (a : agg) (v o : Z) (ifs : list Z) : Prop :=
  ifs = [] /\ In (v, VShells [o]) (volumes m)
  /\ exists fs, In (o, fs) (shells m) /\ sphere_surface m (written3 (fst a)) (written (snd a)) fs.
(** with an interface of thickness h: the ball has the radius r - h / 2, and the volumes [ifs] are the layers between its faces and
    their copies at the distance h, which make up the shell [o] *)
Definition coated_aggregate (h : R) (m : model) (a : agg) (v o : Z) (ifs : list Z) : Prop :=
  exists inner fs outer, In (v, VShells [inner]) (volumes m) /\ In (inner, fs) (shells m)
  /\ sphere_surface m (written3 (fst a)) (written (snd a) - h / 2) fs
  /\ In (o, outer) (shells m) /\ Forall2 (fun f f' => In (f', SOffset f) (surfaces m)) fs outer
  /\ Forall2 (fun f v => In (v, VLayer f) (volumes m)) fs ifs.
Definition aggregate_ok (h : R) : model -> agg -> Z -> Z -> list Z -> Prop :=
  if Req_EM_T h 0 then plain_aggregate else coated_aggregate (written h).
(** the aggregates are the given ones; the matrix is what the specimen surface [r_box] encloses without them; there are no other volumes *)
Definition right_volumes (l : list agg) (h : R) (r : result) : Prop :=
  (exists ifss, r_interfaces r = concat ifss
     /\ Forall2 (fun a '(v, (o, ifs)) => aggregate_ok h (r_model r) a v o ifs) l (combine (r_aggregates r) (combine (r_outer r) ifss))
     /\ length (r_aggregates r) = length l /\ length (r_outer r) = length l /\ length ifss = length l)
  /\ In (r_matrix r, VShells (r_box r :: r_outer r)) (volumes (r_model r))
  /\ Permutation (r_matrix r :: r_aggregates r ++ r_interfaces r) (map fst (volumes (r_model r))).
(** every interface is thinner than its aggregate is wide *)
Definition thin (h : R) (l : list agg) : Prop := 0 <= h /\ Forall (fun a => 0 < snd a /\ h <= snd a) l.

(** ** Disks, for two dimensions *)
Definition in_plane (p : v3) : v3 := V3 (written (vx p)) (written (vy p)) 0.
(** an arc that gmsh can make: its ends have the same distance from the centre and are not on one line with it *)
Definition proper_arc (m : model) (z p q : Z) : Prop :=
  exists Z0 P Q, In (z, Z0) (points m) /\ In (p, P) (points m) /\ In (q, Q) (points m)
  /\ dot (vsub P Z0) (vsub P Z0) = dot (vsub Q Z0) (vsub Q Z0)
  /\ ~ exists a b, (a <> 0 \/ b <> 0) /\ vadd (smul a (vsub P Z0)) (smul b (vsub Q Z0)) = V3 0 0 0.
Definition all_arcs_proper (m : model) : Prop := forall t p z q, In (t, CCircle p z q) (curves m) -> proper_arc m z p q.
(** the circle about c with the radius r, as a closed line of arcs about the centre *)
Fixpoint arcs_through (m : model) (z : Z) (es : list signed) (ps : list Z) (first : Z) : Prop :=
  match es, ps with
  | e :: es', p :: ps' => arc m e z p (match ps' with [] => first | q :: _ => q end) /\ arcs_through m z es' ps' first
  | [], [] => True
  | _, _ => False
  end.
Definition circle (m : model) (c : v3) (r : R) (l : list signed) : Prop :=
  exists z ps, In (z, c) (points m) /\ NoDup ps /\ ps <> []
  /\ Forall (fun p => exists P, In (p, P) (points m) /\ dot (vsub P c) (vsub P c) = r * r /\ vz P = vz c) ps
  /\ arcs_through m z l ps (hd 0%Z ps).
Definition plain_disk (m : model) (a : agg) (s o : Z) (ifs : list Z) : Prop :=
  ifs = [] /\ In (s, SLoops [o]) (surfaces m)
  /\ exists l, In (o, l) (loops m) /\ circle m (in_plane (fst a)) (written (snd a)) l.
(** with an interface, the disk has the radius r, and the strips [ifs] are between its edge and the copy of it at the distance h *)
Definition coated_disk (m : model) (a : agg) (s o : Z) (ifs : list Z) : Prop :=
  exists inner l outer, In (s, SLoops [inner]) (surfaces m) /\ In (inner, l) (loops m)
  /\ circle m (in_plane (fst a)) (written (snd a)) l
  /\ In (o, outer) (loops m) /\ Forall2 (fun e e' => fst e = true /\ fst e' = true /\ In (snd e', COffset (snd e)) (curves m)) l outer
  /\ Forall2 (fun e s => In (s, SStrip (snd e)) (surfaces m)) l ifs.
Definition disk_ok (h : R) : model -> agg -> Z -> Z -> list Z -> Prop :=
  if Req_EM_T h 0 then plain_disk else coated_disk.
Definition right_surfaces (l : list agg) (h : R) (r : result) : Prop :=
  (exists ifss, r_interfaces r = concat ifss
     /\ Forall2 (fun a '(v, (o, ifs)) => disk_ok h (r_model r) a v o ifs) l (combine (r_aggregates r) (combine (r_outer r) ifss))
     /\ length (r_aggregates r) = length l /\ length (r_outer r) = length l /\ length ifss = length l)
  /\ In (r_matrix r, SLoops (r_box r :: r_outer r)) (surfaces (r_model r))
  /\ Permutation (r_matrix r :: r_aggregates r ++ r_interfaces r) (map fst (surfaces (r_model r))).
(** the four sides of the specimen, anticlockwise if lo is below hi *)
Definition rectangle_2d (m : model) (lo hi : v3) (l : list signed) : Prop :=
  exists e1 e2 e3 e4 p1 p2 p3 p4, l = [e1; e2; e3; e4] /\ line m e1 p1 p2 /\ line m e2 p2 p3 /\ line m e3 p3 p4 /\ line m e4 p4 p1
  /\ In (p1, V3 (vx lo) (vy lo) 0) (points m) /\ In (p2, V3 (vx hi) (vy lo) 0) (points m)
  /\ In (p3, V3 (vx hi) (vy hi) 0) (points m) /\ In (p4, V3 (vx lo) (vy hi) 0) (points m).

(** ** The cylinder with its axis on the z axis, from z = 0 to z = h *)
(** a part of the lateral surface: an arc of the base, the edge upwards, an arc of the top in the opposite direction, and the edge down *)
Definition lateral (m : model) (h : R) (base top : list signed) (f : Z) : Prop :=
  exists l e1 e2 e3 e4 z z' p q p' q' P Q, bounded_by m f l /\ Permutation l [e1; e2; e3; e4]
  /\ arc m e1 z p q /\ line m e2 q q' /\ arc m e3 z' q' p' /\ line m e4 p' p
  /\ In e1 base /\ In (negb (fst e3), snd e3) top
  /\ In (p, P) (points m) /\ In (q, Q) (points m) /\ In (p', vadd P (V3 0 0 h)) (points m) /\ In (q', vadd Q (V3 0 0 h)) (points m).
Definition cylinder_surface (m : model) (r h : R) (fs : list Z) : Prop :=
  closed_unoriented m fs /\ exists b t s1 s2 base top, Permutation fs [b; t; s1; s2]
  /\ bounded_by m b base /\ circle m (V3 0 0 0) r base /\ bounded_by m t top /\ circle m (V3 0 0 h) r top
  /\ lateral m h base top s1 /\ lateral m h base top s2.
