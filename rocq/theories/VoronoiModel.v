(** * Model of nuto/visualize/VoronoiGeometries.cpp: lines, quads and bricks

    The geometry is the pair of points and cells of VoronoiHandler.h:15-25.  The cells of triangles come from boost's Voronoi
    diagram and are not modelled.  [int] is unbounded. *)
From Coq Require Import List ZArith Arith Reals.
From Verif Require Import Outcome LegendreModel.
Import ListNotations.
Local Open Scope R_scope.

(** Linspace, VoronoiGeometries.cpp:9-15; called with num + 1.  For a single point the division is 0 / 0: the result is not a
    number, which is the outcome [UB] here *)
Definition linspace (s e : R) (num : nat) : outcome (list R) :=
  if Nat.eqb num 1 then UB else Ok (map (fun i => s + (e - s) * INR i / INR (num - 1)) (seq 0 num)).
(** CenteredPointsWithBoundary, lines 17-25; the points of a rule are never empty *)
Definition centered (pts : list R) : list R :=
  [-1] ++ map (fun i => (nth i pts 0 + nth (i + 1) pts 0) / 2) (seq 0 (length pts - 1)) ++ [1].
Inductive spacing := EQUIDISTANT | SLOBATTO | SGAUSS.
Section Spaced.
  Variables gauss_roots lobatto_roots : nat -> list R.
  (** Gaussspaced, Lobattospaced, lines 27-37, and the switch of lines 107-118, 122-133, 137-148 *)
  Definition spaced (num : nat) (s : spacing) : outcome (list R) :=
    match s with
    | EQUIDISTANT => linspace (-1) 1 (num + 1)
    | SLOBATTO => omap (fun wp => centered (snd wp)) (lobatto_rule lobatto_roots num)
    | SGAUSS => omap (fun wp => centered (snd wp)) (gauss_rule gauss_roots num)
    end.
End Spaced.

Definition geometry2 := (list (list R) * list (list Z * Z))%type.
Definition zn (l : list nat) : list Z := map Z.of_nat l.
(** VoronoiGeometryLineHelper, lines 40-52; VTK types 3, 9 and 12 *)
Definition line_helper (g : list R) : geometry2 :=
  let num := (length g - 1)%nat in
  (map (fun x => [x]) g, map (fun i => (zn [i; i + 1], 3%Z))%nat (seq 0 num)).
(** VoronoiGeometryQuadHelper, lines 54-74 *)
Definition quad_helper (g : list R) : geometry2 :=
  let num := (length g - 1)%nat in
  (flat_map (fun y => map (fun x => [x; y]) g) g,
   flat_map (fun row => map (fun col => let start := row * (num + 1) + col in
     (zn [start; start + 1; start + num + 2; start + num + 1], 9%Z)) (seq 0 num)) (seq 0 num))%nat.
(** VoronoiGeometryBrickHelper, lines 76-102 *)
Definition brick_helper (g : list R) : geometry2 :=
  let num := (length g - 1)%nat in
  (flat_map (fun z => flat_map (fun y => map (fun x => [x; y; z]) g) g) g,
   flat_map (fun height => flat_map (fun row => map (fun col =>
     let start1 := row * (num + 1) + col + height * ((num + 1) * (num + 1)) in
     let start2 := row * (num + 1) + col + (height + 1) * ((num + 1) * (num + 1)) in
     (zn [start1; start1 + 1; start1 + num + 2; start1 + num + 1; start2; start2 + 1; start2 + num + 2; start2 + num + 1], 12%Z))
     (seq 0 num)) (seq 0 num)) (seq 0 num))%nat.
(** VoronoiGeometryLine, VoronoiGeometryQuad, VoronoiGeometryBrick, lines 105-148, by dimension *)
Definition helper (d : nat) (g : list R) : geometry2 := match d with 1%nat => line_helper g | 2%nat => quad_helper g | _ => brick_helper g end.
Definition voronoi_geometry (gauss_roots lobatto_roots : nat -> list R) (d num : nat) (s : spacing) : outcome geometry2 :=
  omap (helper d) (spaced gauss_roots lobatto_roots num s).
