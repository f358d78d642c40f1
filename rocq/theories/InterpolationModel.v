(** * Model of the fixed order interpolations (generated from the C++ text by a line by line translation)

    A point is given by its local coordinates [c 0, c 1, c 2]. Simplification: [double] is modelled by the reals, the
    decimal literals by the exact decimal fractions. *)
From Coq Require Import List Reals.
Import ListNotations.
Local Open Scope R_scope.

(** InterpolationTrussLinear.cpp:36-47; other indices throw *)
Definition truss_linear_nodes : list (list R) :=
  [ [-1];
    [1] ].
(** InterpolationTrussLinear.cpp:49-52 *)
Definition truss_linear_shape (c : nat -> R) : list R :=
  [ (5 / 10) * (1 - (c 0%nat));
    (5 / 10) * (1 + (c 0%nat)) ].
(** InterpolationTrussLinear.cpp:54-57 *)
Definition truss_linear_deriv (c : nat -> R) : list (list R) :=
  [ [-(5 / 10)];
    [(5 / 10)] ].

(** InterpolationTrussQuadratic.cpp:37-50; other indices throw *)
Definition truss_quadratic_nodes : list (list R) :=
  [ [-1];
    [0];
    [1] ].
(** InterpolationTrussQuadratic.cpp:52-59 *)
Definition truss_quadratic_shape (c : nat -> R) : list R :=
  [ (5 / 10) * (1 - (c 0%nat)) - (5 / 10) * (1 - (c 0%nat) * (c 0%nat));
    1 - (c 0%nat) * (c 0%nat);
    (5 / 10) * (1 + (c 0%nat)) - (5 / 10) * (1 - (c 0%nat) * (c 0%nat)) ].
(** InterpolationTrussQuadratic.cpp:61-68 *)
Definition truss_quadratic_deriv (c : nat -> R) : list (list R) :=
  [ [-(5 / 10) + (c 0%nat)];
    [-2 * (c 0%nat)];
    [(5 / 10) + (c 0%nat)] ].

(** InterpolationTruss3rdOrder.cpp:37-52; other indices throw *)
Definition truss_3rd_nodes : list (list R) :=
  [ [-1];
    [-1 / 3];
    [1 / 3];
    [1] ].
(** InterpolationTruss3rdOrder.cpp:54-65 *)
Definition truss_3rd_shape (c : nat -> R) : list R :=
  let r := (c 0%nat) in
  let r2 := r * r in
  let r3 := r2 * r in
  [ -(625 / 10000) + (625 / 10000) * r + (5625 / 10000) * r2 - (5625 / 10000) * r3;
    (5625 / 10000) - (16875 / 10000) * r - (5625 / 10000) * r2 + (16875 / 10000) * r3;
    (5625 / 10000) + (16875 / 10000) * r - (5625 / 10000) * r2 - (16875 / 10000) * r3;
    -(625 / 10000) - (625 / 10000) * r + (5625 / 10000) * r2 + (5625 / 10000) * r3 ].
(** InterpolationTruss3rdOrder.cpp:67-77 *)
Definition truss_3rd_deriv (c : nat -> R) : list (list R) :=
  let r := (c 0%nat) in
  let r2 := r * r in
  [ [(625 / 10000) + (1125 / 1000) * r - (16875 / 10000) * r2];
    [-(16875 / 10000) - (1125 / 1000) * r + (50625 / 10000) * r2];
    [(16875 / 10000) - (1125 / 1000) * r - (50625 / 10000) * r2];
    [-(625 / 10000) + (1125 / 1000) * r + (16875 / 10000) * r2] ].

(** InterpolationTruss4thOrder.cpp:37-54; other indices throw *)
Definition truss_4th_nodes : list (list R) :=
  [ [-1];
    [-(5 / 10)];
    [0];
    [(5 / 10)];
    [1] ].
(** InterpolationTruss4thOrder.cpp:56-69 *)
Definition truss_4th_shape (c : nat -> R) : list R :=
  let r := (c 0%nat) in
  let r2 := r * r in
  let r3 := r2 * r in
  let r4 := r3 * r in
  [ (166666666667 / 1000000000000) * r - (166666666667 / 1000000000000) * r2 - (666666666667 / 1000000000000) * r3 + (666666666667 / 1000000000000) * r4;
    -(133333333333 / 100000000000) * r + (266666666667 / 100000000000) * r2 + (133333333333 / 100000000000) * r3 - (266666666667 / 100000000000) * r4;
    1 - 5 * r2 + 4 * r4;
    (133333333333 / 100000000000) * r + (266666666667 / 100000000000) * r2 - (133333333333 / 100000000000) * r3 - (266666666667 / 100000000000) * r4;
    -(166666666667 / 1000000000000) * r - (166666666667 / 1000000000000) * r2 + (666666666667 / 1000000000000) * r3 + (666666666667 / 1000000000000) * r4 ].
(** InterpolationTruss4thOrder.cpp:71-83 *)
Definition truss_4th_deriv (c : nat -> R) : list (list R) :=
  let r := (c 0%nat) in
  let r2 := r * r in
  let r3 := r2 * r in
  [ [(166666666667 / 1000000000000) - (333333333333 / 1000000000000) * r - 2 * r2 + (266666666667 / 100000000000) * r3];
    [-(133333333333 / 100000000000) + (533333333333 / 100000000000) * r + 4 * r2 - (106666666667 / 10000000000) * r3];
    [-10 * r + 16 * r3];
    [(133333333333 / 100000000000) + (533333333333 / 100000000000) * r - 4 * r2 - (106666666667 / 10000000000) * r3];
    [-(166666666667 / 1000000000000) - (333333333333 / 1000000000000) * r + 2 * r2 + (266666666667 / 100000000000) * r3] ].

(** InterpolationTriangleLinear.cpp:37-50; other indices throw *)
Definition triangle_linear_nodes : list (list R) :=
  [ [0; 0];
    [1; 0];
    [0; 1] ].
(** InterpolationTriangleLinear.cpp:52-59 *)
Definition triangle_linear_shape (c : nat -> R) : list R :=
  [ 1 - (c 0%nat) - (c 1%nat);
    (c 0%nat);
    (c 1%nat) ].
(** InterpolationTriangleLinear.cpp:61-73 *)
Definition triangle_linear_deriv (c : nat -> R) : list (list R) :=
  [ [-1; -1];
    [1; 0];
    [0; 1] ].

(** InterpolationTriangleQuadratic.cpp:37-56; other indices throw *)
Definition triangle_quadratic_nodes : list (list R) :=
  [ [0; 0];
    [1; 0];
    [0; 1];
    [(5 / 10); 0];
    [(5 / 10); (5 / 10)];
    [0; (5 / 10)] ].
(** InterpolationTriangleQuadratic.cpp:58-71 *)
Definition triangle_quadratic_shape (c : nat -> R) : list R :=
  let r := (c 0%nat) in
  let s := (c 1%nat) in
  [ 2 * (r * r + s * s) + 4 * r * s - 3 * (r + s) + 1;
    2 * r * r - r;
    2 * s * s - s;
    -4 * r * (r + s - 1);
    4 * r * s;
    -4 * s * (s + r - 1) ].
(** InterpolationTriangleQuadratic.cpp:74-98 *)
Definition triangle_quadratic_deriv (c : nat -> R) : list (list R) :=
  let r := (c 0%nat) in
  let s := (c 1%nat) in
  [ [4 * (r + s) - 3; 4 * (r + s) - 3];
    [4 * r - 1; 0];
    [0; 4 * s - 1];
    [-8 * r - 4 * s + 4; -4 * r];
    [4 * s; 4 * r];
    [-4 * s; -8 * s - 4 * r + 4] ].

(** InterpolationTriangle3rdOrder.cpp:37-64; other indices throw *)
Definition triangle_3rd_nodes : list (list R) :=
  [ [0; 0];
    [1 / 3; 0];
    [2 / 3; 0];
    [1; 0];
    [0; 1 / 3];
    [1 / 3; 1 / 3];
    [2 / 3; 1 / 3];
    [0; 2 / 3];
    [1 / 3; 2 / 3];
    [0; 1] ].
(** InterpolationTriangle3rdOrder.cpp:66-85 *)
Definition triangle_3rd_shape (c : nat -> R) : list R :=
  let r := (c 0%nat) in
  let s := (c 1%nat) in
  [ 1 - (55 / 10) * r - (55 / 10) * s + 9 * r * r + 18 * r * s + 9 * s * s - (45 / 10) * r * r * r - (135 / 10) * r * r * s - (135 / 10) * r * s * s - (45 / 10) * s * s * s;
    9 * r - (225 / 10) * r * r - (225 / 10) * r * s + (135 / 10) * r * r * r + 27 * r * r * s + (135 / 10) * r * s * s;
    -(45 / 10) * r + 18 * r * r + (45 / 10) * r * s - (135 / 10) * r * r * r - (135 / 10) * r * r * s;
    1 * r - (45 / 10) * r * r + (45 / 10) * r * r * r;
    9 * s - (225 / 10) * r * s - (225 / 10) * s * s + (135 / 10) * r * r * s + 27 * r * s * s + (135 / 10) * s * s * s;
    27 * r * s - 27 * r * r * s - 27 * r * s * s;
    -(45 / 10) * r * s + (135 / 10) * r * r * s;
    -(45 / 10) * s + (45 / 10) * r * s + 18 * s * s - (135 / 10) * r * s * s - (135 / 10) * s * s * s;
    -(45 / 10) * r * s + (135 / 10) * r * s * s;
    1 * s - (45 / 10) * s * s + (45 / 10) * s * s * s ].
(** InterpolationTriangle3rdOrder.cpp:88-125 *)
Definition triangle_3rd_deriv (c : nat -> R) : list (list R) :=
  let r := (c 0%nat) in
  let s := (c 1%nat) in
  [ [-(55 / 10) + 18 * r + 18 * s - (135 / 10) * r * r - 27 * r * s - (135 / 10) * s * s; -(55 / 10) + 18 * r + 18 * s - (135 / 10) * r * r - 27 * r * s - (135 / 10) * s * s];
    [9 - 45 * r - (225 / 10) * s + (405 / 10) * r * r + 54 * r * s + (135 / 10) * s * s; -(225 / 10) * r + 27 * r * r + 27 * r * s];
    [-(45 / 10) + 36 * r + (45 / 10) * s - (405 / 10) * r * r - 27 * r * s; (45 / 10) * r - (135 / 10) * r * r];
    [1 - 9 * r + (135 / 10) * r * r; 0];
    [-(225 / 10) * s + 27 * r * s + 27 * s * s; 9 - (225 / 10) * r - 45 * s + (135 / 10) * r * r + 54 * r * s + (405 / 10) * s * s];
    [27 * s - 54 * r * s - 27 * s * s; 27 * r - 27 * r * r - 54 * r * s];
    [-(45 / 10) * s + 27 * r * s; -(45 / 10) * r + (135 / 10) * r * r];
    [(45 / 10) * s - (135 / 10) * s * s; -(45 / 10) + (45 / 10) * r + 36 * s - 27 * r * s - (405 / 10) * s * s];
    [-(45 / 10) * s + (135 / 10) * s * s; -(45 / 10) * r + 27 * r * s];
    [0; 1 - 9 * s + (135 / 10) * s * s] ].

(** InterpolationTriangle4thOrder.cpp:37-74; other indices throw *)
Definition triangle_4th_nodes : list (list R) :=
  [ [0; 0];
    [(25 / 100); 0];
    [(5 / 10); 0];
    [(75 / 100); 0];
    [1; 0];
    [0; (25 / 100)];
    [(25 / 100); (25 / 100)];
    [(5 / 10); (25 / 100)];
    [(75 / 100); (25 / 100)];
    [0; (5 / 10)];
    [(25 / 100); (5 / 10)];
    [(5 / 10); (5 / 10)];
    [0; (75 / 100)];
    [(25 / 100); (75 / 100)];
    [0; 1] ].
(** InterpolationTriangle4thOrder.cpp:76-113 *)
Definition triangle_4th_shape (c : nat -> R) : list R :=
  let r := (c 0%nat) in
  let s := (c 1%nat) in
  [ 1 - (833333333333 / 100000000000) * r - (833333333333 / 100000000000) * s + (233333333333 / 10000000000) * r * r + (466666666667 / 10000000000) * r * s + (233333333333 / 10000000000) * s * s - (266666666667 / 10000000000) * r * r * r - 80 * r * r * s - 80 * r * s * s - (266666666667 / 10000000000) * s * s * s + (106666666667 / 10000000000) * s * s * s * s + (426666666667 / 10000000000) * r * s * s * s + 64 * r * r * s * s + (426666666667 / 10000000000) * r * r * r * s + (106666666667 / 10000000000) * r * r * r * r;
    16 * r - (693333333333 / 10000000000) * r * r - (693333333333 / 10000000000) * r * s + 96 * r * r * r + 192 * r * r * s + 96 * r * s * s - (426666666667 / 10000000000) * r * s * s * s - 128 * r * r * s * s - 128 * r * r * r * s - (426666666667 / 10000000000) * r * r * r * r;
    -12 * r + 76 * r * r + 28 * r * s - 128 * r * r * r - 144 * r * r * s - 16 * r * s * s + 64 * r * r * s * s + 128 * r * r * r * s + 64 * r * r * r * r;
    (533333333333 / 100000000000) * r - (373333333333 / 10000000000) * r * r - (533333333333 / 100000000000) * r * s + (746666666667 / 10000000000) * r * r * r + 32 * r * r * s - (426666666667 / 10000000000) * r * r * r * s - (426666666667 / 10000000000) * r * r * r * r;
    -1 * r + (733333333333 / 100000000000) * r * r - 16 * r * r * r + (106666666667 / 10000000000) * r * r * r * r;
    16 * s - (693333333333 / 10000000000) * r * s - (693333333333 / 10000000000) * s * s + 96 * r * r * s + 192 * r * s * s + 96 * s * s * s - (426666666667 / 10000000000) * s * s * s * s - 128 * r * s * s * s - 128 * r * r * s * s - (426666666667 / 10000000000) * r * r * r * s;
    96 * r * s - 224 * r * r * s - 224 * r * s * s + 128 * r * s * s * s + 256 * r * r * s * s + 128 * r * r * r * s;
    -32 * r * s + 160 * r * r * s + 32 * r * s * s - 128 * r * r * s * s - 128 * r * r * r * s;
    (533333333333 / 100000000000) * r * s - 32 * r * r * s + (426666666667 / 10000000000) * r * r * r * s;
    -12 * s + 28 * r * s + 76 * s * s - 16 * r * r * s - 144 * r * s * s - 128 * s * s * s + 64 * s * s * s * s + 128 * r * s * s * s + 64 * r * r * s * s;
    -32 * r * s + 32 * r * r * s + 160 * r * s * s - 128 * r * s * s * s - 128 * r * r * s * s;
    4 * r * s - 16 * r * r * s - 16 * r * s * s + 64 * r * r * s * s;
    (533333333333 / 100000000000) * s - (533333333333 / 100000000000) * r * s - (373333333333 / 10000000000) * s * s + 32 * r * s * s + (746666666667 / 10000000000) * s * s * s - (426666666667 / 10000000000) * s * s * s * s - (426666666667 / 10000000000) * r * s * s * s;
    (533333333333 / 100000000000) * r * s - 32 * r * s * s + (426666666667 / 10000000000) * r * s * s * s;
    -1 * s + (733333333333 / 100000000000) * s * s - 16 * s * s * s + (106666666667 / 10000000000) * s * s * s * s ].
(** InterpolationTriangle4thOrder.cpp:116-184 *)
Definition triangle_4th_deriv (c : nat -> R) : list (list R) :=
  let r := (c 0%nat) in
  let s := (c 1%nat) in
  [ [-(833333333333 / 100000000000) + (466666666667 / 10000000000) * r + (466666666667 / 10000000000) * s - 80 * r * r - 160 * r * s - 80 * s * s + (426666666667 / 10000000000) * s * s * s + 128 * r * s * s + 128 * r * r * s + (426666666667 / 10000000000) * r * r * r; -(833333333333 / 100000000000) + (466666666667 / 10000000000) * r + (466666666667 / 10000000000) * s - 80 * r * r - 160 * r * s - 80 * s * s + (426666666667 / 10000000000) * s * s * s + 128 * r * s * s + 128 * r * r * s + (426666666667 / 10000000000) * r * r * r];
    [16 - (138666666667 / 1000000000) * r - (693333333333 / 10000000000) * s + 288 * r * r + 384 * r * s + 96 * s * s - (426666666667 / 10000000000) * s * s * s - 256 * r * s * s - 384 * r * r * s - (170666666667 / 1000000000) * r * r * r; -(693333333333 / 10000000000) * r + 192 * r * r + 192 * r * s - 128 * r * s * s - 256 * r * r * s - 128 * r * r * r];
    [-12 + 152 * r + 28 * s - 384 * r * r - 288 * r * s - 16 * s * s + 128 * r * s * s + 384 * r * r * s + 256 * r * r * r; 28 * r - 144 * r * r - 32 * r * s + 128 * r * r * s + 128 * r * r * r];
    [(533333333333 / 100000000000) - (746666666667 / 10000000000) * r - (533333333333 / 100000000000) * s + 224 * r * r + 64 * r * s - 128 * r * r * s - (170666666667 / 1000000000) * r * r * r; -(533333333333 / 100000000000) * r + 32 * r * r - (426666666667 / 10000000000) * r * r * r];
    [-1 + (146666666667 / 10000000000) * r - 48 * r * r + (426666666667 / 10000000000) * r * r * r; 0];
    [-(693333333333 / 10000000000) * s + 192 * r * s + 192 * s * s - 128 * s * s * s - 256 * r * s * s - 128 * r * r * s; 16 - (693333333333 / 10000000000) * r - (138666666667 / 1000000000) * s + 96 * r * r + 384 * r * s + 288 * s * s - (170666666667 / 1000000000) * s * s * s - 384 * r * s * s - 256 * r * r * s - (426666666667 / 10000000000) * r * r * r];
    [96 * s - 448 * r * s - 224 * s * s + 128 * s * s * s + 512 * r * s * s + 384 * r * r * s; 96 * r - 224 * r * r - 448 * r * s + 384 * r * s * s + 512 * r * r * s + 128 * r * r * r];
    [-32 * s + 320 * r * s + 32 * s * s - 256 * r * s * s - 384 * r * r * s; -32 * r + 160 * r * r + 64 * r * s - 256 * r * r * s - 128 * r * r * r];
    [(533333333333 / 100000000000) * s - 64 * r * s + 128 * r * r * s; (533333333333 / 100000000000) * r - 32 * r * r + (426666666667 / 10000000000) * r * r * r];
    [28 * s - 32 * r * s - 144 * s * s + 128 * s * s * s + 128 * r * s * s; -12 + 28 * r + 152 * s - 16 * r * r - 288 * r * s - 384 * s * s + 256 * s * s * s + 384 * r * s * s + 128 * r * r * s];
    [-32 * s + 64 * r * s + 160 * s * s - 128 * s * s * s - 256 * r * s * s; -32 * r + 32 * r * r + 320 * r * s - 384 * r * s * s - 256 * r * r * s];
    [4 * s - 32 * r * s - 16 * s * s + 128 * r * s * s; 4 * r - 16 * r * r - 32 * r * s + 128 * r * r * s];
    [-(533333333333 / 100000000000) * s + 32 * s * s - (426666666667 / 10000000000) * s * s * s; (533333333333 / 100000000000) - (533333333333 / 100000000000) * r - (746666666667 / 10000000000) * s + 64 * r * s + 224 * s * s - (170666666667 / 1000000000) * s * s * s - 128 * r * s * s];
    [(533333333333 / 100000000000) * s - 32 * s * s + (426666666667 / 10000000000) * s * s * s; (533333333333 / 100000000000) * r - 64 * r * s + 128 * r * s * s];
    [0; -1 + (146666666667 / 10000000000) * s - 48 * s * s + (426666666667 / 10000000000) * s * s * s] ].

(** InterpolationQuadLinear.cpp:37-52; other indices throw *)
Definition quad_linear_nodes : list (list R) :=
  [ [-1; -1];
    [1; -1];
    [1; 1];
    [-1; 1] ].
(** InterpolationQuadLinear.cpp:54-62 *)
Definition quad_linear_shape (c : nat -> R) : list R :=
  [ (25 / 100) * (1 - (c 0%nat)) * (1 - (c 1%nat));
    (25 / 100) * (1 + (c 0%nat)) * (1 - (c 1%nat));
    (25 / 100) * (1 + (c 0%nat)) * (1 + (c 1%nat));
    (25 / 100) * (1 - (c 0%nat)) * (1 + (c 1%nat)) ].
(** InterpolationQuadLinear.cpp:64-80 *)
Definition quad_linear_deriv (c : nat -> R) : list (list R) :=
  [ [-(25 / 100) * (1 - (c 1%nat)); -(25 / 100) * (1 - (c 0%nat))];
    [(25 / 100) * (1 - (c 1%nat)); -(25 / 100) * (1 + (c 0%nat))];
    [(25 / 100) * (1 + (c 1%nat)); (25 / 100) * (1 + (c 0%nat))];
    [-(25 / 100) * (1 + (c 1%nat)); (25 / 100) * (1 - (c 0%nat))] ].

(** InterpolationQuadSerendipity.cpp:37-60; other indices throw *)
Definition quad_serendipity_nodes : list (list R) :=
  [ [-1; -1];
    [1; -1];
    [1; 1];
    [-1; 1];
    [0; -1];
    [1; 0];
    [0; 1];
    [-1; 0] ].
(** InterpolationQuadSerendipity.cpp:62-78 *)
Definition quad_serendipity_shape (c : nat -> R) : list R :=
  let r := (c 0%nat) in
  let s := (c 1%nat) in
  [ -(25 / 100) * (r - 1) * (s - 1) * (r + s + 1);
    (25 / 100) * (r + 1) * (s - 1) * (-r + s + 1);
    (25 / 100) * (r + 1) * (s + 1) * (r + s - 1);
    (25 / 100) * (r - 1) * (s + 1) * (r - s + 1);
    (5 / 10) * (r * r - 1) * (s - 1);
    -(5 / 10) * (r + 1) * (s * s - 1);
    -(5 / 10) * (r * r - 1) * (s + 1);
    (5 / 10) * (r - 1) * (s * s - 1) ].
(** InterpolationQuadSerendipity.cpp:80-111 *)
Definition quad_serendipity_deriv (c : nat -> R) : list (list R) :=
  let r := (c 0%nat) in
  let s := (c 1%nat) in
  [ [(2 * r + s) * (-(25 / 100) * s + (25 / 100)); (-(25 / 100) * r + (25 / 100)) * (r + 2 * s)];
    [(-(5 / 10) * r + (25 / 100) * s) * (s - 1); (25 / 100) * (-r + 2 * s) * (r + 1)];
    [(25 / 100) * (2 * r + s) * (s + 1); (25 / 100) * (r + 1) * (r + 2 * s)];
    [(25 / 100) * (2 * r - s) * (s + 1); ((25 / 100) * r - (5 / 10) * s) * (r - 1)];
    [r * (s - 1); (5 / 10) * r * r - (5 / 10)];
    [-(5 / 10) * s * s + (5 / 10); -s * (r + 1)];
    [-r * (s + 1); -(5 / 10) * r * r + (5 / 10)];
    [(5 / 10) * s * s - (5 / 10); s * (r - 1)] ].

(** InterpolationTetrahedronLinear.cpp:36-51; other indices throw *)
Definition tetrahedron_linear_nodes : list (list R) :=
  [ [0; 0; 0];
    [1; 0; 0];
    [0; 1; 0];
    [0; 0; 1] ].
(** InterpolationTetrahedronLinear.cpp:53-61 *)
Definition tetrahedron_linear_shape (c : nat -> R) : list R :=
  [ 1 - (c 0%nat + c 1%nat + c 2%nat);
    (c 0%nat);
    (c 1%nat);
    (c 2%nat) ].
(** InterpolationTetrahedronLinear.cpp:63-83 *)
Definition tetrahedron_linear_deriv (c : nat -> R) : list (list R) :=
  [ [-1; -1; -1];
    [1; 0; 0];
    [0; 1; 0];
    [0; 0; 1] ].

(** InterpolationTetrahedronQuadratic.cpp:37-65; other indices throw *)
Definition tetrahedron_quadratic_nodes : list (list R) :=
  [ [0; 0; 0];
    [1; 0; 0];
    [0; 1; 0];
    [0; 0; 1];
    [(5 / 10); 0; 0];
    [(5 / 10); (5 / 10); 0];
    [0; (5 / 10); 0];
    [0; 0; (5 / 10)];
    [0; (5 / 10); (5 / 10)];
    [(5 / 10); 0; (5 / 10)] ].
(** InterpolationTetrahedronQuadratic.cpp:67-105 *)
Definition tetrahedron_quadratic_shape (c : nat -> R) : list R :=
  let r := (c 0%nat) in
  let s := (c 1%nat) in
  let t := (c 2%nat) in
  [ 1 - 3 * (r + s + t) + 2 * (r * r + s * s + t * t) + 4 * (r * s + r * t + s * t);
    -r + 2 * r * r;
    -s + 2 * s * s;
    -t + 2 * t * t;
    4 * r * (1 - r - s - t);
    4 * r * s;
    4 * s * (1 - r - s - t);
    4 * t * (1 - r - s - t);
    4 * s * t;
    4 * r * t ].
(** InterpolationTetrahedronQuadratic.cpp:108-156 *)
Definition tetrahedron_quadratic_deriv (c : nat -> R) : list (list R) :=
  let r := (c 0%nat) in
  let s := (c 1%nat) in
  let t := (c 2%nat) in
  [ [-3 + 4 * (r + s + t); -3 + 4 * (r + s + t); -3 + 4 * (r + s + t)];
    [-1 + 4 * r; 0; 0];
    [0; -1 + 4 * s; 0];
    [0; 0; -1 + 4 * t];
    [4 - 8 * r - 4 * s - 4 * t; -4 * r; -4 * r];
    [4 * s; 4 * r; 0];
    [-4 * s; 4 - 8 * s - 4 * r - 4 * t; -4 * s];
    [-4 * t; -4 * t; 4 - 8 * t - 4 * r - 4 * s];
    [0; 4 * t; 4 * s];
    [4 * t; 0; 4 * r] ].

(** InterpolationBrickLinear.cpp:37-61; other indices throw *)
Definition brick_linear_nodes : list (list R) :=
  [ [-1; -1; -1];
    [1; -1; -1];
    [1; 1; -1];
    [-1; 1; -1];
    [-1; -1; 1];
    [1; -1; 1];
    [1; 1; 1];
    [-1; 1; 1] ].
(** InterpolationBrickLinear.cpp:63-85 *)
Definition brick_linear_shape (c : nat -> R) : list R :=
  let plus_r := 1 + (c 0%nat) in
  let plus_s := 1 + (c 1%nat) in
  let plus_t := 1 + (c 2%nat) in
  let minus_r := 1 - (c 0%nat) in
  let minus_s := 1 - (c 1%nat) in
  let minus_t := 1 - (c 2%nat) in
  [ (125 / 1000) * minus_r * minus_s * minus_t;
    (125 / 1000) * plus_r * minus_s * minus_t;
    (125 / 1000) * plus_r * plus_s * minus_t;
    (125 / 1000) * minus_r * plus_s * minus_t;
    (125 / 1000) * minus_r * minus_s * plus_t;
    (125 / 1000) * plus_r * minus_s * plus_t;
    (125 / 1000) * plus_r * plus_s * plus_t;
    (125 / 1000) * minus_r * plus_s * plus_t ].
(** InterpolationBrickLinear.cpp:87-132 *)
Definition brick_linear_deriv (c : nat -> R) : list (list R) :=
  let plus_r := 1 + (c 0%nat) in
  let plus_s := 1 + (c 1%nat) in
  let plus_t := 1 + (c 2%nat) in
  let minus_r := 1 - (c 0%nat) in
  let minus_s := 1 - (c 1%nat) in
  let minus_t := 1 - (c 2%nat) in
  [ [-(125 / 1000) * minus_s * minus_t; -(125 / 1000) * minus_r * minus_t; -(125 / 1000) * minus_r * minus_s];
    [(125 / 1000) * minus_s * minus_t; -(125 / 1000) * plus_r * minus_t; -(125 / 1000) * plus_r * minus_s];
    [(125 / 1000) * plus_s * minus_t; (125 / 1000) * plus_r * minus_t; -(125 / 1000) * plus_r * plus_s];
    [-(125 / 1000) * plus_s * minus_t; (125 / 1000) * minus_r * minus_t; -(125 / 1000) * minus_r * plus_s];
    [-(125 / 1000) * minus_s * plus_t; -(125 / 1000) * minus_r * plus_t; (125 / 1000) * minus_r * minus_s];
    [(125 / 1000) * minus_s * plus_t; -(125 / 1000) * plus_r * plus_t; (125 / 1000) * plus_r * minus_s];
    [(125 / 1000) * plus_s * plus_t; (125 / 1000) * plus_r * plus_t; (125 / 1000) * plus_r * plus_s];
    [-(125 / 1000) * plus_s * plus_t; (125 / 1000) * minus_r * plus_t; (125 / 1000) * minus_r * plus_s] ].

(** InterpolationBrickQuadratic.cpp:37-92; other indices throw *)
Definition brick_quadratic_nodes : list (list R) :=
  [ [-1; -1; -1];
    [1; -1; -1];
    [1; 1; -1];
    [-1; 1; -1];
    [-1; -1; 1];
    [1; -1; 1];
    [1; 1; 1];
    [-1; 1; 1];
    [0; -1; -1];
    [1; 0; -1];
    [0; 1; -1];
    [-1; 0; -1];
    [-1; -1; 0];
    [1; -1; 0];
    [1; 1; 0];
    [-1; 1; 0];
    [0; -1; 1];
    [1; 0; 1];
    [0; 1; 1];
    [-1; 0; 1] ].
(** InterpolationBrickQuadratic.cpp:94-139 *)
Definition brick_quadratic_shape (c : nat -> R) : list R :=
  let r := (c 0%nat) in
  let s := (c 1%nat) in
  let t := (c 2%nat) in
  let plus_r := 1 + r in
  let plus_s := 1 + s in
  let plus_t := 1 + t in
  let minus_r := 1 - r in
  let minus_s := 1 - s in
  let minus_t := 1 - t in
  let mid_r := 1 - r * r in
  let mid_s := 1 - s * s in
  let mid_t := 1 - t * t in
  [ (125 / 1000) * minus_r * minus_s * minus_t * (-r - s - t - 2);
    (125 / 1000) * plus_r * minus_s * minus_t * (r - s - t - 2);
    (125 / 1000) * plus_r * plus_s * minus_t * (r + s - t - 2);
    (125 / 1000) * minus_r * plus_s * minus_t * (-r + s - t - 2);
    (125 / 1000) * minus_r * minus_s * plus_t * (-r - s + t - 2);
    (125 / 1000) * plus_r * minus_s * plus_t * (r - s + t - 2);
    (125 / 1000) * plus_r * plus_s * plus_t * (r + s + t - 2);
    (125 / 1000) * minus_r * plus_s * plus_t * (-r + s + t - 2);
    (25 / 100) * mid_r * minus_s * minus_t;
    (25 / 100) * plus_r * mid_s * minus_t;
    (25 / 100) * mid_r * plus_s * minus_t;
    (25 / 100) * minus_r * mid_s * minus_t;
    (25 / 100) * minus_r * minus_s * mid_t;
    (25 / 100) * plus_r * minus_s * mid_t;
    (25 / 100) * plus_r * plus_s * mid_t;
    (25 / 100) * minus_r * plus_s * mid_t;
    (25 / 100) * mid_r * minus_s * plus_t;
    (25 / 100) * plus_r * mid_s * plus_t;
    (25 / 100) * mid_r * plus_s * plus_t;
    (25 / 100) * minus_r * mid_s * plus_t ].
(** InterpolationBrickQuadratic.cpp:141-263 *)
Definition brick_quadratic_deriv (c : nat -> R) : list (list R) :=
  let r := (c 0%nat) in
  let s := (c 1%nat) in
  let t := (c 2%nat) in
  let plus_r := 1 + r in
  let plus_s := 1 + s in
  let plus_t := 1 + t in
  let minus_r := 1 - r in
  let minus_s := 1 - s in
  let minus_t := 1 - t in
  let mid_r := 1 - r * r in
  let mid_s := 1 - s * s in
  let mid_t := 1 - t * t in
  [ [(125 / 1000) * minus_s * minus_t * (2 * r + s + t + 1); (125 / 1000) * minus_r * minus_t * (r + 2 * s + t + 1); (125 / 1000) * minus_r * minus_s * (r + s + 2 * t + 1)];
    [(125 / 1000) * minus_s * minus_t * (2 * r - s - t - 1); -(125 / 1000) * plus_r * minus_t * (r - 2 * s - t - 1); -(125 / 1000) * plus_r * minus_s * (r - s - 2 * t - 1)];
    [(125 / 1000) * plus_s * minus_t * (2 * r + s - t - 1); (125 / 1000) * plus_r * minus_t * (r + 2 * s - t - 1); -(125 / 1000) * plus_r * plus_s * (r + s - 2 * t - 1)];
    [(125 / 1000) * plus_s * minus_t * (2 * r - s + t + 1); -(125 / 1000) * minus_r * minus_t * (r - 2 * s + t + 1); (125 / 1000) * minus_r * plus_s * (r - s + 2 * t + 1)];
    [(125 / 1000) * minus_s * plus_t * (2 * r + s - t + 1); (125 / 1000) * minus_r * plus_t * (r + 2 * s - t + 1); -(125 / 1000) * minus_r * minus_s * (r + s - 2 * t + 1)];
    [(125 / 1000) * minus_s * plus_t * (2 * r - s + t - 1); -(125 / 1000) * plus_r * plus_t * (r - 2 * s + t - 1); (125 / 1000) * plus_r * minus_s * (r - s + 2 * t - 1)];
    [(125 / 1000) * plus_s * plus_t * (2 * r + s + t - 1); (125 / 1000) * plus_r * plus_t * (r + 2 * s + t - 1); (125 / 1000) * plus_r * plus_s * (r + s + 2 * t - 1)];
    [(125 / 1000) * plus_s * plus_t * (2 * r - s - t + 1); -(125 / 1000) * minus_r * plus_t * (r - 2 * s - t + 1); -(125 / 1000) * minus_r * plus_s * (r - s - 2 * t + 1)];
    [-(5 / 10) * r * minus_s * minus_t; -(25 / 100) * mid_r * minus_t; -(25 / 100) * mid_r * minus_s];
    [(25 / 100) * mid_s * minus_t; -(5 / 10) * s * plus_r * minus_t; -(25 / 100) * plus_r * mid_s];
    [-(5 / 10) * r * plus_s * minus_t; (25 / 100) * mid_r * minus_t; -(25 / 100) * mid_r * plus_s];
    [-(25 / 100) * mid_s * minus_t; -(5 / 10) * s * minus_r * minus_t; -(25 / 100) * minus_r * mid_s];
    [-(25 / 100) * minus_s * mid_t; -(25 / 100) * minus_r * mid_t; -(5 / 10) * t * minus_r * minus_s];
    [(25 / 100) * minus_s * mid_t; -(25 / 100) * plus_r * mid_t; -(5 / 10) * t * plus_r * minus_s];
    [(25 / 100) * plus_s * mid_t; (25 / 100) * plus_r * mid_t; -(5 / 10) * t * plus_r * plus_s];
    [-(25 / 100) * plus_s * mid_t; (25 / 100) * minus_r * mid_t; -(5 / 10) * t * minus_r * plus_s];
    [-(5 / 10) * r * minus_s * plus_t; -(25 / 100) * mid_r * plus_t; (25 / 100) * mid_r * minus_s];
    [(25 / 100) * mid_s * plus_t; -(5 / 10) * s * plus_r * plus_t; (25 / 100) * plus_r * mid_s];
    [-(5 / 10) * r * plus_s * plus_t; (25 / 100) * mid_r * plus_t; (25 / 100) * mid_r * plus_s];
    [-(25 / 100) * mid_s * plus_t; -(5 / 10) * s * minus_r * plus_t; (25 / 100) * minus_r * mid_s] ].

(** InterpolationPrismLinear.cpp:37-57; other indices throw *)
Definition prism_linear_nodes : list (list R) :=
  [ [0; 0; -1];
    [1; 0; -1];
    [0; 1; -1];
    [0; 0; 1];
    [1; 0; 1];
    [0; 1; 1] ].
(** InterpolationPrismLinear.cpp:59-74 *)
Definition prism_linear_shape (c : nat -> R) : list R :=
  let triangle0 := 1 - (c 0%nat) - (c 1%nat) in
  let triangle1 := (c 0%nat) in
  let triangle2 := (c 1%nat) in
  [ (5 / 10) * triangle0 * (1 - (c 2%nat));
    (5 / 10) * triangle1 * (1 - (c 2%nat));
    (5 / 10) * triangle2 * (1 - (c 2%nat));
    (5 / 10) * triangle0 * (1 + (c 2%nat));
    (5 / 10) * triangle1 * (1 + (c 2%nat));
    (5 / 10) * triangle2 * (1 + (c 2%nat)) ].
(** InterpolationPrismLinear.cpp:76-105 *)
Definition prism_linear_deriv (c : nat -> R) : list (list R) :=
  [ [-(5 / 10) * (1 - (c 2%nat)); -(5 / 10) * (1 - (c 2%nat)); -(5 / 10) * (1 - (c 0%nat) - (c 1%nat))];
    [(5 / 10) * (1 - (c 2%nat)); 0; -(5 / 10) * (c 0%nat)];
    [0; (5 / 10) * (1 - (c 2%nat)); -(5 / 10) * (c 1%nat)];
    [-(5 / 10) * (1 + (c 2%nat)); -(5 / 10) * (1 + (c 2%nat)); (5 / 10) * (1 - (c 0%nat) - (c 1%nat))];
    [(5 / 10) * (1 + (c 2%nat)); 0; (5 / 10) * (c 0%nat)];
    [0; (5 / 10) * (1 + (c 2%nat)); (5 / 10) * (c 1%nat)] ].

(** InterpolationPrismQuadratic.cpp:39-87; other indices throw *)
Definition prism_quadratic_nodes : list (list R) :=
  [ [0; 0; -1];
    [1; 0; -1];
    [0; 1; -1];
    [0; 0; 1];
    [1; 0; 1];
    [0; 1; 1];
    [(5 / 10); 0; -1];
    [0; (5 / 10); -1];
    [0; 0; 0];
    [(5 / 10); (5 / 10); -1];
    [1; 0; 0];
    [0; 1; 0];
    [(5 / 10); 0; 1];
    [0; (5 / 10); 1];
    [(5 / 10); (5 / 10); 1];
    [(5 / 10); 0; 0];
    [0; (5 / 10); 0];
    [(5 / 10); (5 / 10); 0] ].
(** InterpolationPrismQuadratic.cpp:89-116 *)
Definition prism_quadratic_shape (c : nat -> R) : list R :=
  let NTriangle2 := triangle_quadratic_shape (fun k => nth k [c 0%nat; c 1%nat] 0) in
  let NTruss2 := truss_quadratic_shape (fun k => nth k [c 2%nat] 0) in
  [ (nth 0%nat NTriangle2 0) * (nth 0%nat NTruss2 0);
    (nth 1%nat NTriangle2 0) * (nth 0%nat NTruss2 0);
    (nth 2%nat NTriangle2 0) * (nth 0%nat NTruss2 0);
    (nth 0%nat NTriangle2 0) * (nth 2%nat NTruss2 0);
    (nth 1%nat NTriangle2 0) * (nth 2%nat NTruss2 0);
    (nth 2%nat NTriangle2 0) * (nth 2%nat NTruss2 0);
    (nth 3%nat NTriangle2 0) * (nth 0%nat NTruss2 0);
    (nth 5%nat NTriangle2 0) * (nth 0%nat NTruss2 0);
    (nth 0%nat NTriangle2 0) * (nth 1%nat NTruss2 0);
    (nth 4%nat NTriangle2 0) * (nth 0%nat NTruss2 0);
    (nth 1%nat NTriangle2 0) * (nth 1%nat NTruss2 0);
    (nth 2%nat NTriangle2 0) * (nth 1%nat NTruss2 0);
    (nth 3%nat NTriangle2 0) * (nth 2%nat NTruss2 0);
    (nth 5%nat NTriangle2 0) * (nth 2%nat NTruss2 0);
    (nth 4%nat NTriangle2 0) * (nth 2%nat NTruss2 0);
    (nth 3%nat NTriangle2 0) * (nth 1%nat NTruss2 0);
    (nth 5%nat NTriangle2 0) * (nth 1%nat NTruss2 0);
    (nth 4%nat NTriangle2 0) * (nth 1%nat NTruss2 0) ].
(** InterpolationPrismQuadratic.cpp:118-204 *)
Definition prism_quadratic_deriv (c : nat -> R) : list (list R) :=
  let NTriangle2 := triangle_quadratic_shape (fun k => nth k [c 0%nat; c 1%nat] 0) in
  let dNTriangle2 := triangle_quadratic_deriv (fun k => nth k [c 0%nat; c 1%nat] 0) in
  let NTruss2 := truss_quadratic_shape (fun k => nth k [c 2%nat] 0) in
  let dNTruss2 := truss_quadratic_deriv (fun k => nth k [c 2%nat] 0) in
  [ [(nth 0%nat (nth 0%nat dNTriangle2 []) 0) * (nth 0%nat NTruss2 0); (nth 1%nat (nth 0%nat dNTriangle2 []) 0) * (nth 0%nat NTruss2 0); (nth 0%nat NTriangle2 0) * (nth 0%nat (nth 0%nat dNTruss2 []) 0)];
    [(nth 0%nat (nth 1%nat dNTriangle2 []) 0) * (nth 0%nat NTruss2 0); (nth 1%nat (nth 1%nat dNTriangle2 []) 0) * (nth 0%nat NTruss2 0); (nth 1%nat NTriangle2 0) * (nth 0%nat (nth 0%nat dNTruss2 []) 0)];
    [(nth 0%nat (nth 2%nat dNTriangle2 []) 0) * (nth 0%nat NTruss2 0); (nth 1%nat (nth 2%nat dNTriangle2 []) 0) * (nth 0%nat NTruss2 0); (nth 2%nat NTriangle2 0) * (nth 0%nat (nth 0%nat dNTruss2 []) 0)];
    [(nth 0%nat (nth 0%nat dNTriangle2 []) 0) * (nth 2%nat NTruss2 0); (nth 1%nat (nth 0%nat dNTriangle2 []) 0) * (nth 2%nat NTruss2 0); (nth 0%nat NTriangle2 0) * (nth 0%nat (nth 2%nat dNTruss2 []) 0)];
    [(nth 0%nat (nth 1%nat dNTriangle2 []) 0) * (nth 2%nat NTruss2 0); (nth 1%nat (nth 1%nat dNTriangle2 []) 0) * (nth 2%nat NTruss2 0); (nth 1%nat NTriangle2 0) * (nth 0%nat (nth 2%nat dNTruss2 []) 0)];
    [(nth 0%nat (nth 2%nat dNTriangle2 []) 0) * (nth 2%nat NTruss2 0); (nth 1%nat (nth 2%nat dNTriangle2 []) 0) * (nth 2%nat NTruss2 0); (nth 2%nat NTriangle2 0) * (nth 0%nat (nth 2%nat dNTruss2 []) 0)];
    [(nth 0%nat (nth 3%nat dNTriangle2 []) 0) * (nth 0%nat NTruss2 0); (nth 1%nat (nth 3%nat dNTriangle2 []) 0) * (nth 0%nat NTruss2 0); (nth 3%nat NTriangle2 0) * (nth 0%nat (nth 0%nat dNTruss2 []) 0)];
    [(nth 0%nat (nth 5%nat dNTriangle2 []) 0) * (nth 0%nat NTruss2 0); (nth 1%nat (nth 5%nat dNTriangle2 []) 0) * (nth 0%nat NTruss2 0); (nth 5%nat NTriangle2 0) * (nth 0%nat (nth 0%nat dNTruss2 []) 0)];
    [(nth 0%nat (nth 0%nat dNTriangle2 []) 0) * (nth 1%nat NTruss2 0); (nth 1%nat (nth 0%nat dNTriangle2 []) 0) * (nth 1%nat NTruss2 0); (nth 0%nat NTriangle2 0) * (nth 0%nat (nth 1%nat dNTruss2 []) 0)];
    [(nth 0%nat (nth 4%nat dNTriangle2 []) 0) * (nth 0%nat NTruss2 0); (nth 1%nat (nth 4%nat dNTriangle2 []) 0) * (nth 0%nat NTruss2 0); (nth 4%nat NTriangle2 0) * (nth 0%nat (nth 0%nat dNTruss2 []) 0)];
    [(nth 0%nat (nth 1%nat dNTriangle2 []) 0) * (nth 1%nat NTruss2 0); (nth 1%nat (nth 1%nat dNTriangle2 []) 0) * (nth 1%nat NTruss2 0); (nth 1%nat NTriangle2 0) * (nth 0%nat (nth 1%nat dNTruss2 []) 0)];
    [(nth 0%nat (nth 2%nat dNTriangle2 []) 0) * (nth 1%nat NTruss2 0); (nth 1%nat (nth 2%nat dNTriangle2 []) 0) * (nth 1%nat NTruss2 0); (nth 2%nat NTriangle2 0) * (nth 0%nat (nth 1%nat dNTruss2 []) 0)];
    [(nth 0%nat (nth 3%nat dNTriangle2 []) 0) * (nth 2%nat NTruss2 0); (nth 1%nat (nth 3%nat dNTriangle2 []) 0) * (nth 2%nat NTruss2 0); (nth 3%nat NTriangle2 0) * (nth 0%nat (nth 2%nat dNTruss2 []) 0)];
    [(nth 0%nat (nth 5%nat dNTriangle2 []) 0) * (nth 2%nat NTruss2 0); (nth 1%nat (nth 5%nat dNTriangle2 []) 0) * (nth 2%nat NTruss2 0); (nth 5%nat NTriangle2 0) * (nth 0%nat (nth 2%nat dNTruss2 []) 0)];
    [(nth 0%nat (nth 4%nat dNTriangle2 []) 0) * (nth 2%nat NTruss2 0); (nth 1%nat (nth 4%nat dNTriangle2 []) 0) * (nth 2%nat NTruss2 0); (nth 4%nat NTriangle2 0) * (nth 0%nat (nth 2%nat dNTruss2 []) 0)];
    [(nth 0%nat (nth 3%nat dNTriangle2 []) 0) * (nth 1%nat NTruss2 0); (nth 1%nat (nth 3%nat dNTriangle2 []) 0) * (nth 1%nat NTruss2 0); (nth 3%nat NTriangle2 0) * (nth 0%nat (nth 1%nat dNTruss2 []) 0)];
    [(nth 0%nat (nth 5%nat dNTriangle2 []) 0) * (nth 1%nat NTruss2 0); (nth 1%nat (nth 5%nat dNTriangle2 []) 0) * (nth 1%nat NTruss2 0); (nth 5%nat NTriangle2 0) * (nth 0%nat (nth 1%nat dNTruss2 []) 0)];
    [(nth 0%nat (nth 4%nat dNTriangle2 []) 0) * (nth 1%nat NTruss2 0); (nth 1%nat (nth 4%nat dNTriangle2 []) 0) * (nth 1%nat NTruss2 0); (nth 4%nat NTriangle2 0) * (nth 0%nat (nth 1%nat dNTruss2 []) 0)] ].

(** InterpolationPyramidLinear.cpp:38-56; other indices throw *)
Definition pyramid_linear_nodes : list (list R) :=
  [ [1; 1; 0];
    [1; -1; 0];
    [-1; -1; 0];
    [-1; 1; 0];
    [0; 0; 1] ].
(** InterpolationPyramidLinear.cpp:58-78 *)
Definition pyramid_linear_shape (c : nat -> R) : list R :=
  let x := (c 0%nat) in
  let y := (c 1%nat) in
  let z := (c 2%nat) in
  let rationalTerm := if Req_EM_T (1 - z) 0 then x * y * z else x * y * z / (1 - z) in
  [ (25 / 100) * ((1 + x) * (1 + y) - z + rationalTerm);
    (25 / 100) * ((1 + x) * (1 - y) - z - rationalTerm);
    (25 / 100) * ((1 - x) * (1 - y) - z + rationalTerm);
    (25 / 100) * ((1 - x) * (1 + y) - z - rationalTerm);
    z ].
(** InterpolationPyramidLinear.cpp:80-114 *)
Definition pyramid_linear_deriv (c : nat -> R) : list (list R) :=
  let x := (c 0%nat) in
  let y := (c 1%nat) in
  let z := (c 2%nat) in
  let z := if Req_EM_T (1 - z) 0 then 1 - / 2 ^ 52 else z in
  [ [(25 / 100) * (1 + y / (1 - z)); (25 / 100) * (1 + x / (1 - z)); (25 / 100) * (-1 + x * y / (1 - z) / (1 - z))];
    [(25 / 100) * (1 - y / (1 - z)); (25 / 100) * (-1 - x / (1 - z)); (25 / 100) * (-1 - x * y / (1 - z) / (1 - z))];
    [(25 / 100) * (-1 + y / (1 - z)); (25 / 100) * (-1 + x / (1 - z)); (25 / 100) * (-1 + x * y / (1 - z) / (1 - z))];
    [(25 / 100) * (-1 - y / (1 - z)); (25 / 100) * (1 - x / (1 - z)); (25 / 100) * (-1 - x * y / (1 - z) / (1 - z))];
    [0; 0; 1] ].

(** an interpolation as a user sees it, InterpolationSimple.h *)
Record element := { e_dim : nat; e_nodes : list (list R); e_shape : (nat -> R) -> list R; e_deriv : (nat -> R) -> list (list R) }.

Definition truss_linear : element := {| e_dim := 1; e_nodes := truss_linear_nodes; e_shape := truss_linear_shape; e_deriv := truss_linear_deriv |}.
Definition truss_quadratic : element := {| e_dim := 1; e_nodes := truss_quadratic_nodes; e_shape := truss_quadratic_shape; e_deriv := truss_quadratic_deriv |}.
Definition truss_3rd : element := {| e_dim := 1; e_nodes := truss_3rd_nodes; e_shape := truss_3rd_shape; e_deriv := truss_3rd_deriv |}.
Definition truss_4th : element := {| e_dim := 1; e_nodes := truss_4th_nodes; e_shape := truss_4th_shape; e_deriv := truss_4th_deriv |}.
Definition triangle_linear : element := {| e_dim := 2; e_nodes := triangle_linear_nodes; e_shape := triangle_linear_shape; e_deriv := triangle_linear_deriv |}.
Definition triangle_quadratic : element := {| e_dim := 2; e_nodes := triangle_quadratic_nodes; e_shape := triangle_quadratic_shape; e_deriv := triangle_quadratic_deriv |}.
Definition triangle_3rd : element := {| e_dim := 2; e_nodes := triangle_3rd_nodes; e_shape := triangle_3rd_shape; e_deriv := triangle_3rd_deriv |}.
Definition triangle_4th : element := {| e_dim := 2; e_nodes := triangle_4th_nodes; e_shape := triangle_4th_shape; e_deriv := triangle_4th_deriv |}.
Definition quad_linear : element := {| e_dim := 2; e_nodes := quad_linear_nodes; e_shape := quad_linear_shape; e_deriv := quad_linear_deriv |}.
Definition quad_serendipity : element := {| e_dim := 2; e_nodes := quad_serendipity_nodes; e_shape := quad_serendipity_shape; e_deriv := quad_serendipity_deriv |}.
Definition tetrahedron_linear : element := {| e_dim := 3; e_nodes := tetrahedron_linear_nodes; e_shape := tetrahedron_linear_shape; e_deriv := tetrahedron_linear_deriv |}.
Definition tetrahedron_quadratic : element := {| e_dim := 3; e_nodes := tetrahedron_quadratic_nodes; e_shape := tetrahedron_quadratic_shape; e_deriv := tetrahedron_quadratic_deriv |}.
Definition brick_linear : element := {| e_dim := 3; e_nodes := brick_linear_nodes; e_shape := brick_linear_shape; e_deriv := brick_linear_deriv |}.
Definition brick_quadratic : element := {| e_dim := 3; e_nodes := brick_quadratic_nodes; e_shape := brick_quadratic_shape; e_deriv := brick_quadratic_deriv |}.
Definition prism_linear : element := {| e_dim := 3; e_nodes := prism_linear_nodes; e_shape := prism_linear_shape; e_deriv := prism_linear_deriv |}.
Definition prism_quadratic : element := {| e_dim := 3; e_nodes := prism_quadratic_nodes; e_shape := prism_quadratic_shape; e_deriv := prism_quadratic_deriv |}.
Definition pyramid_linear : element := {| e_dim := 3; e_nodes := pyramid_linear_nodes; e_shape := pyramid_linear_shape; e_deriv := pyramid_linear_deriv |}.
