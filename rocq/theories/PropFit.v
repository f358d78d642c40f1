(** * C86: polynomial least squares fitting *)
From Coq Require Import List Arith ZArith Bool Reals Lra Lia Psatz.
From Verif Require Import RSum Outcome FitModel FitSpec FitProofs.
Import ListNotations.
Local Open Scope R_scope.

(** the fitted model answers every query with the polynomial p of degree d *)
Definition answers (f : fitter) (p : nat -> R) (d : nat) : Prop :=
  forall input, d_rows input = 1%nat -> solve_at f input = Ok (map (fun k => poly p d (d_at input 0 k)) (seq 0 (d_cols input))).

(** ** C86: with at least degree + 1 different abscissae and no boundary conditions, the fitted polynomial minimises the sum of the
    squared errors; data that lie on a polynomial of this degree are reproduced *)
Theorem C86_least_squares lu f f' s : solver lu -> f_bcs f = [] -> build lu f = Ok f' ->
  let d := Z.to_nat (f_degree f) in let n := d_cols (f_in f) in let x := d_at (f_in f) 0 in let y := d_at (f_out f) 0 in
  (forall i, (i <= d)%nat -> (s i < n)%nat) -> distinct_points d x s ->
  exists p, answers f' p d
    /\ (forall c, sq_error n x y p d <= sq_error n x y c d)
    /\ (forall q, (forall k, (k < n)%nat -> y k = poly q d (x k)) -> forall i, (i <= d)%nat -> p i = q i).
Proof.
  intros Hlu Hb E d n x y Hs Hd. destruct (build_ok lu f f' E) as (E1 & E2 & E3 & E4 & Hp & _ & E5). fold d n in E5. rewrite Hb in E5. cbn [length] in E5.
  change (fun k => d_at (f_in f) 0 k) with x in E5. change (fun k => d_at (f_out f) 0 k) with y in E5.
  set (bx := fun i => fst (nth i [] (0, 0))) in *. set (by' := fun i => snd (nth i [] (0, 0))) in *.
  set (p := lu (S d) (lhs 0 n x bx) (rhs 0 n x y by')) in *.
  pose proof (normal_regular d n x s bx Hs Hd) as Reg. pose proof (Hlu _ _ (rhs 0 n x y by') Reg) as Sol. fold p in Sol.
  assert (Min: forall c, sq_error n x y p d <= sq_error n x y c d) by (exact (normal_minimal d n x y bx by' p Sol)).
  exists p. split; [|split].
  - intros input Hr. apply solve_ok; [rewrite E4; unfold d; lia|exact E5|exact Hr].
  - exact Min.
  - intros q Hq i Hi. cut (p i - q i = 0); [lra|]. apply (poly_zero (fun i => p i - q i) d x s Hd); [|exact Hi].
    intros j Hj. rewrite poly_diff. pose proof (Min q) as M. unfold sq_error in M.
    rewrite (rsum_zero n (fun k => (poly q d (x k) - y k) * (poly q d (x k) - y k))) in M by (intros k Hk; rewrite (Hq k Hk); ring).
    assert (Z: rsum n (fun k => (poly p d (x k) - y k) * (poly p d (x k) - y k)) = 0).
    { apply Rle_antisym; [exact M|]. apply rsum_nonneg. intros; apply Rle_0_sqr. }
    pose proof (squares_zero n (fun k => poly p d (x k) - y k) Z (s j) (Hs j Hj)) as F. cbv beta in F. rewrite (Hq (s j) (Hs j Hj)) in F. exact F.
Qed.
Print Assumptions C86_least_squares.

(** ** C86: boundary conditions are met exactly, if the system is regular *)
Theorem C86_boundary_conditions lu f f' : solver lu -> build lu f = Ok f' ->
  let d := Z.to_nat (f_degree f) in let n := d_cols (f_in f) in let x := d_at (f_in f) 0 in let m := length (f_bcs f) in
  regular (S d) (fun i j => if Nat.ltb i m then fst (nth i (f_bcs f) (0, 0)) ^ j else rsum n (fun k => x k ^ (i + j))) ->
  exists p, answers f' p d /\ forall b, In b (f_bcs f) -> poly p d (fst b) = snd b.
Proof.
  intros Hlu E d n x m Reg. destruct (build_ok lu f f' E) as (E1 & E2 & E3 & E4 & Hp & Hm & E5). fold d n m in E5, Hm.
  change (fun k => d_at (f_in f) 0 k) with x in E5. set (y := fun k => d_at (f_out f) 0 k) in E5.
  set (bx := fun i => fst (nth i (f_bcs f) (0, 0))) in *. set (by' := fun i => snd (nth i (f_bcs f) (0, 0))) in *.
  set (p := lu (S d) (lhs m n x bx) (rhs m n x y by')) in *.
  pose proof (Hlu (S d) (lhs m n x bx) (rhs m n x y by') Reg) as Sol. fold p in Sol.
  exists p. split.
  - intros input Hr. apply solve_ok; [rewrite E4; unfold d; lia|exact E5|exact Hr].
  - intros b Hb. apply (In_nth _ _ (0, 0)) in Hb. destruct Hb as (i & Hi & Hn). fold m in Hi. specialize (Sol i ltac:(lia)).
    unfold lhs, rhs in Sol. apply Nat.ltb_lt in Hi. rewrite Hi in Sol. unfold bx, by' in Sol. rewrite Hn in Sol. rewrite <- Sol.
    unfold poly. apply rsum_ext. intros; ring.
Qed.
Print Assumptions C86_boundary_conditions.

(** ** concrete fits *)
Definition row (l : list R) : dmatrix := mkMat 1 (length l) (fun _ k => nth k l 0).

(** three points, a straight line: the hypotheses hold for Gaussian elimination *)
Example C86_case : let h := [SetDegree 1; SetPoints 1 1 (row [0; 1; 3]) (row [1; 3; 7])] in
  exists f f', fit_run gauss h = Ok f /\ fit_run gauss (h ++ [Build]) = Ok f' /\ solver gauss /\ answers f' (fun i => match i with O => 1 | _ => 2 end) 1.
Proof.
  intros h. set (f := mkFit (row [0; 1; 3]) (row [1; 3; 7]) [] [] 1).
  assert (E: fit_run gauss h = Ok f) by reflexivity.
  assert (B: exists f', build gauss f = Ok f') by (eexists; reflexivity). destruct B as [f' B].
  exists f, f'. split; [exact E|]. split; [unfold fit_run in *; rewrite fold_left_app, E; exact B|]. split; [exact gauss_solver|].
  destruct (C86_least_squares gauss f f' (fun i => i) gauss_solver eq_refl B) as (p & An & _ & Rep).
  - intros i Hi. cbn in Hi |- *. lia.
  - intros i j Hi Hj Hne. cbn in Hi, Hj. destruct i as [|[|i]]; destruct j as [|[|j]]; cbn; try lia; lra.
  - assert (Q: forall i, (i <= 1)%nat -> p i = match i with O => 1 | _ => 2 end).
    { intros i Hi. apply (Rep (fun i => match i with O => 1 | _ => 2 end)); [|exact Hi]. intros k Hk. cbn in Hk. change (Z.to_nat (f_degree f)) with 1%nat. unfold poly. destruct k as [|[|[|k]]]; cbn; try lia; ring. }
    intros input Hr. rewrite (An input Hr). f_equal. apply map_ext. intros k. unfold poly. apply rsum_ext. intros i Hi. cbn in Hi. rewrite Q by lia. reflexivity.
Qed.

Lemma regular_2 a b c e : a * e - b * c <> 0 -> forall m, (forall i j, (i < 2)%nat -> (j < 2)%nat -> m i j = match i, j with O, O => a | O, _ => b | _, O => c | _, _ => e end) -> regular 2 m.
Proof.
  intros Hd m Hm v Hv. pose proof (Hv 0%nat ltac:(lia)) as H0. pose proof (Hv 1%nat ltac:(lia)) as H1. cbn [rsum] in H0, H1.
  rewrite (Hm 0%nat 0%nat), (Hm 0%nat 1%nat) in H0 by lia. rewrite (Hm 1%nat 0%nat), (Hm 1%nat 1%nat) in H1 by lia.
  assert (A0: (a * e - b * c) * v 0%nat = 0) by (replace ((a * e - b * c) * v 0%nat) with (e * (0 + a * v 0%nat + b * v 1%nat) - b * (0 + c * v 0%nat + e * v 1%nat)) by ring; rewrite H0, H1; ring).
  assert (A1: (a * e - b * c) * v 1%nat = 0) by (replace ((a * e - b * c) * v 1%nat) with (a * (0 + c * v 0%nat + e * v 1%nat) - c * (0 + a * v 0%nat + b * v 1%nat)) by ring; rewrite H0, H1; ring).
  apply Rmult_integral in A0, A1. intros [|[|i]] Hi; [tauto|tauto|lia].
Qed.

(** ** C86 is false with boundary conditions: among the straight lines through (1, 0), the one with slope 1 has the squared error 2
    for the points (0, 0) and (2, 2); the fitted one has slope 2 and the error 4 *)
Theorem C86_constrained_minimum_refuted lu : solver lu ->
  let x := [0; 2] in let y := [0; 2] in
  exists f p c, fit_run lu [SetDegree 1; AddBc (1, 0); SetPoints 1 1 (row x) (row y); Build] = Ok f /\ answers f p 1
    /\ poly p 1 1 = 0 /\ poly c 1 1 = 0
    /\ sq_error 2 (fun k => nth k x 0) (fun k => nth k y 0) c 1 = 2 /\ sq_error 2 (fun k => nth k x 0) (fun k => nth k y 0) p 1 = 4.
Proof.
  intros Hlu x y. set (f := mkFit (row x) (row y) [] [(1, 0)] 1).
  assert (B: exists f', build lu f = Ok f') by (eexists; reflexivity). destruct B as [f' B].
  destruct (build_ok lu f f' B) as (_ & _ & _ & E4 & _ & _ & E5). cbn [f f_degree f_bcs f_in f_out length] in E5.
  set (M := lhs 1 (d_cols (row x)) (fun k => d_at (row x) 0 k) (fun i => fst (nth i [(1, 0)] (0, 0)))) in *.
  set (b := rhs 1 (d_cols (row x)) (fun k => d_at (row x) 0 k) (fun k => d_at (row y) 0 k) (fun i => snd (nth i [(1, 0)] (0, 0)))) in *.
  change (S (Z.to_nat 1)) with 2%nat in E5. set (p := lu 2%nat M b) in *.
  assert (Reg: regular 2 M).
  { apply (regular_2 1 1 2 4); [lra|]. intros i j Hi Hj. unfold M, lhs, row, x. cbn [d_cols d_at length]. destruct i as [|[|i]]; destruct j as [|[|j]]; cbn; try lia; ring. }
  pose proof (Hlu 2%nat M b Reg) as Sol. fold p in Sol. pose proof (Sol 0%nat ltac:(lia)) as S0. pose proof (Sol 1%nat ltac:(lia)) as S1.
  unfold M, b, lhs, rhs, row, x, y in S0, S1. cbn in S0, S1.
  assert (P1: p 1%nat = 2) by lra. assert (P0: p 0%nat = -2) by lra.
  exists f', p, (fun i => match i with O => -1 | _ => 1 end). split; [exact B|]. split; [|split; [|split; [|split]]].
  - intros input Hr. apply solve_ok; [rewrite E4; reflexivity|exact E5|exact Hr].
  - unfold poly. cbn. rewrite P0, P1. ring.
  - unfold poly. cbn. ring.
  - unfold sq_error, poly, x, y. cbn. ring.
  - unfold sq_error, poly, x, y. cbn. rewrite P0, P1. ring.
Qed.
Print Assumptions C86_constrained_minimum_refuted.

(** ** the system can be singular although the constrained problem has exactly one solution: straight lines through (1, 0) and
    support points at 0 and 1 *)
Theorem C86_singular_refuted : let x := fun k => nth k [0; 1] 0 in
  ~ regular 2 (lhs 1 2 x (fun _ => 1)) 
  /\ forall y : nat -> R, exists c, poly c 1 1 = 0 /\ forall c', poly c' 1 1 = 0 -> sq_error 2 x y c 1 <= sq_error 2 x y c' 1 /\ (sq_error 2 x y c' 1 <= sq_error 2 x y c 1 -> forall i, (i <= 1)%nat -> c' i = c i).
Proof.
  intros x. split.
  - intros Reg. pose proof (Reg (fun k => match k with O => 1 | _ => -1 end)) as F.
    assert (Z: (1 = 0)%R); [|lra]. refine (F _ 0%nat ltac:(lia)). intros [|[|i]] Hi; [| |lia]; unfold lhs, x; cbn; ring.
  - intros y. exists (fun k => match k with O => y 0%nat | _ => - y 0%nat end). split; [unfold poly; cbn; ring|].
    intros c' Hc. unfold poly in Hc. cbn in Hc. assert (C1: c' 1%nat = - c' 0%nat) by lra. unfold sq_error, poly, x. cbn. rewrite C1. split; [|intros H; assert (Z: c' 0%nat = y 0%nat)].
    + pose proof (Rle_0_sqr (c' 0%nat - y 0%nat)) as Q. unfold Rsqr in Q. nra.
    + assert (Q: (c' 0%nat - y 0%nat) * (c' 0%nat - y 0%nat) <= 0) by nra. pose proof (Rle_0_sqr (c' 0%nat - y 0%nat)) as Q'. unfold Rsqr in Q'.
      assert (E: (c' 0%nat - y 0%nat) * (c' 0%nat - y 0%nat) = 0) by lra. apply Rmult_integral in E. lra.
    + intros [|[|i]] Hi; [exact Z|rewrite C1, Z; reflexivity|lia].
Qed.
Print Assumptions C86_singular_refuted.

(** ** lowering the degree after the boundary conditions were added makes BuildDerived write out of bounds *)
Theorem C86_lower_degree_refuted lu :
  fit_run lu [SetDegree 2; AddBc (0, 1); AddBc (1, 2); SetDegree 0; SetPoints 1 1 (row [0]) (row [1]); Build] = UB.
Proof. reflexivity. Qed.
Print Assumptions C86_lower_degree_refuted.

(** ** a fitter without degree and points answers 0 instead of asking to build the model first *)
Theorem C86_unbuilt_refuted : solve_at fit_new (row [5]) = Ok [0].
Proof. reflexivity. Qed.
Print Assumptions C86_unbuilt_refuted.

(** ** C86, histories: the fitter works with the degree and the support points that were set last and with every boundary condition
    that was added, in this order; a boundary condition is refused exactly when there are as many as the degree, a degree exactly when it is
    negative, and support points exactly when the dimensions do not fit *)
Definition conditions (h : list fop) : list (R * R) := flat_map (fun o => match o with AddBc b => [b] | _ => [] end) h.
Definition last_degree (h : list fop) : Z := fold_left (fun d o => match o with SetDegree e => e | _ => d end) h (-1)%Z.
Definition last_points (h : list fop) : dmatrix * dmatrix :=
  fold_left (fun p o => match o with SetPoints _ _ x y => (x, y) | _ => p end) h (mkMat 0 0 (fun _ _ => 0), mkMat 0 0 (fun _ _ => 0)).
Theorem C86_history lu h f : fit_run lu h = Ok f ->
  f_bcs f = conditions h /\ f_degree f = last_degree h /\ (f_in f, f_out f) = last_points h /\
  (forall b, fit_run lu (h ++ [AddBc b]) = Throw <-> (last_degree h <= Z.of_nat (length (conditions h)))%Z) /\
  (forall e, fit_run lu (h ++ [SetDegree e]) = Throw <-> (e < 0)%Z) /\
  (forall a b x y, fit_run lu (h ++ [SetPoints a b x y]) = Throw <-> a <> d_rows x \/ b <> d_rows y \/ d_cols x <> d_cols y).
Proof.
  intros E. cut (f_bcs f = conditions h /\ f_degree f = last_degree h /\ (f_in f, f_out f) = last_points h).
  { intros (A & B & C). repeat split; try assumption.
    - unfold fit_run in *. rewrite fold_left_app, E. cbn [fold_left obind fit_step add_bc]. unfold add_bc. rewrite A, B. destruct (Z.ltb_spec (Z.of_nat (length (conditions h))) (last_degree h)); [discriminate|auto].
    - unfold fit_run in *. rewrite fold_left_app, E. cbn [fold_left obind fit_step add_bc]. unfold add_bc. rewrite A, B. destruct (Z.ltb_spec (Z.of_nat (length (conditions h))) (last_degree h)); [lia|auto].
    - unfold fit_run in *. rewrite fold_left_app, E. cbn [fold_left obind fit_step]. unfold set_degree. destruct (Z.ltb_spec e 0); [auto|discriminate].
    - unfold fit_run in *. rewrite fold_left_app, E. cbn [fold_left obind fit_step]. unfold set_degree. destruct (Z.ltb_spec e 0); [auto|lia].
    - unfold fit_run in *. rewrite fold_left_app, E. cbn [fold_left obind fit_step]. unfold set_support_points.
      destruct (Nat.eqb_spec a (d_rows x)), (Nat.eqb_spec b (d_rows y)), (Nat.eqb_spec (d_cols y) (d_cols x)); cbn [negb]; intros ?; try discriminate; auto.
    - unfold fit_run in *. rewrite fold_left_app, E. cbn [fold_left obind fit_step]. unfold set_support_points.
      destruct (Nat.eqb_spec a (d_rows x)), (Nat.eqb_spec b (d_rows y)), (Nat.eqb_spec (d_cols y) (d_cols x)); cbn [negb]; auto; intros [?|[?|?]]; congruence. }
  revert f E. induction h as [|o h IH] using rev_ind; intros f E.
  - injection E as <-. auto.
  - unfold fit_run, conditions, last_degree, last_points in *. rewrite fold_left_app in E. rewrite flat_map_app, !fold_left_app. cbn [fold_left flat_map] in *.
    destruct (fold_left (fun x o0 => obind x (fun f0 => fit_step lu f0 o0)) h (Ok fit_new)) as [g| |]; cbn [obind] in E; try discriminate.
    destruct (IH g eq_refl) as (A & B & C). destruct o as [b|d|a b x y|]; cbn [fit_step] in E.
    + unfold add_bc in E. destruct (Z.ltb _ _); [|discriminate]. injection E as <-. cbn [f_bcs f_degree f_in f_out]. rewrite A. auto.
    + unfold set_degree in E. destruct (Z.ltb _ _); [discriminate|]. injection E as <-. cbn [f_bcs f_degree f_in f_out]. rewrite app_nil_r. auto.
    + unfold set_support_points in E. repeat (destruct (negb _); [discriminate|]). injection E as <-. cbn [f_bcs f_degree f_in f_out]. rewrite app_nil_r. auto.
    + destruct (build_ok lu g f E) as (E1 & E2 & E3 & E4 & _). rewrite app_nil_r. rewrite E3, E4, E1, E2. auto.
Qed.
Print Assumptions C86_history.
Example C86_history_case lu : exists f, fit_run lu [SetDegree 1; AddBc (1, 0); SetPoints 1 1 (row [0]) (row [2])] = Ok f /\
  fit_run lu [SetDegree 1; AddBc (1, 0); SetPoints 1 1 (row [0]) (row [2]); AddBc (2, 0)] = Throw.
Proof. eexists. split; reflexivity. Qed.
