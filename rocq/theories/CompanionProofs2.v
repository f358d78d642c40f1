From Coq Require Import Arith ZArith Bool Reals Lra Lia FunctionalExtensionality.
From Coq Require Import List.
From Verif Require Import RSum Outcome AdaptiveModel ShapeModel InterpolationModel InterpolationSpec InterpolationProofs CompanionModel CompanionSpec CompanionProofs.
Import ListNotations.
Local Open Scope R_scope.

(** ** other orders of the corners of a facet *)
Lemma fits_change e s order c c' (rho : (nat -> R) -> nat -> R) (perm : list nat) : length c' = length c ->
  length perm = length (facet_points order (length c)) -> (forall k, (k < length perm)%nat -> (nth k perm 0 < length perm)%nat) ->
  (forall xi d, facet_map s c' xi d = facet_map s c (rho xi) d) -> (forall xi, on_facet (length c) xi -> on_facet (length c) (rho xi)) ->
  (forall k d, (k < length perm)%nat ->
     facet_map s c (rho (at_node (nth k (facet_points order (length c)) []))) d = facet_map s c (at_node (nth (nth k perm 0%nat) (facet_points order (length c)) [])) d) ->
  (forall xi w, rsum (length perm) (fun k => nth k (facet_basis order (length c) (rho xi)) 0 * w k) =
                rsum (length perm) (fun k => nth k (facet_basis order (length c) xi) 0 * w (nth k perm 0%nat))) ->
  fits e s order c -> fits e s order c'.
Proof.
  intros Hl Hp Hr Hm Ho Hn Hb (sigma & Hs & Hnode & Hv). exists (map (fun k => nth k sigma 0%nat) perm). rewrite Hl, map_length.
  assert (Hnth : forall k, (k < length perm)%nat -> nth k (map (fun k => nth k sigma 0%nat) perm) 0%nat = nth (nth k perm 0%nat) sigma 0%nat).
  { intros k Hk. rewrite (nth_indep _ 0%nat (nth 0 sigma 0%nat)) by (rewrite map_length; exact Hk). apply (map_nth (fun k => nth k sigma 0%nat) perm 0%nat). }
  split; [exact Hp|]. split.
  - intros k Hk. rewrite Hnth by exact Hk. destruct (Hnode (nth k perm 0%nat)) as (Hi & Hd); [rewrite Hs, <- Hp; apply Hr; exact Hk|]. split; [exact Hi|].
    intros d. rewrite Hd. rewrite Hl, Hm. symmetry. apply Hn. exact Hk.
  - intros xi Hx v. replace (facet_map s c' xi) with (facet_map s c (rho xi)) by (extensionality d; symmetry; apply Hm).
    rewrite Hv by (apply Ho; exact Hx). rewrite Hs, <- Hp. rewrite (Hb xi (fun k => v (nth k sigma 0%nat))). apply rsum_ext. intros k Hk.
    rewrite Hnth by exact Hk. reflexivity.
Qed.

Ltac reduce := cbv [facet_map facet_basis facet_points Z.eqb Pos.eqb rsum app length nth rev].
Ltac change_facet order rho p1 p2 := apply (fits_change _ _ _ _ _ rho (if Z.eqb order 1 then p1 else p2));
  [reflexivity
  |unfold facet_points; destruct (Z.eqb order 1); reflexivity
  |destruct (Z.eqb order 1); let k := fresh in let H := fresh in intros k H; cbn [length] in *; cases k H; cbn; lia
  |let xi := fresh "xi" in let d := fresh "d" in intros xi d; reduce; field
  |intros xi; cbn [length on_facet]; lra
  |let k := fresh "k" in let H := fresh "Hk" in let d := fresh "d" in intros k d H; unfold facet_points; destruct (Z.eqb order 1); cbn [length] in H; cases k H; cbv [facet_map facet_basis Z.eqb Pos.eqb rsum app length nth rev at_node]; field
  |intros xi w; unfold facet_basis; destruct (Z.eqb order 1); cbv [rsum app length nth rev]; field].

Lemma fits_rotate e s order a l : (2 <= length (a :: l) <= 4)%nat -> fits e s order (a :: l) -> fits e s order (l ++ [a]).
Proof.
  intros H. destruct l as [|b [|c [|d [|? l]]]]; cbn [length] in H; try lia; cbn [app].
  - change_facet order (fun (xi : nat -> R) (k : nat) => - xi 0%nat) [1; 0]%nat [1; 0; 2]%nat.
  - change_facet order (fun (xi : nat -> R) (k : nat) => match k with O => 1 - xi 0%nat - xi 1%nat | _ => xi 0%nat end) [1; 2; 0]%nat [1; 2; 0; 4; 5; 3]%nat.
  - change_facet order (fun (xi : nat -> R) (k : nat) => match k with O => - xi 1%nat | _ => xi 0%nat end) [1; 2; 3; 0]%nat [1; 2; 3; 0; 5; 6; 7; 4; 8]%nat.
Qed.
Lemma fits_rev e s order l : (2 <= length l <= 4)%nat -> fits e s order l -> fits e s order (rev l).
Proof.
  intros H. destruct l as [|a [|b [|c [|d [|? l]]]]]; cbn [length] in H; try lia; cbn [rev app].
  - change_facet order (fun (xi : nat -> R) (k : nat) => - xi 0%nat) [1; 0]%nat [1; 0; 2]%nat.
  - change_facet order (fun (xi : nat -> R) (k : nat) => match k with O => xi 0%nat | _ => 1 - xi 0%nat - xi 1%nat end) [2; 1; 0]%nat [2; 1; 0; 4; 3; 5]%nat.
  - change_facet order (fun (xi : nat -> R) (k : nat) => match k with O => xi 0%nat | _ => - xi 1%nat end) [3; 2; 1; 0]%nat [3; 2; 1; 0; 6; 5; 4; 7; 8]%nat.
Qed.
Lemma same_length l l' : same_facet l l' -> length l' = length l.
Proof. induction 1; [reflexivity| |]; rewrite <- IHsame_facet; [rewrite app_length; cbn; lia|apply rev_length]. Qed.
Lemma fits_same e s order l l' : (2 <= length l <= 4)%nat -> same_facet l l' -> fits e s order l -> fits e s order l'.
Proof.
  intros Hl H Hf. induction H; [exact Hf| |].
  - apply fits_rotate; [rewrite (same_length _ _ H); exact Hl|apply IHsame_facet; assumption].
  - apply fits_rev; [rewrite (same_length _ _ H); exact Hl|apply IHsame_facet; assumption].
Qed.

Lemma created_fits s order e c : CreateLagrangeInterpolation s order = Ok e -> In c (facets s) -> fits e s order c.
Proof.
  assert (Hz : (order = 1 \/ order = 2 \/ (order <> 1 /\ order <> 2))%Z) by lia.
  intros H Hc. destruct Hz as [->|[->|(H1 & H2)]].
  - destruct s; cbn in H; inversion H; subst e; [destruct Hc|..]; auto using triangle_linear_fits, quad_linear_fits, tetrahedron_linear_fits, brick_linear_fits, prism_linear_fits, pyramid_linear_fits.
  - destruct s; cbn in H; inversion H; subst e; auto using triangle_quadratic_fits, quad_serendipity_fits, tetrahedron_quadratic_fits, prism_quadratic_fits.
  - exfalso. destruct s; cbn in H; destruct order as [|[?|[?|?|]|]|?]; try discriminate; congruence.
Qed.
Lemma facet_size s c : In c (facets s) -> (2 <= length c <= 4)%nat.
Proof. destruct s; cbn [facets In]; intuition (subst; cbn; lia). Qed.

(** ** polynomials *)
Lemma value_lin e v w a x : value e (fun i => a * v i + w i) x = a * value e v x + value e w x.
Proof. unfold value. rewrite <- rsum_scal, <- rsum_plus. apply rsum_ext. intros i Hi. ring. Qed.
Definition good (e : element) (m : nat * nat * nat) : Prop := forall x, value e (fun i => monomial m (at_node (nth i (e_nodes e) []))) x = monomial m x.
Lemma polynomial_good e p x : (forall k m, In (k, m) p -> good e m) -> value e (fun i => polynomial p (at_node (nth i (e_nodes e) []))) x = polynomial p x.
Proof.
  induction p as [|(k, m) p IH]; intros H.
  - unfold value, polynomial. cbn [map rlsum]. rewrite <- (rsum_scal (length (e_nodes e)) 0 (fun _ => 0)) || idtac. apply rsum_zero. intros; ring.
  - change (fun i => polynomial ((k, m) :: p) (at_node (nth i (e_nodes e) []))) with
      (fun i => k * monomial m (at_node (nth i (e_nodes e) [])) + polynomial p (at_node (nth i (e_nodes e) []))).
    rewrite (value_lin e (fun i => monomial m (at_node (nth i (e_nodes e) []))) (fun i => polynomial p (at_node (nth i (e_nodes e) [])))).
    rewrite IH by (intros; eapply H; right; eassumption). rewrite (H k m (or_introl eq_refl)). reflexivity.
Qed.
Ltac mono := intros x; cbv [value monomial pow rsum nth length at_node
  truss_linear truss_linear_nodes truss_linear_shape truss_quadratic truss_quadratic_nodes truss_quadratic_shape
  triangle_linear triangle_linear_nodes triangle_linear_shape triangle_quadratic triangle_quadratic_nodes triangle_quadratic_shape
  quad_linear quad_linear_nodes quad_linear_shape quad_serendipity quad_serendipity_nodes quad_serendipity_shape
  tetrahedron_linear tetrahedron_linear_nodes tetrahedron_linear_shape tetrahedron_quadratic tetrahedron_quadratic_nodes tetrahedron_quadratic_shape
  brick_linear brick_linear_nodes brick_linear_shape prism_linear prism_linear_nodes prism_linear_shape prism_quadratic prism_quadratic_nodes prism_quadratic_shape
  pyramid_linear pyramid_linear_nodes pyramid_linear_shape e_dim e_nodes e_shape]; try field.
Lemma exponents1 a b c : (a + b + c <= 1)%nat -> In (a, b, c) [(0, 0, 0); (1, 0, 0); (0, 1, 0); (0, 0, 1)]%nat.
Proof. intros H. assert (Ha : (a <= 1)%nat) by lia. assert (Hb : (b <= 1)%nat) by lia. assert (Hc : (c <= 1)%nat) by lia.
  destruct a as [|[|]]; destruct b as [|[|]]; destruct c as [|[|]]; try lia; cbn; auto 10. Qed.
Lemma exponents2 a b c : (a + b + c <= 2)%nat ->
  In (a, b, c) [(0, 0, 0); (1, 0, 0); (0, 1, 0); (0, 0, 1); (2, 0, 0); (0, 2, 0); (0, 0, 2); (1, 1, 0); (1, 0, 1); (0, 1, 1)]%nat.
Proof. intros H. assert (Ha : (a <= 2)%nat) by lia. assert (Hb : (b <= 2)%nat) by lia. assert (Hc : (c <= 2)%nat) by lia.
  destruct a as [|[|[|]]]; destruct b as [|[|[|]]]; destruct c as [|[|[|]]]; try lia; cbn; auto 20. Qed.
Lemma created_good s order e a b c : CreateLagrangeInterpolation s order = Ok e -> (Z.of_nat (a + b + c) <= order)%Z ->
  (shape_dim s <= 2 -> c = 0)%nat -> (shape_dim s <= 1 -> b = 0)%nat -> good e (a, b, c).
Proof.
  assert (Hz : (order = 1 \/ order = 2 \/ (order <> 1 /\ order <> 2))%Z) by lia.
  intros H Hd Hc Hb. destruct Hz as [->|[->|(H1 & H2)]].
  - assert (He : In (a, b, c) [(0, 0, 0); (1, 0, 0); (0, 1, 0); (0, 0, 1)]%nat) by (apply exponents1; lia). clear Hd.
    cbn [In] in He. destruct s; cbn in H; inversion H; subst e; cbn [shape_dim] in Hc, Hb;
    repeat (destruct He as [He|He]; [inversion He; subst a b c; try (exfalso; lia); mono|]); destruct He.
  - assert (He : In (a, b, c) [(0, 0, 0); (1, 0, 0); (0, 1, 0); (0, 0, 1); (2, 0, 0); (0, 2, 0); (0, 0, 2); (1, 1, 0); (1, 0, 1); (0, 1, 1)]%nat) by (apply exponents2; lia). clear Hd.
    cbn [In] in He. destruct s; cbn in H; inversion H; subst e; cbn [shape_dim] in Hc, Hb;
    repeat (destruct He as [He|He]; [inversion He; subst a b c; try (exfalso; lia); mono|]); destruct He.
  - exfalso. destruct s; cbn in H; destruct order as [|[?|[?|?|]|]|?]; try discriminate; congruence.
Qed.
