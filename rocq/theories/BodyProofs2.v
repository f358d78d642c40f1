(** * Proofs for C105: unit vectors, loads and masses *)
From Coq Require Import List Arith ZArith Bool Reals Lra Lia.
From Verif Require Import Outcome RSum Algebra GroupModel GroupProofs DofModel DofSpec ConstraintModel AssemblerModel
  CellModel CellSpec CellProofs ElasticModel IntegrandModel InterpolationModel InterpolationSpec PropInterpolation PropIntegrand EquilibriumModel EquilibriumSpec EquilibriumProofs EquilibriumProofs2
  EquilibriumProofs3 BodyModel BodySpec BodyProofs.
Import ListNotations.
Local Open Scope R_scope.

(** ** Unit displacements *)
Definition unit_at (b : Z) (j : nat) (a : Z) (i : nat) : R := if andb (Z.eqb a b) (Nat.eqb i j) then 1 else 0.
Lemma over_nodes_single l b (f : Z -> R) : NoDup l -> In b l -> (forall a, a <> b -> f a = 0) -> over_nodes l f = f b.
Proof.
  intros ND Hb Hz. unfold over_nodes. induction ND as [|a l Ha ND IH]; [destruct Hb|]. cbn [map rlsum]. destruct Hb as [->|Hb].
  - rewrite rlsum_zero; [ring|]. intros x Hx. apply Hz. intros ->. contradiction.
  - rewrite IH by exact Hb. rewrite (Hz a); [ring|]. intros ->. contradiction.
Qed.
Lemma work_unit d l F b j : NoDup l -> In b l -> (j < d)%nat -> total_work d l F (unit_at b j) = F b j.
Proof.
  intros ND Hb Hj. unfold total_work. rewrite (over_nodes_single l b); [|exact ND|exact Hb|].
  - rewrite (rsum_single d j _ Hj).
    + unfold unit_at. rewrite Z.eqb_refl, Nat.eqb_refl. cbn [andb]. ring.
    + intros i Hi Hn. unfold unit_at. destruct (Nat.eqb_spec i j); [congruence|]. rewrite andb_false_r. ring.
  - intros a Ha. apply rsum_zero. intros i Hi. unfold unit_at. destruct (Z.eqb_spec a b); [congruence|]. cbn [andb]. ring.
Qed.
Lemma stiffness_unit d l K a i b j : NoDup l -> In b l -> (j < d)%nat -> stiffness_force d l K (unit_at b j) a i = K a i b j.
Proof. intros. exact (work_unit d l (fun b j => K a i b j) b j H H0 H1). Qed.
Lemma work_direction d l F i : (i < d)%nat -> total_work d l F (fun _ c => kron c i) = total_force l F i.
Proof.
  intros Hi. unfold total_work, total_force. apply rlsum_ext. intros a _. rewrite (rsum_single d i _ Hi).
  - unfold kron. rewrite Nat.eqb_refl. ring.
  - intros c Hc Hn. unfold kron. destruct (Nat.eqb_spec c i); [congruence|ring].
Qed.
Lemma nodal_direction d n f i : (i < d)%nat -> nodal_work d n f (fun _ c => kron c i) = resultant d n f i.
Proof.
  intros Hi. unfold nodal_work, resultant. apply rsum_ext. intros k _. rewrite (rsum_single d i _ Hi).
  - unfold kron. rewrite Nat.eqb_refl. ring.
  - intros c Hc Hn. unfold kron. destruct (Nat.eqb_spec c i); [congruence|ring].
Qed.
Lemma kron_two d (g : nat -> R) i j x y : (i < d)%nat -> (j < d)%nat ->
  rsum d (fun c => g c * (x * kron c j - y * kron c i)) = x * g j - y * g i.
Proof.
  intros Hi Hj. assert (P : forall m, (m < d)%nat -> rsum d (fun c => g c * kron c m) = g m).
  { intros m Hm. rewrite (rsum_single d m _ Hm); [unfold kron; rewrite Nat.eqb_refl; ring|].
    intros c Hc Hne. unfold kron. destruct (Nat.eqb_spec c m); [congruence|ring]. }
  rewrite (rsum_ext d _ (fun c => x * (g c * kron c j) - y * (g c * kron c i))) by (intros; ring).
  rewrite rsum_minus, !rsum_scal, !P by assumption. reflexivity.
Qed.
Lemma work_turn d l place F i j : (i < d)%nat -> (j < d)%nat ->
  total_work d l F (fun a c => place a i * kron c j - place a j * kron c i) = total_moment l place F i j.
Proof. intros Hi Hj. unfold total_work, total_moment. apply rlsum_ext. intros a _. apply kron_two; assumption. Qed.
Lemma nodal_turn d n X f i j : (i < d)%nat -> (j < d)%nat ->
  nodal_work d n f (fun k c => X k i * kron c j - X k j * kron c i) = moment d n X f i j.
Proof. intros Hi Hj. unfold nodal_work, moment. apply rsum_ext. intros k _. apply (kron_two d (fun c => f (k * d + c)%nat)); assumption. Qed.
Lemma nodal_ext d n f w w' : (forall k i, (k < n)%nat -> (i < d)%nat -> w k i = w' k i) -> nodal_work d n f w = nodal_work d n f w'.
Proof. intros H. unfold nodal_work. apply rsum_ext. intros k Hk. apply rsum_ext. intros i Hi. rewrite H by assumption. reflexivity. Qed.
Lemma apply_ext d n K w w' a : (forall k i, (k < n)%nat -> (i < d)%nat -> w k i = w' k i) -> apply_stiffness d n K w a = apply_stiffness d n K w' a.
Proof. intros H. unfold apply_stiffness. apply rsum_ext. intros k Hk. apply rsum_ext. intros i Hi. rewrite H by assumption. reflexivity. Qed.
Lemma nodal_ext_f d n f f' w : (forall a, f a = f' a) -> nodal_work d n f w = nodal_work d n f' w.
Proof. intros H. unfold nodal_work. apply rsum_ext. intros k Hk. apply rsum_ext. intros i Hi. rewrite H. reflexivity. Qed.

(** sums over pairs of cells and integrals *)
Lemma combine_sum {A B} (P : A -> B -> Prop) (f : A * B -> R) (g : A -> R) cells fs : Forall2 P cells fs ->
  (forall c b, In c cells -> P c b -> f (c, b) = g c) -> rlsum (map f (combine cells fs)) = rlsum (map g cells).
Proof.
  induction 1 as [|c b cs bs Hcb Hr IH]; intros H; [reflexivity|]. cbn [combine map rlsum].
  rewrite (H c b (or_introl eq_refl) Hcb), IH; [reflexivity|]. intros c' b' Hc' Hb'. apply H; [right; exact Hc'|exact Hb'].
Qed.
Lemma combine_sum2 {A B C} (P : A -> B -> Prop) (Q : A -> C -> Prop) (f : A * B -> R) (g : A * C -> R) cells bs cs : Forall2 P cells bs -> Forall2 Q cells cs ->
  (forall c b k, In c cells -> P c b -> Q c k -> f (c, b) = g (c, k)) -> rlsum (map f (combine cells bs)) = rlsum (map g (combine cells cs)).
Proof.
  intros HP. revert cs. induction HP as [|c b cl bl Hcb Hr IH]; intros cs HQ H; [inversion HQ; reflexivity|].
  inversion HQ as [|? k ? kl Hk HQ']; subst. cbn [combine map rlsum].
  rewrite (H c b k (or_introl eq_refl) Hcb Hk), (IH kl); [reflexivity|exact HQ'|]. intros c' b' k' Hc'. apply H. right. exact Hc'.
Qed.
Lemma combine_nonneg {A B} (P : A -> B -> Prop) (f : A * B -> R) cells fs : Forall2 P cells fs ->
  (forall c b, In c cells -> P c b -> 0 <= f (c, b)) -> 0 <= rlsum (map f (combine cells fs)).
Proof.
  induction 1 as [|c b cs bs Hcb Hr IH]; intros H; [cbn; lra|]. cbn [combine map rlsum].
  pose proof (H c b (or_introl eq_refl) Hcb). assert (0 <= rlsum (map f (combine cs bs))); [|lra].
  apply IH. intros c' b' Hc' Hb'. apply H; [right; exact Hc'|exact Hb'].
Qed.

(** ** Loads and masses of a cell *)
Section Cell.
  Variables (d : nat) (coordinate : Z -> nat -> R) (garbage : mfun) (c : body_cell).
  Let n := length (e_nodes (bc_element c)).
  Let sh (q : nat) : nat -> R := fun k => nth k (e_shape (bc_element c) (as_point (bc_ipCoord c q))) 0.
  Hypothesis Us : In (bc_element c) (pyramid_linear :: exact_elements).

  Lemma shapes_sum q : rsum n (sh q) = 1.
  Proof.
    destruct (proj1 (Forall_forall _ _) element_lengths _ Us) as (L & _ & _). pose proof (proj1 (Forall_forall _ _) C36_partition_of_unity _ Us) as Pu.
    unfold sh. rewrite <- (rlsum_nth (e_shape (bc_element c) (as_point (bc_ipCoord c q))) n (L _)). apply Pu.
  Qed.
  Variable jac : nat -> jacobian.
  Hypothesis J : forall q, (q < bc_numIps c)%nat -> make_jacobian (cell_coordinates d coordinate c) (length (e_nodes (bc_geometry c))) (e_dim (bc_geometry c))
       (fun k j => nth j (nth k (e_deriv (bc_geometry c) (fun i => nth i (bc_ipCoord c q) 0)) []) 0) = Ok (jac q).
  Let ip q := mkIp (bc_id c) q (bc_ipCoord c q) (jac q).
  Lemma ip_ok q : In q (seq 0 (bc_numIps c)) -> make_ip (bc_id c) (bc_ipCoord c) (cell_coordinates d coordinate c) (length (e_nodes (bc_geometry c)))
       (e_dim (bc_geometry c)) (fun x => as_matrix (e_deriv (bc_geometry c) (as_point x))) q = Ok (ip q).
  Proof. intros Hq. apply in_seq in Hq. unfold make_ip, as_matrix, as_point. rewrite J by lia. reflexivity. Qed.

  Lemma load_total factor f : cell_Load d coordinate garbage factor c = Ok f ->
    forall i, (i < d)%nat -> resultant d n f i = factor i * rsum (bc_numIps c) (fun q => jDet (jac q) * bc_ipWeight c q).
  Proof.
    intros E i Hi.
    destruct (vec_loop_Ok (bc_id c) (bc_ipCoord c) (bc_ipWeight c) _ _ _ _ ip (fun p => Ok (nb_ExternalLoad d factor (ip_N d garbage c p)))
      (fun q => nb_ExternalLoad d factor (matrix_N garbage (sh q) n d)) (seq 0 (bc_numIps c)) ip_ok) with (r := fun _ : nat => 0) as (h & Eh & V).
    { intros q _. reflexivity. }
    unfold cell_Load, integrate in E. assert (h = f) by (apply (f_equal (fun o => match o with Ok v => v | _ => fun _ => 0 end) (eq_trans (eq_sym Eh) E))). subst f. clear E.
    unfold resultant. rewrite (rsum_ext n _ (fun k => rsum (bc_numIps c) (fun q => nb_ExternalLoad d factor (matrix_N garbage (sh q) n d) (k * d + i)%nat * (jDet (jac q) * bc_ipWeight c q)))).
    2:{ intros k Hk. rewrite V, rlsum_map_seq, Rplus_0_l. reflexivity. }
    rewrite rsum_swap, <- rsum_scal. apply rsum_ext. intros q Hq. rewrite rsum_scal_r. f_equal.
    apply (C82_load garbage (sh q) n d factor); [apply shapes_sum|exact Hi].
  Qed.

  Lemma mass_total rho K : cell_Mass d coordinate garbage rho c = Ok K -> forall i j, (i < d)%nat -> (j < d)%nat ->
    nodal_work d n (apply_stiffness d n K (fun _ c => kron c j)) (fun _ c => kron c i) =
    kron i j * rho * rsum (bc_numIps c) (fun q => jDet (jac q) * bc_ipWeight c q).
  Proof.
    intros E i j Hi Hj.
    destruct (mat_loop_Ok (bc_id c) (bc_ipCoord c) (bc_ipWeight c) _ _ _ _ ip (fun p => Ok (dm_Hessian2 d rho (ip_N d garbage c p)))
      (fun q => dm_Hessian2 d rho (matrix_N garbage (sh q) n d)) (seq 0 (bc_numIps c)) ip_ok) with (r := fun _ _ : nat => 0) as (h & Eh & V).
    { intros q _. reflexivity. }
    unfold cell_Mass, integrate in E. assert (h = K) by (apply (f_equal (fun o => match o with Ok v => v | _ => fun _ _ => 0 end) (eq_trans (eq_sym Eh) E))). subst K. clear E.
    rewrite work_as_sum.
    set (ev := fun m => nth m (extract_node_values d n (fun _ c => kron c j)) 0). set (ew := fun m => nth m (extract_node_values d n (fun _ c => kron c i)) 0).
    rewrite (rsum_ext (n * d) _ (fun a => rsum (bc_numIps c) (fun q => (rsum (n * d) (fun b => dm_Hessian2 d rho (matrix_N garbage (sh q) n d) a b * ev b) * (jDet (jac q) * bc_ipWeight c q)) * ew a))).
    2:{ intros a Ha. rewrite rsum_scal_r. fold (ew a). f_equal. rewrite apply_as_sum. fold ev.
        rewrite (rsum_ext (n * d) _ (fun b => rsum (bc_numIps c) (fun q => dm_Hessian2 d rho (matrix_N garbage (sh q) n d) a b * ev b * (jDet (jac q) * bc_ipWeight c q)))).
        - rewrite rsum_swap. apply rsum_ext. intros q Hq. rewrite rsum_scal_r. reflexivity.
        - intros b Hb. rewrite V, rlsum_map_seq, Rplus_0_l, <- rsum_scal_r. apply rsum_ext. intros q Hq. unfold ip. cbn [ipJac]. cbv beta. fold (ev b). ring. }
    rewrite rsum_swap, <- rsum_scal. apply rsum_ext. intros q Hq.
    destruct (C82_mass garbage (sh q) n d rho) as (_ & Bil & _). specialize (Bil ew ev).
    rewrite (rsum_ext (n * d) _ (fun a => (jDet (jac q) * bc_ipWeight c q) * (ew a * rsum (n * d) (fun b => dm_Hessian2 d rho (matrix_N garbage (sh q) n d) a b * ev b)))) by (intros; ring).
    rewrite rsum_scal, Bil.
    assert (I : forall m (z : nat -> nat -> R), (m < d)%nat -> (forall k c, z k c = kron c m) -> forall p, (p < d)%nat ->
              PropIntegrand.interpolated n d (sh q) (fun b => nth b (extract_node_values d n z) 0) p = kron p m).
    { intros m z Hm Hz p Hp. unfold PropIntegrand.interpolated. rewrite (rsum_ext n _ (fun k => sh q k * kron p m)).
      - rewrite rsum_scal_r, shapes_sum. ring.
      - intros k Hk. unfold extract_node_values. rewrite (nth_flat_blocks z d n 0 k p) by assumption. rewrite Hz. reflexivity. }
    rewrite (rsum_ext d _ (fun p => kron p i * kron p j)).
    2:{ intros p Hp. unfold ev, ew. rewrite (I i _ Hi (fun _ _ => eq_refl) p Hp), (I j _ Hj (fun _ _ => eq_refl) p Hp). reflexivity. }
    rewrite (rsum_single d i _ Hi).
    - unfold kron at 1. rewrite Nat.eqb_refl. ring.
    - intros p Hp Hn. unfold kron at 1. destruct (Nat.eqb_spec p i); [congruence|ring].
  Qed.
End Cell.
