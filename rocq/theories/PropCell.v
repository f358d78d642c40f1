(** * C20 - C23: cells, caches, Jacobians, differential operators *)
From Coq Require Import List ZArith Arith Bool Reals Lia Lra.
From Coquelicot Require Import Coquelicot.
From Verif Require Import Outcome DofModel RSum CellModel CellSpec CellProofs CellProofs2.
Import ListNotations.
Local Open Scope R_scope.

(** ** C20: for every integrand (with any state), interpolation and integration
    type whose Jacobians exist *)
Theorem C20_integrate_scalar {S} cellId numIps ipCoord ipWeight coords numNodes dim dShape
    (f : S -> ipdata -> S * R) (ips : nat -> ipdata) (s : S) :
  (forall i, (i < numIps)%nat -> make_ip cellId ipCoord coords numNodes dim dShape i = Ok (ips i)) ->
  integrate cellId numIps ipCoord ipWeight coords numNodes dim dShape (fun a b => Ok (a + b)) Rmult f 0 s
  = Ok (state_at f ips s numIps,
        rsum numIps (fun i => snd (f (state_at f ips s i) (ips i)) * jDet (ipJac (ips i)) * ipWeight i)).
Proof. exact (integrate_scalar _ _ _ _ _ _ _ _ f ips s). Qed.
Print Assumptions C20_integrate_scalar.

(** for vector and matrix valued integrands: every component [comp] on which
    operator+= and scalar multiplication act additively and linearly *)
Theorem C20_integrate_components {S V} cellId numIps ipCoord ipWeight coords numNodes dim dShape
    (add : V -> V -> outcome V) (scale : V -> R -> V) (comp : V -> R) (zero : V)
    (f : S -> ipdata -> S * V) (s s' : S) (r : V) :
  (forall a b c, add a b = Ok c -> comp c = comp a + comp b) ->
  (forall a x, comp (scale a x) = comp a * x) -> comp zero = 0 ->
  integrate cellId numIps ipCoord ipWeight coords numNodes dim dShape add scale f zero s = Ok (s', r) ->
  exists ips, (forall i, (i < numIps)%nat -> make_ip cellId ipCoord coords numNodes dim dShape i = Ok (ips i))
    /\ s' = state_at f ips s numIps
    /\ comp r = rsum numIps (fun i => comp (snd (f (state_at f ips s i) (ips i))) * jDet (ipJac (ips i)) * ipWeight i).
Proof. intros Ha Hs H0. exact (integrate_component _ _ _ _ _ _ _ _ add scale comp Ha Hs f s s' zero r H0). Qed.
Print Assumptions C20_integrate_components.

(** an integrand that logs what it sees: every integration point once, with its own ids and coordinates *)
Theorem C20_visits_each_point_once cellId numIps ipCoord ipWeight coords numNodes dim dShape (ips : nat -> ipdata) :
  (forall i, (i < numIps)%nat -> make_ip cellId ipCoord coords numNodes dim dShape i = Ok (ips i)) ->
  let log := fun (l : list (Z * nat)) ip => l ++ [(ipCell ip, ipId ip)] in
  let expected := map (fun i => (cellId, i)) (seq 0 numIps) in
  (exists x, integrate cellId numIps ipCoord ipWeight coords numNodes dim dShape (fun a b => Ok (a + b)) Rmult
     (fun l ip => (log l ip, 0)) 0 [] = Ok (expected, x))
  /\ cell_apply cellId numIps ipCoord coords numNodes dim dShape log [] = Ok expected
  /\ cell_eval cellId numIps ipCoord coords numNodes dim dShape (fun l ip => (log l ip, (ipId ip, ipCoords ip))) []
     = Ok (expected, map (fun i => (i, ipCoord i)) (seq 0 numIps)).
Proof.
  intros H log expected. split; [|split].
  - eexists. rewrite (integrate_scalar _ _ _ _ _ _ _ _ _ ips) by exact H. unfold log.
    rewrite (log_states cellId ipCoord coords numNodes dim dShape (fun _ => 0) ips numIps H). reflexivity.
  - unfold cell_apply. rewrite (apply_loop_spec _ _ _ _ _ _ _ ips).
    + rewrite fold_states. unfold log. rewrite (log_states cellId ipCoord coords numNodes dim dShape (fun _ => tt) ips numIps H). reflexivity.
    + intros i Hi. apply in_seq in Hi. apply H. lia.
  - rewrite (eval_spec _ _ _ _ _ _ _ _ ips) by exact H. unfold log.
    rewrite (log_states cellId ipCoord coords numNodes dim dShape (fun ip => (ipId ip, ipCoords ip)) ips numIps H).
    cbn [snd]. f_equal. f_equal. apply map_ext_in. intros i Hi. apply in_seq in Hi.
    destruct (make_ip_fields _ _ _ _ _ _ i _ (H i ltac:(lia))) as (_ & -> & -> & _). reflexivity.
Qed.
Print Assumptions C20_visits_each_point_once.

(** Eval returns the integrand's values in the order of the integration points;
    Apply runs the operation for its effects only *)
Theorem C20_eval_apply {S V} cellId numIps ipCoord coords numNodes dim dShape (f : S -> ipdata -> S * V) (h : S -> ipdata -> S) ips s :
  (forall i, (i < numIps)%nat -> make_ip cellId ipCoord coords numNodes dim dShape i = Ok (ips i)) ->
  cell_eval cellId numIps ipCoord coords numNodes dim dShape f s
    = Ok (state_at f ips s numIps, map (fun i => snd (f (state_at f ips s i) (ips i))) (seq 0 numIps))
  /\ cell_apply cellId numIps ipCoord coords numNodes dim dShape h s = Ok (state_at (fun s ip => (h s ip, tt)) ips s numIps).
Proof.
  intros H. split; [exact (eval_spec _ _ _ _ _ _ _ f ips s H)|].
  unfold cell_apply. rewrite (apply_loop_spec _ _ _ _ _ _ _ ips), fold_states; [reflexivity|].
  intros i Hi. apply in_seq in Hi. apply H. lia.
Qed.
Print Assumptions C20_eval_apply.

(** the data of an integration point: its own ids, coordinates and Jacobian *)
Theorem C20_point_data cellId ipCoord coords numNodes dim dShape i ip :
  make_ip cellId ipCoord coords numNodes dim dShape i = Ok ip ->
  ipCell ip = cellId /\ ipId ip = i /\ ipCoords ip = ipCoord i
  /\ make_jacobian coords numNodes dim (dShape (ipCoord i)) = Ok (ipJac ip).
Proof. exact (make_ip_fields cellId ipCoord coords numNodes dim dShape i ip). Qed.
Print Assumptions C20_point_data.

Theorem C20_constructor_checks_shape a b : cell_ctor a b = Ok tt <-> a = b.
Proof. unfold cell_ctor. destruct (Z.eqb_spec a b); split; intros; congruence. Qed.
Print Assumptions C20_constructor_checks_shape.

(** a truss from 3 to 7 with two integration points: the Jacobians exist, and the
    integral of the constant 1 with weights 1, 1 is the length 4 *)
Definition ex_dN : list R -> mfun := fun _ k _ => match k with 0%nat => - / 2 | _ => / 2 end.
Example C20_example : exists ips, (forall i, (i < 2)%nat -> make_ip 5 (fun i => [INR i]) [3; 7] 2 1 ex_dN i = Ok (ips i))
  /\ rsum 2 (fun i => 1 * jDet (ipJac (ips i)) * 1) = 4.
Proof.
  eexists (fun i => mkIp 5 i [INR i] _). split.
  - intros i Hi. reflexivity.
  - cbn. unfold jacobian_matrix. cbn. lra.
Qed.

(** ** C21 *)
Theorem C21_cache_transparent_partial {M V Op} (msize : M -> nat) (vsize : V -> nat) (m0 : M) (v0 : V) (mul : M -> V -> V)
    (elN : Z -> outcome M) (elB : Z -> Op -> outcome M) (elV : Z -> nat -> outcome V) (rs : list (@request Op)) :
  msize m0 = 0%nat -> vsize v0 = 0%nat -> one_operator rs ->
  serve_all msize vsize m0 v0 mul elN elB elV cache_empty rs = map (direct mul elN elB elV) rs.
Proof. intros. apply cache_transparent; assumption. Qed.
Print Assumptions C21_cache_transparent_partial.

Example C21_example : @one_operator nat [RN 1; RB 1 0%nat; RApply 1 0%nat 3; RB 2 1%nat; RValue 2 0; RV 1 3; RApply 2 1%nat 0]%Z.
Proof.
  intros r1 r2 d op1 op2 H1 H2 E1 E2. simpl in H1, H2.
  repeat (destruct H1 as [<-|H1]; [repeat (destruct H2 as [<-|H2]; [simpl in E1, E2; congruence|]); destruct H2|]). destruct H1.
Qed.

(** the full claim fails: the B matrix is stored per dof type, whatever operator it
    was computed with (here matrices are lists, operator 0 the gradient, 1 the strain) *)
Theorem C21_second_operator_refuted :
  exists (elB : Z -> nat -> outcome (list Z)) rs,
    (forall d op, exists m, elB d op = Ok m /\ m <> []) /\
    serve_all (@length Z) (@length Z) [] [] (fun _ v => v) (fun _ => Throw) elB (fun _ _ => Throw) cache_empty rs
    <> map (direct (fun _ v => v) (fun _ => Throw) elB (fun _ _ => Throw)) rs.
Proof.
  exists (fun d op => Ok [Z.of_nat op]), [RB 7%Z 0%nat; RB 7%Z 1%nat]. split.
  - intros d op. eexists. split; [reflexivity|discriminate].
  - vm_compute. discriminate.
Qed.
Print Assumptions C21_second_operator_refuted.

(** ** C22 *)
Theorem C22_square d n coords dN : (1 <= d <= 3)%nat -> (0 < n)%nat -> length coords = (n * d)%nat ->
  exists j, make_jacobian coords n d dN = Ok j
    /\ jRows j = d /\ jCols j = d
    /\ (forall a b, jGet j a b = geometry_derivative d n coords dN a b)
    /\ jDet j = leibniz d (geometry_derivative d n coords dN)
    /\ (jDet j <> 0 -> forall a b, (a < d)%nat -> (b < d)%nat ->
          mmul d (jInv j) (jGet j) a b = kron a b /\ mmul d (jGet j) (jInv j) a b = kron a b).
Proof. exact (square_jacobian d n coords dN). Qed.
Print Assumptions C22_square.

Theorem C22_lines_and_surfaces d n coords dN : (d = 1 \/ d = 2)%nat -> (0 < n)%nat -> length coords = (n * (d + 1))%nat ->
  0 < gram (d + 1) d (geometry_derivative (d + 1) n coords dN) ->
  exists j nrm, make_jacobian coords n d dN = Ok j /\ jac_normal j = Ok nrm
    /\ jRows j = (d + 1)%nat /\ jCols j = d
    /\ (forall a b, jGet j a b = geometry_derivative (d + 1) n coords dN a b)
    /\ jDet j = sqrt (gram (d + 1) d (geometry_derivative (d + 1) n coords dN))
    /\ (forall a b, (a < d)%nat -> (b < d)%nat -> mmul (d + 1) (jInv j) (jGet j) a b = kron a b)
    /\ (forall a, (a < d)%nat -> rsum (d + 1) (fun i => jInv j a i * nrm i) = 0)
    /\ (forall b, (b < d)%nat -> rsum (d + 1) (fun i => nrm i * jGet j i b) = 0)
    /\ rsum (d + 1) (fun i => nrm i * nrm i) = 1.
Proof. exact (codim1_jacobian d n coords dN). Qed.
Print Assumptions C22_lines_and_surfaces.

Theorem C22_other_dimensions_throw d e n coords dN : (0 < n)%nat -> length coords = (n * e)%nat ->
  (e <> d)%nat -> (e <> d + 1)%nat -> make_jacobian coords n d dN = Throw.
Proof. exact (other_dimensions_throw d e n coords dN). Qed.
Print Assumptions C22_other_dimensions_throw.

(** global derivatives of a field u = sum_k N_k u_k with natural derivatives dN' :
    the unique vector satisfying the chain rule (du/dx) J = du/dxi *)
Theorem C22_chain_rule d n coords dN : (1 <= d <= 3)%nat -> (0 < n)%nat -> length coords = (n * d)%nat ->
  leibniz d (geometry_derivative d n coords dN) <> 0 ->
  exists j, make_jacobian coords n d dN = Ok j /\
  forall (m : nat) (dN' : mfun) (u : nat -> R),
  let natural := fun l => rsum m (fun k => dN' k l * u k) in
  let global := fun i => rsum m (fun k => transform_derivatives j dN' k i * u k) in
  (forall l, (l < d)%nat -> rsum d (fun i => global i * geometry_derivative d n coords dN i l) = natural l)
  /\ (forall g, (forall l, (l < d)%nat -> rsum d (fun i => g i * geometry_derivative d n coords dN i l) = natural l) ->
        forall i, (i < d)%nat -> g i = global i).
Proof.
  intros Hd Hn Hl Hdet. destruct (square_jacobian d n coords dN Hd Hn Hl) as (j & Hj & Hr & Hc & HG & HD & Hinv).
  exists j. split; [exact Hj|]. intros m dN' u natural global.
  rewrite <- HD in Hdet. destruct (transform_chain_rule d j dN' m u Hc Hr (Hinv Hdet)) as (H1 & H2). split.
  - intros l Hl'. rewrite (rsum_ext d _ (fun i => global i * jGet j i l)) by (intros; rewrite HG; reflexivity). apply H1. exact Hl'.
  - intros g Hg. apply H2. intros l Hl'. etransitivity; [|exact (Hg l Hl')]. apply rsum_ext. intros. rewrite HG. reflexivity.
Qed.
Print Assumptions C22_chain_rule.

(** a line from (1,1) to (4,5) parametrised over [-1,1]: half its length 5 *)
Example C22_example : gram 2 1 (geometry_derivative 2 2 [1; 1; 4; 5] (ex_dN [])) = 25 / 4
  /\ sqrt (25 / 4) = 5 / 2.
Proof.
  split; [unfold gram, geometry_derivative; cbn; lra|].
  replace (25 / 4) with (5 / 2 * (5 / 2)) by lra. apply sqrt_square. lra.
Qed.
Example C22_example_square : leibniz 2 (geometry_derivative 2 3 [0; 0; 2; 0; 1; 3]
   (fun k j => match k, j with 0%nat, _ => -1 | 1%nat, 0%nat => 1 | 2%nat, 1%nat => 1 | _, _ => 0 end)) = 6.
Proof. unfold leibniz, geometry_derivative. cbn. lra. Qed.

(** ** C23 *)
Theorem C23_strain dim n N x dN (u : nat -> nat -> R) : (1 <= dim <= 3)%nat ->
  (forall k j, (k < n)%nat -> (j < dim)%nat -> is_partial (N k) x j (dN k j)) ->
  exists rows B G,
    nabla_strain dim n dN = Ok (rows, B)
    /\ (forall i j, (i < dim)%nat -> (j < dim)%nat -> is_partial (interpolated n N u i) x j (G i j))
    /\ map (mvmul (n * dim) B (fun c => nth c (extract_node_values dim n u) 0)) (seq 0 rows) = voigt_components dim G.
Proof. exact (strain_is_symmetric_gradient dim n N x dN u). Qed.
Print Assumptions C23_strain.

Theorem C23_strain_other_dimensions n dN dim : (dim = 0 \/ 3 < dim)%nat -> nabla_strain dim n dN = Throw.
Proof. intros [-> | H]; [reflexivity|]. destruct dim as [|[|[|[|dim]]]]; try lia; reflexivity. Qed.
Print Assumptions C23_strain_other_dimensions.

Theorem C23_gradient dim n N x dN (u : nat -> R) :
  (forall k j, (k < n)%nat -> (j < dim)%nat -> is_partial (N k) x j (dN k j)) ->
  forall j, (j < dim)%nat -> is_partial (fun y => rsum n (fun k => N k y * u k)) x j (mvmul n (nabla_gradient dN) u j).
Proof. exact (gradient_is_gradient dim n N x dN u). Qed.
Print Assumptions C23_gradient.

(** the N matrix times the node values is the interpolated field, whatever the
    uninitialised memory held *)
Theorem C23_interpolation garbage dim n N x (v : nat -> nat -> R) i : (i < dim)%nat ->
  mvmul (n * dim) (matrix_N garbage (fun k => N k x) n dim) (fun c => nth c (extract_node_values dim n v) 0) i
  = interpolated n N v i x.
Proof.
  intros Hi. rewrite matrix_N_interpolates by exact Hi. apply rsum_ext. intros k Hk.
  unfold extract_node_values. rewrite nth_flat_blocks by assumption. reflexivity.
Qed.
Print Assumptions C23_interpolation.

(** the dof numbers have the same layout as the node values *)
Theorem C23_layout dim n (number : nat -> nat -> Z) (value : nat -> nat -> R) k i : (k < n)%nat -> (i < dim)%nat ->
  nth (k * dim + i) (element_dof_numbering dim n number) (-1)%Z = number k i
  /\ nth (k * dim + i) (extract_node_values dim n value) 0 = value k i
  /\ length (element_dof_numbering dim n number) = (n * dim)%nat /\ length (extract_node_values dim n value) = (n * dim)%nat.
Proof.
  intros Hk Hi. repeat split; [apply nth_flat_blocks; assumption|apply nth_flat_blocks; assumption|apply flat_blocks_length|apply flat_blocks_length].
Qed.
Print Assumptions C23_layout.

(** a linear triangle: N_0 = 1 - x - y, N_1 = x, N_2 = y *)
Example C23_example : let N := fun k (x : nat -> R) => match k with 0%nat => 1 - x 0%nat - x 1%nat | 1%nat => x 0%nat | _ => x 1%nat end in
  let dN := fun k j => match k, j with 0%nat, _ => -1 | 1%nat, 0%nat => 1 | 2%nat, 1%nat => 1 | _, _ => 0 end in
  forall x k j, (k < 3)%nat -> (j < 2)%nat -> is_partial (N k) x j (dN k j).
Proof.
  intros N dN x k j Hk Hj. unfold is_partial, N, dN.
  destruct k as [|[|[|k]]]; try lia; destruct j as [|[|j]]; try lia; cbn [Nat.eqb]; auto_derive; auto; lra.
Qed.
