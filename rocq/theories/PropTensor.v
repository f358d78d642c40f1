(** * C34: tensor product quadrature *)
From Coq Require Import List Arith Bool Reals ZArith Lra Lia.
From Coquelicot Require Import Coquelicot.
From Verif Require Import RSum Outcome LegendreModel LegendreSpec PropLegendre TensorModel TensorSpec TensorProofs.
Import ListNotations.
Local Open Scope R_scope.

(** C34: n^d points, every one of them accessible, and nothing beyond *)
Theorem C34_number_of_points : forall dim n w1 p1,
  num_ips (tensor_rule dim n w1 p1) = (n ^ dim)%nat /\
  (forall i, (i < n ^ dim)%nat -> exists w x, ip_weight (tensor_rule dim n w1 p1) (Z.of_nat i) = Ok w /\
      ip_coords (tensor_rule dim n w1 p1) (Z.of_nat i) = Ok x /\ length x = dim) /\
  (forall i, (i < 0 \/ Z.of_nat (n ^ dim) <= i)%Z -> ip_weight (tensor_rule dim n w1 p1) i = Throw /\ ip_coords (tensor_rule dim n w1 p1) i = Throw).
Proof.
  intros dim n w1 p1. assert (HL : length (tensor_rule dim n w1 p1) = (n ^ dim)%nat) by (unfold tensor_rule; rewrite map_length, seq_length; reflexivity).
  split; [exact HL|]. split.
  - intros i Hi. destruct (rule_access dim n w1 p1 i Hi) as (A & B). eexists _, _. split; [exact A|]. split; [exact B|]. apply tensor_length.
  - intros i Hi. unfold ip_weight, ip_coords. rewrite HL. destruct (Z.leb_spec 0 i); cbn [andb]; [|auto]. destruct (Z.ltb_spec i (Z.of_nat (n ^ dim))); [lia|auto].
Qed.
Print Assumptions C34_number_of_points.

(** C34: products of one-dimensional integrands give the product of the one-dimensional sums *)
Theorem C34_products : forall n w1 p1 (fs : list (R -> R)), (0 < n)%nat ->
  quadrature (n ^ length fs) (ip_weight (tensor_rule (length fs) n w1 p1)) (ip_coords (tensor_rule (length fs) n w1 p1)) (product fs)
    (fold_right Rmult 1 (map (fun f => rsum n (fun j => nth j w1 0 * f (nth j p1 0))) fs)).
Proof. intros n w1 p1 fs Hn. rewrite <- iter_product. apply rule_quadrature. exact Hn. Qed.
Print Assumptions C34_products.

(** C34: the degree of exactness of the one-dimensional rule carries over to every coordinate, in every dimension *)
Theorem C34_exactness : forall dim n D w1 p1, (0 < n)%nat ->
  (forall f, polynomial D f -> is_RInt f (-1) 1 (rsum n (fun j => nth j w1 0 * f (nth j p1 0)))) ->
  forall g, multi_polynomial dim D g ->
  exists v, quadrature (n ^ dim) (ip_weight (tensor_rule dim n w1 p1)) (ip_coords (tensor_rule dim n w1 p1)) g v /\ cube_integral dim g v.
Proof.
  intros dim n D w1 p1 Hn H1 g Hg. exists (iter n w1 p1 dim g). split; [apply rule_quadrature; exact Hn|eapply iter_exact; eauto].
Qed.
Print Assumptions C34_exactness.

(** the Gauss and Lobatto rules of the library *)
Theorem C34_gauss : forall gr lr dim n,
  (1 <= n)%nat -> length (gr n) = n -> NoDup (gr n) -> (forall x, In x (gr n) -> P n x = 0) ->
  exists r, integration_type gr lr dim n GAUSS = Ok r /\ num_ips r = (n ^ dim)%nat /\
    forall g, multi_polynomial dim (2 * n - 1) g -> exists v, quadrature (num_ips r) (ip_weight r) (ip_coords r) g v /\ cube_integral dim g v.
Proof.
  intros gr lr dim n Hn HL HN HZ. destruct (C73_gauss_exact gr n Hn HL HN HZ) as (w & p & E & _ & _ & Hx).
  exists (tensor_rule dim n w p). unfold integration_type, rule_1d. rewrite E. split; [reflexivity|].
  destruct (C34_number_of_points dim n w p) as (Hnum & _). split; [exact Hnum|]. intros g Hg. rewrite Hnum. apply (C34_exactness dim n (2 * n - 1)); auto.
Qed.
Print Assumptions C34_gauss.

Theorem C34_lobatto : forall gr lr dim n,
  (2 <= n)%nat -> length (lr (n - 1)%nat) = (n - 2)%nat -> NoDup (lr (n - 1)%nat) -> (forall x, In x (lr (n - 1)%nat) -> Derive (P (n - 1)) x = 0) ->
  exists r, integration_type gr lr dim n LOBATTO = Ok r /\ num_ips r = (n ^ dim)%nat /\
    forall g, multi_polynomial dim (2 * n - 3) g -> exists v, quadrature (num_ips r) (ip_weight r) (ip_coords r) g v /\ cube_integral dim g v.
Proof.
  intros gr lr dim n Hn HL HN HZ. destruct (C74_lobatto_exact lr n Hn HL HN HZ) as (w & p & E & _ & _ & _ & _ & Hx).
  exists (tensor_rule dim n w p). unfold integration_type, rule_1d. rewrite E. split; [reflexivity|].
  destruct (C34_number_of_points dim n w p) as (Hnum & _). split; [exact Hnum|]. intros g Hg. rewrite Hnum. apply (C34_exactness dim n (2 * n - 3)); auto; lia.
Qed.
Print Assumptions C34_lobatto.

(** two points per direction in the plane: x0 varies fastest *)
Example C34_example : map snd (tensor_rule 2 2 [1; 1] [3; 5]) = [[3; 3]; [5; 3]; [3; 5]; [5; 5]].
Proof. reflexivity. Qed.
Example C34_multi : multi_polynomial 2 3 (fun l => match l with [x; y] => x ^ 3 * y ^ 2 | _ => 0 end).
Proof.
  exists (fun k l => if Nat.eqb k 3 then match l with [y] => y ^ 2 | _ => 0 end else 0). split.
  - intros k Hk. exists (fun j l => if Nat.eqb k 3 && Nat.eqb j 2 then match l with [] => 1 | _ => 0 end else 0). split; [intros; exact I|].
    intros y l. destruct (Nat.eqb k 3); simpl; [|ring]. destruct l; simpl; ring.
  - intros x [|y [|z l]]; simpl; ring.
Qed.
