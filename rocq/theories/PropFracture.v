(** * C30: fracture energy integration *)
From Coq Require Import List Arith Bool Reals Lra Lia.
From Coquelicot Require Import Coquelicot.
From Verif Require Import Outcome RSum AdaptiveModel AdaptiveProofs FractureModel FractureSpec FractureProofs.
Import ListNotations.
Local Open Scope R_scope.

(** the constructor accepts exactly the data of equal length that start at the origin, and takes absolute values *)
Theorem C30_construct_partial f fs ds :
  (length ds = S (length fs) -> Rabs f <= 1 / 10 ^ 10 -> Rabs (nth 0 ds 0) <= 1 / 10 ^ 10 ->
     make_integrator (f :: fs) ds = Ok (mkIntegrator (map Rabs (f :: fs)) (map Rabs ds))) /\
  (length ds <> S (length fs) \/ 1 / 10 ^ 10 < Rabs f \/ 1 / 10 ^ 10 < Rabs (nth 0 ds 0) -> make_integrator (f :: fs) ds = Throw).
Proof.
  unfold make_integrator. rewrite !map_length. cbn [map length].
  assert (E : at_ (map Rabs ds) 0 = Rabs (nth 0 ds 0)) by (destruct ds; simpl; [rewrite Rabs_R0|]; reflexivity).
  rewrite E, !Rabs_Rabsolu.
  destruct (Nat.eqb_spec (S (length fs)) (length ds)) as [Hl|Hl]; cbn [negb]; [|split; [lia|reflexivity]].
  destruct (rltb_spec (1 / 10 ^ 10) (Rabs f)) as [(-> & H1)|(-> & H1)]; [split; [lra|reflexivity]|].
  destruct (rltb_spec (1 / 10 ^ 10) (Rabs (nth 0 ds 0))) as [(-> & H2)|(-> & H2)]; [split; [lra|reflexivity]|].
  split; [reflexivity|]. intros [H|[H|H]]; [lia|lra|lra].
Qed.
Print Assumptions C30_construct_partial.

(** without threshold: total work of all segments over the area, also if the displacement decreases *)
Theorem C30_full_curve forces displacements g area :
  make_integrator forces displacements = Ok g ->
  exists n a, length forces = S n /\ length displacements = S n /\
    (forall i, (i < n)%nat -> segment_work (fun k => Rabs (nth k forces 0)) (fun k => Rabs (nth k displacements 0)) i 1 (a i)) /\
    integrate_full g area = rsum n a / area.
Proof.
  intros H. unfold make_integrator in H. rewrite !map_length in H.
  destruct (Nat.eqb_spec (length forces) (length displacements)) as [Hl|]; [|discriminate]. cbn [negb] in H.
  destruct forces as [|f fs]; [discriminate|]. cbn [map] in H.
  destruct (rltb _ _) in H; [discriminate|]. destruct (rltb _ _) in H; [discriminate|]. injection H as <-.
  assert (E : forall (l : list R) k, at_ (map Rabs l) k = Rabs (nth k l 0)).
  { intros l k. unfold at_. rewrite <- Rabs_R0 at 1. apply map_nth. }
  exists (length fs), (fun i => (Rabs (nth (S i) (f :: fs) 0) + Rabs (nth i (f :: fs) 0)) / 2 * (Rabs (nth (S i) displacements 0) - Rabs (nth i displacements 0))).
  split; [reflexivity|]. split; [simpl in Hl; lia|]. split.
  - intros i Hi.
    match goal with |- segment_work ?F ?D ?i ?s ?x => replace x with ((F i * 1 + (F (S i) - F i) * (1 * 1) / 2) * (D (S i) - D i)) by field end.
    apply segment_value.
  - unfold integrate_full. f_equal. cbn [mForce mDispl]. rewrite internal_sum. cbn [length]. rewrite map_length.
    replace (S (length fs) - 1)%nat with (length fs) by lia. apply rsum_ext. intros i _. cbn [mForce mDispl].
    change (Rabs f :: map Rabs fs) with (map Rabs (f :: fs)). rewrite !E. reflexivity.
Qed.
Print Assumptions C30_full_curve.

(** for increasing displacements this is the integral of the piecewise linear force over the displacement *)
Theorem C30_full_displacement forces displacements g area h :
  make_integrator forces displacements = Ok g -> area <> 0 ->
  (forall i, (S i < length displacements)%nat -> Rabs (nth i displacements 0) < Rabs (nth (S i) displacements 0)) ->
  interpolates (fun k => Rabs (nth k forces 0)) (fun k => Rabs (nth k displacements 0)) (length displacements) h ->
  is_RInt h (Rabs (nth 0 displacements 0)) (Rabs (nth (length displacements - 1) displacements 0)) (integrate_full g area * area).
Proof.
  intros Hg Ha Hinc Hh. destruct (C30_full_curve forces displacements g area Hg) as (n & a & Hf & Hd & Hseg & ->).
  replace (rsum n a / area * area) with (rsum n a) by (field; auto).
  rewrite Hd in *. replace (S n - 1)%nat with n by lia.
  rewrite (rsum_ext n a (fun i => (Rabs (nth (S i) forces 0) + Rabs (nth i forces 0)) / 2 * (Rabs (nth (S i) displacements 0) - Rabs (nth i displacements 0)))).
  - apply (interpolation_integral (fun k => Rabs (nth k forces 0)) (fun k => Rabs (nth k displacements 0)) h n); auto.
    intros i Hi. apply Hinc. lia.
  - intros i Hi. rewrite (segment_unique _ _ i 1 (a i) (Hseg i Hi)). field.
Qed.
Print Assumptions C30_full_displacement.

(** the index found is the first downward crossing; otherwise an exception *)
Theorem C30_crossing_partial g thr :
  match find_index g thr with
  | Ok i => at_ (mForce g) (length (mForce g) - 1) <= thr /\ (S i < length (mForce g))%nat /\ thr < at_ (mForce g) i /\ at_ (mForce g) (S i) <= thr /\
            forall j, (j < i)%nat -> ~ (thr < at_ (mForce g) j /\ at_ (mForce g) (S j) <= thr)
  | Throw => thr < at_ (mForce g) (length (mForce g) - 1) \/
             forall i, (S i < length (mForce g))%nat -> ~ (thr < at_ (mForce g) i /\ at_ (mForce g) (S i) <= thr)
  | UB => False
  end.
Proof.
  destruct (find_index g thr) as [i| |] eqn:E.
  - apply find_index_spec. exact E.
  - unfold find_index in E. destruct (rltb_spec thr (at_ (mForce g) (length (mForce g) - 1))) as [(_ & H0)|(E0 & H0)]; [auto|]. rewrite E0 in E.
    right. intros i Hi (H1 & H2). destruct (find _ _) eqn:Ef; [discriminate|].
    assert (Hin : In i (seq 0 (length (mForce g) - 1))) by (apply in_seq; lia).
    pose proof (find_none _ _ Ef i Hin) as Hn. cbn beta in Hn. rewrite Nat.add_1_r in Hn.
    destruct (rltb_spec thr (at_ (mForce g) i)) as [(E1 & _)|(_ & ?)]; [|lra].
    destruct (rleb_spec (at_ (mForce g) (S i)) thr) as [(E2 & _)|(_ & ?)]; [|lra].
    rewrite E1, E2 in Hn. discriminate.
  - unfold find_index in E. destruct (rltb _ _); [discriminate|]. destruct (find _ _); discriminate.
Qed.
Print Assumptions C30_crossing_partial.

(** with threshold: the work up to the crossing, if the segment before the crossing segment continues it in a
    straight line and is not horizontal *)
Theorem C30_threshold_partial g area thr i w s : find_index g thr = Ok (S i) ->
  let F := at_ (mForce g) in let D := at_ (mDispl g) in
  F i <> F (S i) -> (F (S (S i)) - F (S i)) * (D (S i) - D i) = (F (S i) - F i) * (D (S (S i)) - D (S i)) ->
  F (S i) + s * (F (S (S i)) - F (S i)) = thr -> curve_work F D (S i) s w ->
  integrate_threshold g area thr = Ok (Some (w / area)).
Proof. exact (threshold_collinear g area thr i w s). Qed.
Print Assumptions C30_threshold_partial.

Definition curve_30 := mkIntegrator [0; 4; 3; 1] [0; 1; 2; 3].
Lemma curve_30_made : make_integrator [0; -4; 3; -1] [0; 1; -2; 3] = Ok curve_30.
Proof.
  unfold make_integrator. cbn [map length Nat.eqb negb at_ nth]. rewrite !Rabs_R0.
  destruct (rltb_spec (1 / 10 ^ 10) 0) as [(_ & H)|(-> & _)].
  - exfalso. revert H. apply Rle_not_lt. apply Rlt_le. apply Rdiv_lt_0_compat; [lra|]. apply pow_lt. lra.
  - assert (E4 : Rabs (-4) = 4) by (rewrite Rabs_left; lra). assert (E2 : Rabs (-2) = 2) by (rewrite Rabs_left; lra).
    assert (E1 : Rabs (-1) = 1) by (rewrite Rabs_left; lra). assert (E1' : Rabs 1 = 1) by (rewrite Rabs_right; lra).
    assert (E3 : Rabs 3 = 3) by (rewrite Rabs_right; lra). rewrite E4, E3, E2, E1, E1'. reflexivity.
Qed.

Lemma find_30 : find_index curve_30 2 = Ok 2%nat.
Proof.
  unfold find_index, curve_30. cbn [mForce length at_ nth Nat.sub seq find Nat.add].
  destruct (rltb_spec 2 1) as [(_ & ?)|(-> & _)]; [lra|].
  destruct (rltb_spec 2 0) as [(_ & ?)|(-> & _)]; [lra|]. cbn [andb].
  destruct (rltb_spec 2 4) as [(-> & _)|(_ & ?)]; [|lra].
  destruct (rleb_spec 3 2) as [(_ & ?)|(-> & _)]; [lra|]. cbn [andb].
  destruct (rltb_spec 2 3) as [(-> & _)|(_ & ?)]; [|lra].
  destruct (rleb_spec 1 2) as [(-> & _)|(_ & ?)]; [|lra]. reflexivity.
Qed.

(** FINDING: the code extrapolates the segment before the crossing segment.  For the curve (0,0) (1,4) (2,3) (3,1)
    cut at force 2 it returns 8, the work up to the crossing is 6.75. *)
Theorem C30_threshold_refuted :
  ~ (forall forces displacements g area thr i s w,
       make_integrator forces displacements = Ok g -> find_index g thr = Ok i ->
       at_ (mForce g) i + s * (at_ (mForce g) (S i) - at_ (mForce g) i) = thr ->
       curve_work (at_ (mForce g)) (at_ (mDispl g)) i s w -> integrate_threshold g area thr = Ok (Some (w / area))).
Proof.
  intros H.
  set (F := at_ (mForce curve_30)). set (D := at_ (mDispl curve_30)).
  pose (v := fun i s => (F i * s + (F (S i) - F i) * (s * s) / 2) * (D (S i) - D i)).
  assert (W : curve_work F D 2 (1/2) (v 0%nat 1 + v 1%nat 1 + v 2%nat (1/2))).
  { exists (fun i => match i with 2%nat => v 2%nat (1/2) | _ => v i 1 end). split; [|split].
    - intros i Hi. destruct i as [|[|i]]; [apply segment_value|apply segment_value|lia].
    - apply segment_value.
    - simpl. lra. }
  specialize (H _ _ curve_30 1 2 2%nat (1/2) _ curve_30_made find_30 ltac:(cbn; lra) W).
  unfold integrate_threshold in H. rewrite find_30 in H. cbn [obind integrate_to_threshold] in H.
  destruct (Req_EM_T _ _) as [E|_] in H; [cbn in E; lra|]. unfold omap in H. cbn [obind option_map] in H.
  injection H as H. rewrite internal_sum in H. unfold v, F, D in H. cbn in H. field_simplify in H; lra.
Qed.
Print Assumptions C30_threshold_refuted.

(** FINDING: on a plateau before the drop the code divides by zero, the result is not a finite number *)
Theorem C30_plateau_refuted : exists forces displacements g,
  make_integrator forces displacements = Ok g /\ find_index g 2 = Ok 2%nat /\ integrate_threshold g 1 2 = Ok None.
Proof.
  exists [0; 4; 4; 1], [0; 1; 2; 3], (mkIntegrator [0; 4; 4; 1] [0; 1; 2; 3]).
  assert (E : find_index (mkIntegrator [0; 4; 4; 1] [0; 1; 2; 3]) 2 = Ok 2%nat).
  { unfold find_index. cbn [mForce length at_ nth Nat.sub seq find Nat.add].
    destruct (rltb_spec 2 1) as [(_ & ?)|(-> & _)]; [lra|].
    destruct (rltb_spec 2 0) as [(_ & ?)|(-> & _)]; [lra|]. cbn [andb].
    destruct (rltb_spec 2 4) as [(-> & _)|(_ & ?)]; [|lra].
    destruct (rleb_spec 4 2) as [(_ & ?)|(-> & _)]; [lra|]. cbn [andb].
    destruct (rleb_spec 1 2) as [(-> & _)|(_ & ?)]; [|lra]. reflexivity. }
  split; [|split; [exact E|]].
  - unfold make_integrator. cbn [map length Nat.eqb negb at_ nth]. rewrite !Rabs_R0.
    destruct (rltb_spec (1 / 10 ^ 10) 0) as [(_ & H)|(-> & _)].
    + exfalso. revert H. apply Rle_not_lt. apply Rlt_le. apply Rdiv_lt_0_compat; [lra|]. apply pow_lt. lra.
    + assert (E2 : Rabs 2 = 2) by (rewrite Rabs_right; lra). assert (E1 : Rabs 1 = 1) by (rewrite Rabs_right; lra).
      assert (E3 : Rabs 3 = 3) by (rewrite Rabs_right; lra). assert (E4 : Rabs 4 = 4) by (rewrite Rabs_right; lra).
      rewrite E1, E2, E3, E4. reflexivity.
  - unfold integrate_threshold. rewrite E. cbn [obind integrate_to_threshold].
    destruct (Req_EM_T _ _) as [_|E']; [reflexivity|]. exfalso. apply E'. cbn. lra.
Qed.
Print Assumptions C30_plateau_refuted.

(** hypotheses are met: peak, then a straight softening branch *)
Example C30_example : find_index (mkIntegrator [0; 4; 3; 2; 1] [0; 1; 2; 3; 4]) (5/2) = Ok 2%nat /\
  integrate_threshold (mkIntegrator [0; 4; 3; 2; 1] [0; 1; 2; 3; 4]) 1 (5/2) = Ok (Some ((2 + 7/2 + 11/8) / 1)).
Proof.
  set (g := mkIntegrator [0; 4; 3; 2; 1] [0; 1; 2; 3; 4]).
  assert (E : find_index g (5/2) = Ok 2%nat).
  { unfold find_index, g. cbn [mForce length at_ nth Nat.sub seq find Nat.add].
    destruct (rltb_spec (5/2) 1) as [(_ & ?)|(-> & _)]; [lra|].
    destruct (rltb_spec (5/2) 0) as [(_ & ?)|(-> & _)]; [lra|]. cbn [andb].
    destruct (rltb_spec (5/2) 4) as [(-> & _)|(_ & ?)]; [|lra].
    destruct (rleb_spec 3 (5/2)) as [(_ & ?)|(-> & _)]; [lra|]. cbn [andb].
    destruct (rltb_spec (5/2) 3) as [(-> & _)|(_ & ?)]; [|lra].
    destruct (rleb_spec 2 (5/2)) as [(-> & _)|(_ & ?)]; [|lra]. reflexivity. }
  split; [exact E|].
  pose (v := fun i s => (at_ (mForce g) i * s + (at_ (mForce g) (S i) - at_ (mForce g) i) * (s * s) / 2) * (at_ (mDispl g) (S i) - at_ (mDispl g) i)).
  apply (C30_threshold_partial g 1 (5/2) 1 _ (1/2) E); [cbn; lra|cbn; lra|cbn; lra|].
  exists (fun i => match i with 2%nat => v 2%nat (1/2) | _ => v i 1 end). split; [|split].
  - intros i Hi. destruct i as [|[|i]]; [apply segment_value|apply segment_value|lia].
  - apply segment_value.
  - unfold v, g. cbn. lra.
Qed.
