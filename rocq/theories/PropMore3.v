(** * Further statements of C48, C66 and C109 *)
From Coq Require Import List Permutation Arith ZArith Bool Reals Lra Lia.
From Verif Require Import RSum Outcome AdaptiveModel AdaptiveProofs Vec3.
From Verif Require GroupModel GroupProofs MeshModel MeshSpec MeshProofs CollisionModel SubBoxModel TakeModel TakeSpec TakeProofs TakeProofs2 TakeProofs3 PropTake DelaunayModel PolygonModel VoronoiCellModel VoronoiCellProofs PropVoronoiCell.
Import ListNotations.
Local Open Scope R_scope.

(** ** C48: NodesTotal(dofType) returns every node of the dof type once *)
Module DofNodes.
  Import GroupModel GroupProofs MeshModel MeshSpec MeshProofs.
  Theorem C48_dof_nodes_total : forall values dim elements dof, mesh_ok values dim elements ->
    exists g, dof_nodes_total elements dof = Ok g /\ group_ok g
      /\ forall n, In n (mData g) <-> exists c de, In c elements /\ edof c dof = Some de /\ In n (enodes de).
  Proof.
    intros values dim elements dof Hm. unfold dof_nodes_total.
    destruct (for_each_group (fun c n => exists de, edof c dof = Some de /\ In n (enodes de))
      (fun g c => match edof c dof with
        | None => Ok g
        | Some de => for_each (seq 0 (inum (einterp de))) (fun g i => obind (get_node de i) (add_to g)) g
        end) elements group_empty group_ok_empty) as (g & E & Hg & Hn).
    - intros c g Hin Hg. destruct (Hm c Hin) as (_ & Hde). destruct (edof c dof) as [de|] eqn:Ed.
      2:{ exists g. split; [reflexivity|]. split; [exact Hg|]. intros n. split; [auto|]. intros [Hl|(de & H & _)]; [exact Hl|discriminate]. }
      specialize (Hde dof de Ed). rewrite <- Hde.
      destruct (for_each_group (fun i n => nth_error (enodes de) i = Some n)
        (fun g i => obind (get_node de i) (add_to g)) (seq 0 (length (enodes de))) g Hg) as (g' & -> & Hg' & Hn).
      + intros i g0 Hi Hg0. apply in_seq in Hi. destruct (get_node_spec de i) as (n & -> & Hn & _ & _); [lia|].
        cbn [obind]. destruct (add_to_spec g0 n Hg0) as (g1 & E1 & H1 & I1). exists g1. split; [exact E1|]. split; [exact H1|].
        intros m. rewrite I1, Hn. split; (intros [Hl|Hr]; [left; exact Hl|right; congruence]).
      + exists g'. split; [reflexivity|]. split; [exact Hg'|]. intros n. rewrite Hn. split; (intros [Hl|Hr]; [left; exact Hl|right]).
        * destruct Hr as (i & _ & Hi). exists de. split; [reflexivity|]. eapply nth_error_In; eauto.
        * destruct Hr as (de' & Heq & Hr). injection Heq as <-. apply In_nth_error in Hr. destruct Hr as (i & Hi). exists i. split; [|auto].
          apply in_seq. split; [lia|]. simpl. apply nth_error_Some. rewrite Hi. discriminate.
    - exists g. split; [exact E|]. split; [exact Hg|]. intros n. rewrite Hn. split.
      + intros [[]|(c & Hin & de & Hd & Hi)]. exists c, de; auto.
      + intros (c & de & Hin & Hd & Hi). right. exists c. split; [exact Hin|]. exists de. auto.
  Qed.
  Print Assumptions C48_dof_nodes_total.

  (** two elements that share the displacement node 7; the third has no displacements *)
  Example C48_dof_nodes_case : let ip := mkInterp 1 (fun _ _ => 0) (fun _ _ => 1) 0 in
    let with_dof l := mkCollection (mkElement [1%Z] ip) (fun d => if Z.eqb d 3 then Some (mkElement l ip) else None) in
    omap (fun g => mData g) (dof_nodes_total [with_dof [7%Z]; with_dof [7%Z]; mkCollection (mkElement [2%Z] ip) (fun _ => None); with_dof [5%Z]] 3) = Ok [7%Z; 5%Z].
  Proof. reflexivity. Qed.
End DofNodes.
Export DofNodes.

(** ** C66: in a dogbone specimen no placed particle overlaps the two circles cut out of its sides: their centers are 21/40 of the
    width outside of the sides at three quarters of the width above the lower end, their radius is 29/40 of the width *)
Module Dogbone.
  Import CollisionModel SubBoxModel TakeModel TakeSpec TakeProofs TakeProofs2 TakeProofs3 PropTake.
  Theorem C66_dogbone : forall fuel (lo len : v3) shrinkage rel ab maxTries u radii pos, unit_stream u ->
    decreasing radii -> radii <> [] -> (forall r, In r radii -> 0 < r) -> 0 <= shrinkage < 1 ->
    2 * nth 0 radii 0 / (1 - shrinkage) <= vx len -> 2 * nth 0 radii 0 / (1 - shrinkage) <= vy len ->
    2 * nth 0 radii 0 / (1 - shrinkage) <= vz len ->
    (forall r, In r radii -> 0 <= r * (1 + rel) + ab <= 2 * r / (1 - shrinkage)) ->
    forall pos', place_phase fuel SDogbone lo len shrinkage rel ab maxTries u radii pos = Ok (Some pos') ->
      exists sizes, size_classes fuel radii = Ok (Some sizes) /\
        forall i, (i < placed_number sizes radii)%nat ->
          nth i radii 0 + 29 / 40 * vx len <= sqrt ((vx (pos' i) - (vx lo + vx len + 21 / 40 * vx len))² + (vy (pos' i) - (vy lo + 3 / 4 * vx len))²) /\
          nth i radii 0 + 29 / 40 * vx len <= sqrt ((vx (pos' i) - (vx lo - 21 / 40 * vx len))² + (vy (pos' i) - (vy lo + 3 / 4 * vx len))²).
  Proof.
    intros fuel lo len shr rel ab maxTries u radii pos Hu HD Hne Hpos Hs Fx Fy Fz HR pos' E.
    destruct (place_phase_lemma fuel SDogbone lo len shr rel ab maxTries u radii pos Hu HD Hne Hpos Hs Fx Fy Fz HR) as (_ & OK1).
    destruct (OK1 pos' E) as (sizes & Es & L & (P1 & _) & _). exists sizes. split; [exact Es|]. intros i Hi.
    destruct (P1 i Hi) as (_ & HC). unfold collides_boundary in HC. cbv zeta in HC. injection HC as HC. apply orb_false_elim in HC. destruct HC as (C1 & C2).
    assert (Hr : 0 < nth i radii 0) by (apply Hpos, nth_In; lia).
    assert (Hlen : 0 <= vx len).
    { eapply Rle_trans; [|exact Fx]. assert (0 < nth 0 radii 0) by (apply Hpos, nth_In; destruct radii; [contradiction|cbn; lia]).
      apply Rmult_le_pos; [lra|]. apply Rlt_le, Rinv_0_lt_compat. lra. }
    split; (rewrite <- (sqrt_Rsqr (nth i radii 0 + 29 / 40 * vx len)) by lra; apply sqrt_le_1_alt; unfold Rsqr).
    - destruct (Rlt_le_dec (((vx (pos' i) - (vx lo + vx len + 21 / 40 * vx len)) * (vx (pos' i) - (vx lo + vx len + 21 / 40 * vx len)) +
        (vy (pos' i) - (vy lo + 3 / 4 * vx len)) * (vy (pos' i) - (vy lo + 3 / 4 * vx len)))) ((nth i radii 0 + 29 / 40 * vx len) * (nth i radii 0 + 29 / 40 * vx len))) as [Hlt|Hge]; [|exact Hge].
      apply rltb_t in Hlt. rewrite Hlt in C1. discriminate.
    - destruct (Rlt_le_dec (((vx (pos' i) - (vx lo - 21 / 40 * vx len)) * (vx (pos' i) - (vx lo - 21 / 40 * vx len)) +
        (vy (pos' i) - (vy lo + 3 / 4 * vx len)) * (vy (pos' i) - (vy lo + 3 / 4 * vx len)))) ((nth i radii 0 + 29 / 40 * vx len) * (nth i radii 0 + 29 / 40 * vx len))) as [Hlt|Hge]; [|exact Hge].
      apply rltb_t in Hlt. rewrite Hlt in C2. discriminate.
  Qed.
  Print Assumptions C66_dogbone.

  (** two balls of radius 1 in a dogbone of width 10 *)
  Example C66_dogbone_case : let u := fun n : nat => if (n <=? 2)%nat then / 2 else 0 in
    place_phase 2 SDogbone zero3 cube10 0 0 0 10 u [1; 1] (fun _ => zero3) = Ok (Some (set_pos (set_pos (fun _ => zero3) 0 (V3 5 5 5)) 1 (V3 1 1 1))).
  Proof.
    intros u. unfold place_phase, size_classes. cbn [rev List.app doubling]. rewrite rltb_f by lra. cbn [obind].
    unfold num_per_class. cbn [length Nat.eqb combine place_classes seq fold_left]. rewrite make_boxes5. cbn [place_class].
    assert (T0 : trunc ((1 - 0) / (10 / 5)) = 0%Z) by (apply trunc_is; [lia|lra]).
    assert (T2 : trunc ((5 - 0) / (10 / 5)) = 2%Z) by (apply trunc_is; [lia|lra]).
    rewrite (place_one_accept SDogbone zero3 cube10 0 0 10 u (fun i => nth i [1; 1] 0) 1 boxes5 (fun _ => zero3) (fun _ => []) 0 0 0 (V3 5 5 5) 2 2 2);
      [|unfold zero3, cube10, random_coordinate, u; cbn [nth vx vy vz Nat.leb]; f_equal; field
       |unfold collides_boundary, zero3, cube10; cbn [nth vx vy vz]; rewrite !rltb_f by lra; reflexivity|exact T2|exact T2|exact T2|cbn; lia|intros o []].
    cbn [obind].
    rewrite (place_one_accept SDogbone zero3 cube10 0 0 10 u (fun i => nth i [1; 1] 0) 1 boxes5 (set_pos (fun _ => zero3) 0 (V3 5 5 5)) _ 1 3 0 (V3 1 1 1) 0 0 0).
    - cbn [obind]. reflexivity.
    - unfold zero3, cube10, random_coordinate, u; cbn [nth vx vy vz Nat.leb]. f_equal; ring.
    - unfold collides_boundary, zero3, cube10. cbn [nth vx vy vz]. rewrite !rltb_f by lra. reflexivity.
    - exact T0.
    - exact T0.
    - exact T0.
    - unfold sb_index, sb_count, boxes5. cbn [sb_n]. lia.
    - intros o Ho. apply insert_particle_In in Ho. destruct Ho as [[]|(-> & Ho)]. exfalso.
      unfold covered, boxes5 in Ho. cbn [sb_n sb_l nth zero3 vx vy vz] in Ho. unfold index_range in Ho.
      replace (trunc ((5 - 1 - 0) / (10 / 5))) with 2%Z in Ho by (symmetry; apply trunc_is; [lia|lra]).
      replace (trunc ((5 + 1 - 0) / (10 / 5))) with 3%Z in Ho by (symmetry; apply trunc_is; [lia|lra]).
      unfold sb_index in Ho. cbn [sb_n] in Ho.
      change (zrange (Z.max (2 - 1) 0) (Z.min (3 + 1) (5 - 1))) with [1; 2; 3; 4]%Z in Ho.
      cbn [flat_map map List.app In] in Ho. lia.
  Qed.
End Dogbone.
Export Dogbone.

(** ** C109: the corners of the boundary that a cell gets.  [edge_index] is the side of the boundary a point lies on, -1 if none (C104). *)
Module Cut.
  Import DelaunayModel PolygonModel VoronoiCellModel.
  (** the consecutive corners [i] and [i + 1] of the cell lie on different sides of the boundary *)
  Definition on_different_sides (boundary ps : list p2) (i : nat) (a b : p2) : Prop :=
    nth_error ps i = Some a /\ nth_error ps ((i + 1) mod length ps) = Some b /\
    edge_index boundary a <> (-1)%Z /\ edge_index boundary b <> (-1)%Z /\ edge_index boundary a <> edge_index boundary b.
  Definition boundary_corners (boundary ps : list p2) : list p2 := filter (fun p => negb (Z.eqb (edge_index boundary p) (-1))) ps.

  Lemma loop_skip boundary ip ps todo : (forall i, In i todo -> (i < length ps)%nat /\ forall a b, ~ on_different_sides boundary ps i a b) ->
    forall rest, boundary_loop boundary ip (length ps) (todo ++ rest) ps = boundary_loop boundary ip (length ps) rest ps.
  Proof.
    induction todo as [|i todo IH]; intros H rest; [reflexivity|]. cbn [List.app boundary_loop].
    destruct (H i (or_introl eq_refl)) as (Hi & Hd).
    destruct (nth_error ps i) as [a|] eqn:Ea; [|apply nth_error_None in Ea; lia].
    assert (Hj : ((i + 1) mod length ps < length ps)%nat) by (apply Nat.mod_upper_bound; lia).
    destruct (nth_error ps ((i + 1) mod length ps)) as [b|] eqn:Eb; [|apply nth_error_None in Eb; lia]. cbv zeta.
    specialize (IH (fun j Hj' => H j (or_intror Hj')) rest).
    destruct (Z.eqb_spec (edge_index boundary a) (-1)); [exact IH|]. destruct (Z.eqb_spec (edge_index boundary b) (-1)); [exact IH|].
    destruct (Z.eqb_spec (edge_index boundary a) (edge_index boundary b)); [exact IH|]. exfalso. apply (Hd a b). repeat split; assumption.
  Qed.
  (** A cell without consecutive corners on different sides of the boundary is left as it is.  If it has two corners on the boundary,
      these are consecutive and on different sides with the common corner [c], and the cell with [c] contains the point, then [c] is
      added and nothing else. *)
  Theorem C109_cut_partial : forall boundary ip ps,
    ((forall i a b, ~ on_different_sides boundary ps i a b) -> add_intersection boundary ip ps = Ok ps) /\
    (forall i a b A B C D c, length (boundary_corners boundary ps) = 2%nat ->
       on_different_sides boundary ps i a b -> (forall j a' b', (j < i)%nat -> ~ on_different_sides boundary ps j a' b') ->
       (0 <= edge_index boundary a)%Z -> nth_error (cyclic_edges boundary) (Z.to_nat (edge_index boundary a)) = Some (A, B) ->
       (0 <= edge_index boundary b)%Z -> nth_error (cyclic_edges boundary) (Z.to_nat (edge_index boundary b)) = Some (C, D) ->
       (c = A \/ c = B) -> (c = C \/ c = D) -> (forall x, x = A \/ x = B -> x = C \/ x = D -> x = c) ->
       point_is_inside (polygon_points (ps ++ [c])) ip = true ->
       add_intersection boundary ip ps = Ok (polygon_points (ps ++ [c]))).
  Proof.
    intros boundary ip ps. split.
    - intros H. unfold add_intersection. destruct (Nat.eqb _ 2); [|reflexivity].
      rewrite <- (app_nil_r (seq 0 (length ps))). rewrite loop_skip; [reflexivity|]. intros i Hi. apply in_seq in Hi. split; [lia|]. intros a b. apply H.
    - intros i a b A B C D c H2 Hd Hf Ha HA Hb HC c1 c2 Hc Hin. unfold add_intersection. fold (boundary_corners boundary ps). rewrite H2, Nat.eqb_refl.
      assert (Hi : (i < length ps)%nat) by (destruct Hd as (Hd & _); apply nth_error_Some; rewrite Hd; discriminate).
      replace (seq 0 (length ps)) with (seq 0 i ++ i :: seq (S i) (length ps - S i)).
      2:{ replace (length ps) with (i + S (length ps - S i))%nat at 2 by lia. rewrite seq_app. reflexivity. }
      rewrite loop_skip by (intros j Hj; apply in_seq in Hj; split; [lia|]; intros a' b'; apply Hf; lia).
      cbn [boundary_loop]. destruct Hd as (E1 & E2 & N1 & N2 & N3). rewrite E1, E2. cbv zeta.
      rewrite (proj2 (Z.eqb_neq _ _) N1), (proj2 (Z.eqb_neq _ _) N2), (proj2 (Z.eqb_neq _ _) N3). cbn [orb].
      unfold point_on_both. rewrite (proj2 (Z.ltb_ge _ _) Ha), (proj2 (Z.ltb_ge _ _) Hb). cbn [orb]. rewrite HA, HC. cbn [fst snd].
      assert (EC : forall x, edge_contains (C, D) x = true <-> x = C \/ x = D).
      { intros x. rewrite VoronoiCellProofs.edge_contains_spec. cbn [fst snd]. split; intros [<-|<-]; auto. }
      destruct (edge_contains (C, D) A) eqn:EA.
      + apply EC in EA. assert (A = c) by (apply Hc; [left; reflexivity|exact EA]). subst A. cbn [obind]. rewrite Hin. reflexivity.
      + destruct (edge_contains (C, D) B) eqn:EB.
        * apply EC in EB. assert (B = c) by (apply Hc; [right; reflexivity|exact EB]). subst B. cbn [obind]. rewrite Hin. reflexivity.
        * exfalso. apply EC in c2. destruct c1 as [-> | ->]; congruence.
  Qed.
  Print Assumptions C109_cut_partial.

  (** the cell of the origin in the upper left part of a big square gets the corner (-1, 1) *)
  Import CollisionModel PropVoronoiCell.
  Definition big : list p2 := [(- (1), 1); (- (1), -9); (9, -9); (9, 1)].
  Lemma big_index p : edge_index big p =
    if rltb (Rabs (fst p - - (1))) (/ 100000000) then 0%Z else if rltb (Rabs (snd p - -9)) (/ 100000000) then 1%Z
    else if rltb (Rabs (fst p - 9)) (/ 100000000) then 2%Z else if rltb (Rabs (snd p - 1)) (/ 100000000) then 3%Z else (-1)%Z.
  Proof.
    unfold edge_index, big. cbn [cyclic_edges combine app edge_index_from].
    rewrite (distance_vertical (- (1)) 1 (-9)), (distance_horizontal (- (1)) 9 (-9)), (distance_vertical 9 (-9) 1), (distance_horizontal 9 (- (1)) 1) by lra. cbn [param_test].
    repeat match goal with |- context [rltb ?a ?b] => destruct (rltb a b); [reflexivity|] end. reflexivity.
  Qed.
  Example C109_cut_case : add_intersection big (0, 0) [(- (1), - (1)); (1, - (1)); (1, 1)] = Ok (sorted_square 1).
  Proof.
    assert (I1 : edge_index big (- (1), - (1)) = 0%Z) by (rewrite big_index; cbn [fst snd]; rabs; reflexivity).
    assert (I2 : edge_index big (1, - (1)) = (-1)%Z) by (rewrite big_index; cbn [fst snd]; rabs; reflexivity).
    assert (I3 : edge_index big (1, 1) = 3%Z) by (rewrite big_index; cbn [fst snd]; rabs; reflexivity).
    rewrite <- (square_points 1) by lra.
    apply (proj2 (C109_cut_partial big (0, 0) [(- (1), - (1)); (1, - (1)); (1, 1)]) 2%nat (1, 1) (- (1), - (1)) (9, 1) (- (1), 1) (- (1), 1) (- (1), -9) (- (1), 1)).
    - unfold boundary_corners. cbn [filter]. rewrite I1, I2, I3. reflexivity.
    - unfold on_different_sides. rewrite I1, I3. repeat split; discriminate.
    - intros j a b Hj (H1 & H2 & N1 & N2 & _). destruct j as [|[|j]]; [| |lia]; cbn in H1, H2; injection H1 as <-; injection H2 as <-; [apply N2, I2|apply N1, I2].
    - rewrite I3. lia.
    - rewrite I3. reflexivity.
    - rewrite I1. lia.
    - rewrite I1. reflexivity.
    - right. reflexivity.
    - left. reflexivity.
    - intros x [-> | ->] [E|E]; try reflexivity; injection E; intros; exfalso; lra.
    - change (point_is_inside (polygon_points (square 1)) (0, 0) = true). rewrite square_points by lra. apply square_inside; cbn [fst snd]; lra.
  Qed.
End Cut.
Export Cut.
