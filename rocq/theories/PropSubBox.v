(** C62 sub-box grid, C63 cylindrical specimens, C68 specimen validation. *)
From Coq Require Import Reals ZArith List Bool Lia Lra.
From Verif Require Import Outcome AdaptiveModel AdaptiveProofs Vec3 CollisionModel CollisionProofs CollisionProofs2
  SubBoxModel SubBoxSpec SubBoxProofs SubBoxProofs2.
Import ListNotations.
Local Open Scope R_scope.

(** [gridok]: positive divisions and lengths; [in_grid]: the box indices; [glen]: the lengths of a box. *)

(** The boxes are numbered without gaps or repetition. *)
Theorem C62_box_numbers : forall g, gridok g ->
  (forall x y z, in_grid g x y z -> (0 <= box_index g x y z < num_boxes g)%Z) /\
  (forall x y z x' y' z', in_grid g x y z -> in_grid g x' y' z' ->
     box_index g x y z = box_index g x' y' z' -> x = x' /\ y = y' /\ z = z') /\
  (forall i, (0 <= i < num_boxes g)%Z -> exists x y z, in_grid g x y z /\ box_index g x y z = i).
Proof.
  intros g OK. split; [exact (box_index_range g)|]. split; [exact (box_index_inj g)|].
  intros i Hi. now apply box_index_surj.
Qed.
Print Assumptions C62_box_numbers.

(** The region in front of all six walls of a box is its cell, and the cells tile the bounding box:
    every point is in some cell, and the interior of a cell meets no other cell. *)
Theorem C62_tiling : forall nx ny nz org len, (0 < nx)%Z -> (0 < ny)%Z -> (0 < nz)%Z ->
  0 < vx len -> 0 < vy len -> 0 < vz len ->
  let g := new_grid nx ny nz org len in
  (forall x y z p, (forall w, In w (build_walls g x y z) -> in_front (bw_wall w) p) <->
                   cell3 in_cell org (glen g) p x y z) /\
  (forall p, vx org <= vx p <= vx org + vx len -> vy org <= vy p <= vy org + vy len ->
             vz org <= vz p <= vz org + vz len ->
             exists x y z, in_grid g x y z /\ cell3 in_cell org (glen g) p x y z) /\
  (forall p x y z x' y' z', cell3 inside_cell org (glen g) p x y z -> cell3 in_cell org (glen g) p x' y' z' ->
             x = x' /\ y = y' /\ z = z') /\
  (forall p x y z, in_grid g x y z -> cell3 in_cell org (glen g) p x y z ->
             vx org <= vx p <= vx org + vx len /\ vy org <= vy p <= vy org + vy len /\
             vz org <= vz p <= vz org + vz len).
Proof.
  intros nx ny nz org len Hx Hy Hz Lx Ly Lz g.
  pose proof (IZR_lt _ _ Hx) as Nx. pose proof (IZR_lt _ _ Hy) as Ny. pose proof (IZR_lt _ _ Hz) as Nz.
  assert (OK : gridok g) by (repeat split; trivial; apply Rdiv_lt_0_compat; trivial).
  assert (Ex : IZR nx * ghx g = vx len) by (subst g; cbn [new_grid ghx]; field; lra).
  assert (Ey : IZR ny * ghy g = vy len) by (subst g; cbn [new_grid ghy]; field; lra).
  assert (Ez : IZR nz * ghz g = vz len) by (subst g; cbn [new_grid ghz]; field; lra).
  destruct OK as (_ & _ & _ & H1 & H2 & H3).
  split; [|split; [|split]].
  - intros x y z p. apply region_lemma. unfold gridok; tauto.
  - intros p Px Py Pz.
    destruct (tile_exists_axis (vx org) (ghx g) nx (vx p) Hx H1 ltac:(lra)) as (x & Gx & Cx).
    destruct (tile_exists_axis (vy org) (ghy g) ny (vy p) Hy H2 ltac:(lra)) as (y & Gy & Cy).
    destruct (tile_exists_axis (vz org) (ghz g) nz (vz p) Hz H3 ltac:(lra)) as (z & Gz & Cz).
    exists x, y, z. split; [exact (conj Gx (conj Gy Gz)) | exact (conj Cx (conj Cy Cz))].
  - intros p x y z x' y' z' (A & B & C) (A' & B' & C').
    split; [exact (tile_unique_axis _ _ _ _ _ H1 A A')|].
    split; [exact (tile_unique_axis _ _ _ _ _ H2 B B') | exact (tile_unique_axis _ _ _ _ _ H3 C C')].
  - intros p x y z (Gx & Gy & Gz) ((A1 & A2) & (B1 & B2) & (C1 & C2)). cbn [glen vx vy vz] in *.
    change (gnx g) with nx in Gx. change (gny g) with ny in Gy. change (gnz g) with nz in Gz.
    destruct Gx as (Gx1 & Gx2), Gy as (Gy1 & Gy2), Gz as (Gz1 & Gz2).
    apply Zlt_le_succ, IZR_le in Gx2. apply Zlt_le_succ, IZR_le in Gy2. apply Zlt_le_succ, IZR_le in Gz2.
    rewrite succ_IZR in *. apply IZR_le in Gx1. apply IZR_le in Gy1. apply IZR_le in Gz1.
    assert (0 <= IZR x * ghx g) by (apply Rmult_le_pos; lra). assert (0 <= IZR y * ghy g) by (apply Rmult_le_pos; lra).
    assert (0 <= IZR z * ghz g) by (apply Rmult_le_pos; lra).
    assert ((IZR x + 1) * ghx g <= IZR nx * ghx g) by (apply Rmult_le_compat_r; lra).
    assert ((IZR y + 1) * ghy g <= IZR ny * ghy g) by (apply Rmult_le_compat_r; lra).
    assert ((IZR z + 1) * ghz g <= IZR nz * ghz g) by (apply Rmult_le_compat_r; lra). lra.
Qed.
Print Assumptions C62_tiling.

(** The wall towards a neighbouring box is virtual and links exactly the two boxes, a wall on the surface is
    physical.  [moved x y z k] is the box on the other side of wall [k]. *)
Theorem C62_wall_kinds : forall g x y z k, gridok g -> in_grid g x y z -> (k < 6)%nat ->
  let '(x', y', z') := moved x y z k in
  let w := build_wall g x y z k in
  bw_inside w = box_index g x y z /\
  (in_grid g x' y' z' -> bw_kind w = Virtual /\ bw_outside w = box_index g x' y' z') /\
  (~ in_grid g x' y' z' -> bw_kind w = Physical).
Proof. exact wall_kind_lemma. Qed.
Print Assumptions C62_wall_kinds.

(** Spheres inside the bounding box that do not touch its upper faces are registered exactly in the boxes which
    their bounding cubes meet ([meets]; boxes closed below, open above).  [b] holds the walls. *)
Theorem C62_registration_partial : forall g ss b, gridok g ->
  (forall s, In s ss -> 0 <= srad s /\ fits g s) -> (forall k, (0 <= k < num_boxes g)%Z -> b k <> []) ->
  exists b', add_spheres g ss b = Ok b' /\
    forall x y z j, in_grid g x y z ->
      (In j (b' (box_index g x y z)) <->
       In j (b (box_index g x y z)) \/ exists s, In s ss /\ sid s = j /\ meets g s x y z).
Proof.
  intros g ss b OK HS Hne. destruct (add_spheres_ok g ss b OK HS Hne) as (b' & E & _ & H). eauto.
Qed.
Print Assumptions C62_registration_partial.

Lemma cell_index_is : forall c o h k, 0 < h -> in_cell_ho o h c k -> cell_index c o h = k.
Proof.
  intros c o h k Hh (A & B). assert (k <= cell_index c o h)%Z by now apply cell_index_ge.
  assert (cell_index c o h < k + 1)%Z by (apply cell_index_lt; trivial; rewrite plus_IZR; lra). lia.
Qed.

(** A sphere inside the bounding box that touches the upper x face is refused; one that touches the upper y face is
    also registered in a box from which it is well separated. *)
Definition grid221 : grid := new_grid 2 2 1 (V3 0 0 0) (V3 2 2 2).
Definition touching_x : sphere := new_sphere 100 (V3 (7/4) (1/2) 1) (V3 0 0 0) (1/4) 0.
Definition touching_y : sphere := new_sphere 100 (V3 (1/2) (7/4) 1) (V3 0 0 0) (1/4) 0.
Definition walls_only : boxes := fun _ => [1; 2; 3; 4; 5; 6]%Z.

Lemma cells_of : forall s x0 x1 y0 y1 z0 z1, 
  in_cell_ho 0 1 (vx (spos s) + - srad s) x0 -> in_cell_ho 0 1 (vx (spos s) + srad s) x1 ->
  in_cell_ho 0 1 (vy (spos s) + - srad s) y0 -> in_cell_ho 0 1 (vy (spos s) + srad s) y1 ->
  in_cell_ho 0 2 (vz (spos s) + - srad s) z0 -> in_cell_ho 0 2 (vz (spos s) + srad s) z1 ->
  sphere_cells grid221 s =
  flat_map (fun x => flat_map (fun y => map (fun z => (x, y, z)) (zrange (start_index 1 z0 z1) (end_index z0 z1)))
    (zrange (start_index 2 y0 y1) (end_index y0 y1))) (zrange (start_index 2 x0 x1) (end_index x0 x1)).
Proof.
  intros s x0 x1 y0 y1 z0 z1 A B C D E F. unfold sphere_cells.
  change (gnx grid221) with 2%Z. change (gny grid221) with 2%Z. change (gnz grid221) with 1%Z.
  replace (ghx grid221) with 1 by (cbn [grid221 new_grid ghx vx]; field).
  replace (ghy grid221) with 1 by (cbn [grid221 new_grid ghy vy]; field).
  replace (ghz grid221) with 2 by (cbn [grid221 new_grid ghz vz]; field).
  change (vx (gorg grid221)) with 0. change (vy (gorg grid221)) with 0. change (vz (gorg grid221)) with 0.
  apply cell_index_is in A, B, C, D, E, F; try lra. rewrite A, B, C, D, E, F. reflexivity.
Qed.

Theorem C62_registration_refuted :
  (forall s, In s [touching_x; touching_y] -> forall p, in_cube (spos s) (srad s) p ->
     0 <= vx p <= 2 /\ 0 <= vy p <= 2 /\ 0 <= vz p <= 2) /\
  add_spheres grid221 [touching_x] walls_only = Throw /\
  exists b', add_spheres grid221 [touching_y] walls_only = Ok b' /\
    In 100%Z (b' (box_index grid221 1 0 0)) /\
    ~ exists p, in_cube (spos touching_y) (srad touching_y) p /\
                cell3 in_cell (gorg grid221) (glen grid221) p 1 0 0.
Proof.
  split; [|split].
  - intros s Hs p (A & B & C).
    assert (S : vx (spos s) - srad s >= 0 /\ vx (spos s) + srad s <= 2 /\ vy (spos s) - srad s >= 0 /\
                vy (spos s) + srad s <= 2 /\ vz (spos s) - srad s >= 0 /\ vz (spos s) + srad s <= 2).
    { destruct Hs as [<-|[<-|[]]]; cbn [touching_x touching_y new_sphere spos srad vx vy vz]; lra. }
    unfold Rabs in A, B, C. destruct (Rcase_abs (vx p - vx (spos s))), (Rcase_abs (vy p - vy (spos s))),
      (Rcase_abs (vz p - vz (spos s))); lra.
  - cbn [add_spheres]. rewrite (cells_of touching_x 1 2 0 0 0 0)
      by (unfold in_cell_ho; cbn [touching_x new_sphere spos srad vx vy vz]; lra). reflexivity.
  - cbn [add_spheres]. rewrite (cells_of touching_y 0 0 1 2 0 0)
      by (unfold in_cell_ho; cbn [touching_y new_sphere spos srad vx vy vz]; lra).
    eexists. split; [reflexivity|]. split.
    + vm_compute. auto 10.
    + intros (p & (A & _ & _) & ((B & _) & _ & _)).
      cbn [touching_y new_sphere spos srad vx grid221 new_grid gorg glen ghx] in *.
      unfold Rabs in A. destruct (Rcase_abs (vx p - 1/2)); lra.
Qed.
Print Assumptions C62_registration_refuted.

Example C62_example : gridok grid221 /\ in_grid grid221 1 1 0 /\
  fits grid221 (new_sphere 100 (V3 1 1 1) (V3 0 0 0) (1/4) 0) /\
  meets grid221 (new_sphere 100 (V3 1 1 1) (V3 0 0 0) (1/4) 0) 0 1 0.
Proof.
  split; [|split; [|split]].
  - repeat split; cbn [grid221 new_grid gnx gny gnz ghx ghy ghz vx vy vz]; try lia; lra.
  - repeat split; cbn [grid221 new_grid gnx gny gnz]; lia.
  - repeat split; cbn [grid221 new_grid gorg gnx gny gnz ghx ghy ghz vx vy vz new_sphere spos srad]; lra.
  - exists (V3 (3/4) 1 1). split; [|repeat split; cbn [grid221 new_grid gorg glen ghx ghy ghz vx vy vz]; lra].
    repeat split; cbn [new_sphere spos srad vx vy vz]; apply Rabs_le; lra.
Qed.

(** ** C63 *)
(** A box whose interior the lateral surface crosses carries a cylinder wall if the cylinder is divided equally, and
    at least twice, in both directions.  [D]: diameter. *)
Theorem C63_enclosed_partial : forall n nz org D H x y p, (2 <= n)%Z -> 0 < D ->
  let g := new_grid n n nz org (V3 D D H) in
  (0 <= x < n)%Z -> (0 <= y < n)%Z ->
  inside_cell (vx org) (ghx g) (vx p) x -> inside_cell (vy org) (ghy g) (vy p) y ->
  (vx p - (vx org + D / 2))² + (vy p - (vy org + D / 2))² = (D / 2)² ->
  gets_cylinder g (D / 2) x y = true.
Proof.
  intros n nz org D H x y p Hn HD g Hx Hy (A & B) (C & E) S.
  apply enclosed_lemma with n (vx p - (vx org + D / 2)) (vy p - (vy org + D / 2)); trivial; try lra.
  - subst g; cbn [new_grid ghx vx]. field. assert (2 <= IZR n) by (apply (IZR_le 2); lia). lra.
  - subst g; cbn [new_grid ghy vy]. field. assert (2 <= IZR n) by (apply (IZR_le 2); lia). lra.
Qed.
Print Assumptions C63_enclosed_partial.

(** The other walls of a cylindrical specimen: exactly the walls between boxes and the walls normal to the axis ([k] is 4 or 5) are kept,
    so top and bottom stay closed and the flat sides are gone. *)
Theorem C63_other_walls : forall g x y z k, gridok g -> in_grid g x y z -> (k < 6)%nat ->
  let '(x', y', z') := moved x y z k in
  In (build_wall g x y z k) (cylinder_walls g x y z) <-> in_grid g x' y' z' \/ k = 4%nat \/ k = 5%nat.
Proof.
  intros g x y z k G I Hk. pose proof (C62_wall_kinds g x y z k G I Hk) as W. destruct (moved x y z k) as [[x' y'] z'] eqn:M. cbv zeta in W. destruct W as (_ & W1 & W2).
  unfold cylinder_walls. rewrite filter_In. unfold stays.
  assert (Hin : In (build_wall g x y z k) (build_walls g x y z)) by (apply in_map, in_seq; lia).
  assert (Hd : vz (wdir (bw_wall (build_wall g x y z k))) = 0 <-> ~ (k = 4%nat \/ k = 5%nat)).
  { assert (N : wdir (bw_wall (build_wall g x y z k)) = (let '(dx, dy, dz) := neighbour k in V3 (IZR (- dx)) (IZR (- dy)) (IZR (- dz)))).
    { destruct (neighbour_cases k Hk) as [->|[->|[->|[->|[->| ->]]]]];
        cbn [build_wall neighbour bw_wall new_wall wdir]; apply normalize_of_unit; unfold dot; cbn [vx vy vz]; cbn [Z.opp]; ring. }
    rewrite N. destruct (neighbour_cases k Hk) as [->|[->|[->|[->|[->| ->]]]]]; cbn [neighbour vz Z.opp]; split; intros; try lia; try lra; exfalso; tauto. }
  assert (Dec : in_grid g x' y' z' \/ ~ in_grid g x' y' z') by (unfold in_grid; lia).
  destruct Dec as [D|D].
  - destruct (W1 D) as (-> & _). cbn [andb negb]. tauto.
  - rewrite (W2 D). cbn [andb]. destruct (reqb_spec (vz (wdir (bw_wall (build_wall g x y z k)))) 0) as [(E & E')|(E & E')]; rewrite E; cbn [negb].
    + apply Hd in E'. split; [intros (_ & F); discriminate|tauto].
    + split; [|tauto]. intros _. right. destruct (Nat.eq_dec k 4); [tauto|]. destruct (Nat.eq_dec k 5); [tauto|]. exfalso. apply E', Hd. tauto.
Qed.
Print Assumptions C63_other_walls.

(** With one division across the cylinder no box gets the cylinder wall, and only walls normal to the axis or
    between boxes are left: nothing encloses the particles. *)
Theorem C63_one_division_refuted : forall ny nz org D H, (0 < ny)%Z -> (0 < nz)%Z -> 0 < D -> 0 < H ->
  let g := new_grid 1 ny nz org (V3 D D H) in
  (forall y, gets_cylinder g (D / 2) 0 y = false) /\
  (forall y z, in_grid g 0 y z -> forall w, In w (cylinder_walls g 0 y z) ->
     bw_kind w = Virtual \/ vx (wdir (bw_wall w)) = 0 /\ vy (wdir (bw_wall w)) = 0).
Proof.
  intros ny nz org D H Hny Hnz HD HH g. split.
  - intro y. apply one_division_lemma; [lra|reflexivity|]. subst g; cbn [new_grid ghx vx]. field.
  - intros y z G w Hw. apply filter_In in Hw. destruct Hw as (Hw & S).
    unfold stays in S. destruct (bw_kind w); [|now left]. right.
    destruct (reqb_spec (vz (wdir (bw_wall w))) 0) as [(E & E')|(E & E')]; rewrite E in S; [discriminate|].
    unfold build_walls in Hw. cbn [seq map In] in Hw.
    assert (N : forall k, (k < 6)%nat -> wdir (bw_wall (build_wall g 0 y z k)) =
      (let '(dx, dy, dz) := neighbour k in V3 (IZR (- dx)) (IZR (- dy)) (IZR (- dz)))).
    { intros k Hk. destruct (neighbour_cases k Hk) as [->|[->|[->|[->|[->| ->]]]]];
        cbn [build_wall neighbour bw_wall new_wall wdir]; apply normalize_of_unit; unfold dot; cbn [vx vy vz];
        cbn [Z.opp]; ring. }
    destruct Hw as [<-|[<-|[<-|[<-|[<-|[<-|[]]]]]]]; rewrite N in E' |- * by lia; cbn [neighbour vx vy vz Z.opp] in E' |- *;
      try (exfalso; lra); split; reflexivity.
Qed.
Print Assumptions C63_one_division_refuted.

(** Unequal divisions: the surface crosses the box (35, 1) of a 36 x 3 division, which gets no cylinder wall. *)
Theorem C63_unequal_divisions_refuted :
  let g := new_grid 36 3 1 (V3 0 0 0) (V3 2 2 1) in
  exists p, inside_cell 0 (ghx g) (vx p) 35 /\ inside_cell 0 (ghy g) (vy p) 1 /\
    (vx p - 1)² + (vy p - 1)² = 1² /\ gets_cylinder g 1 35 1 = false.
Proof.
  intro g. exists (V3 (1 + 24 / 25) (1 + 7 / 25) 0). unfold inside_cell, Rsqr.
  replace (ghx g) with (1 / 18) by (subst g; cbn [new_grid ghx vx]; lra).
  replace (ghy g) with (2 / 3) by (subst g; cbn [new_grid ghy vy]; lra). cbn [vx vy].
  split; [lra|]. split; [lra|]. split; [lra|].
  destruct (gets_cylinder g 1 35 1) eqn:E; trivial. exfalso. apply gets_cylinder_spec in E.
  replace (ghx g) with (1 / 18) in E by (subst g; cbn [new_grid ghx vx]; lra).
  replace (ghy g) with (2 / 3) in E by (subst g; cbn [new_grid ghy vy]; lra).
  destruct E as ([E|[E|[E|E]]] & _); lra.
Qed.
Print Assumptions C63_unequal_divisions_refuted.

Example C63_example : (* a box of a 2 x 2 division, crossed by the surface at (1.6, 1.8) *)
  gets_cylinder (new_grid 2 2 1 (V3 0 0 0) (V3 2 2 1)) (2 / 2) 1 1 = true.
Proof.
  apply C63_enclosed_partial with (n := 2%Z) (nz := 1%Z) (org := V3 0 0 0) (H := 1) (p := V3 (8/5) (9/5) 0);
    unfold inside_cell, Rsqr; cbn [new_grid ghx ghy vx vy]; try lia; lra.
Qed.

(** ** C68 *)
(** A 3x2 matrix is accepted exactly if all lengths are positive; a matrix with both dimensions wrong is refused. *)
Theorem C68_constructor_partial : forall b t,
  (brows b = 3%nat -> bcols b = 2%nat ->
     ((forall i, (i < 3)%nat -> bat b i 0 < bat b i 1) ->
        new_specimen b t = Ok (mkSpecimen b t (V3 (bat b 0 1 - bat b 0 0) (bat b 1 1 - bat b 1 0) (bat b 2 1 - bat b 2 0)))) /\
     (~ (forall i, (i < 3)%nat -> bat b i 0 < bat b i 1) -> new_specimen b t = Throw)) /\
  (brows b <> 3%nat -> bcols b <> 2%nat -> new_specimen b t = Throw).
Proof.
  intros b t. split.
  - intros Er Ec. unfold new_specimen, check_bounding_box. rewrite Er, Ec. cbn [Nat.eqb negb andb].
    unfold calculate_length. rewrite !length_of_32 by (trivial; lia). split.
    + intro H. pose proof (H 0%nat ltac:(lia)). pose proof (H 1%nat ltac:(lia)). pose proof (H 2%nat ltac:(lia)).
      destruct (rleb_spec (bat b 0 1 - bat b 0 0) 0) as [(-> & Q)|(-> & Q)]; [lra|].
      destruct (rleb_spec (bat b 1 1 - bat b 1 0) 0) as [(-> & Q1)|(-> & Q1)]; [lra|].
      destruct (rleb_spec (bat b 2 1 - bat b 2 0) 0) as [(-> & Q2)|(-> & Q2)]; [lra|]. reflexivity.
    + intro H. destruct (rleb_spec (bat b 0 1 - bat b 0 0) 0) as [(-> & Q)|(-> & Q)]; [reflexivity|].
      destruct (rleb_spec (bat b 1 1 - bat b 1 0) 0) as [(-> & Q1)|(-> & Q1)]; [reflexivity|].
      destruct (rleb_spec (bat b 2 1 - bat b 2 0) 0) as [(-> & Q2)|(-> & Q2)]; [reflexivity|].
      exfalso. apply H. intros [|[|[|i]]] Hi; lia || lra.
  - intros Er Ec. unfold new_specimen, check_bounding_box.
    destruct (Nat.eqb_spec (brows b) 3); [contradiction|]. destruct (Nat.eqb_spec (bcols b) 2); [contradiction|]. reflexivity.
Qed.
Print Assumptions C68_constructor_partial.

(** Matrices with one wrong dimension are not refused: a 3x1 matrix and a 2x2 matrix are read out of bounds, a 4x5
    matrix throws but a 3x4 and a 7x2 matrix are accepted. *)
Definition wide (r c : nat) : bounds := mkBounds r c (fun _ j => INR j).
Theorem C68_constructor_refuted :
  new_specimen (wide 3 1) SBox = UB /\ new_specimen (wide 2 2) SBox = UB /\
  (exists s, new_specimen (wide 3 4) SBox = Ok s) /\ (exists s, new_specimen (wide 7 2) SBox = Ok s).
Proof.
  assert (L : forall r c i, (i < r)%nat -> (2 <= c)%nat -> length_of (wide r c) i = Ok 1).
  { intros r c i Hi Hc. unfold length_of, bread, wide. cbn [brows bcols bat].
    destruct (Nat.ltb_spec i r); [|lia]. destruct (Nat.ltb_spec 1 c); [|lia]. destruct (Nat.ltb_spec 0 c); [|lia].
    cbn [andb obind INR]. destruct (rleb_spec (1 - 0) 0) as [(-> & Q)|(-> & Q)]; [lra|]. f_equal. ring. }
  split; [reflexivity|]. split.
  - unfold new_specimen, calculate_length. rewrite !L by lia. reflexivity.
  - split; unfold new_specimen, calculate_length; rewrite !L by lia; eexists; reflexivity.
Qed.
Print Assumptions C68_constructor_refuted.

(** GetVolume of specimens of volume at least 1e-14 *)
Theorem C68_volume_partial : forall s,
  (stype s = SBox -> tenm 14 <= vx (slen s) * vy (slen s) * vz (slen s) ->
     specimen_volume s = Ok (vx (slen s) * vy (slen s) * vz (slen s))) /\
  (stype s = SCylinder -> vx (slen s) = vy (slen s) -> tenm 10 <= vx (slen s) ->
     tenm 14 <= PI * (vx (slen s) / 2)² * vz (slen s) ->
     specimen_volume s = Ok (PI * (vx (slen s) / 2)² * vz (slen s))) /\
  (stype s = SCylinder -> tenm 10 < Rabs (vx (slen s) - vy (slen s)) -> specimen_volume s = Throw) /\
  (stype s = SDogbone -> specimen_volume s = Throw).
Proof.
  intro s. unfold specimen_volume.
  split; [|split; [|split]]; intro E; rewrite E; cbv zeta.
  - intro H. destruct (rltb_spec (vx (slen s) * vy (slen s) * vz (slen s)) (tenm 14)) as [(-> & Q)|(-> & Q)]; [lra|reflexivity].
  - intros Exy HD HV. rewrite <- Exy. replace (vx (slen s) - vx (slen s)) with 0 by ring. rewrite Rabs_R0.
    pose proof (tenm_pos 10).
    destruct (rltb_spec (tenm 10) 0) as [(-> & Q)|(-> & Q)]; [lra|].
    destruct (rltb_spec (vx (slen s)) (tenm 10)) as [(-> & Q1)|(-> & Q1)]; [lra|].
    replace (PI * / 4 * vx (slen s) * vx (slen s) * vz (slen s)) with (PI * (vx (slen s) / 2)² * vz (slen s))
      by (unfold Rsqr; field).
    destruct (rltb_spec (PI * (vx (slen s) / 2)² * vz (slen s)) (tenm 14)) as [(-> & Q2)|(-> & Q2)]; [lra|reflexivity].
  - intro H. destruct (rltb_spec (tenm 10) (Rabs (vx (slen s) - vy (slen s)))) as [(-> & Q)|(-> & Q)]; [reflexivity|lra].
  - reflexivity.
Qed.
Print Assumptions C68_volume_partial.

(** A cube with edges of 1/100000 (0.01 mm in metres) is valid but has no volume. *)
Theorem C68_small_volume_refuted : exists b s, new_specimen b SBox = Ok s /\
  brows b = 3%nat /\ bcols b = 2%nat /\ (forall i, (i < 3)%nat -> bat b i 0 < bat b i 1) /\
  specimen_volume s = Throw.
Proof.
  exists (mkBounds 3 2 (fun _ j => match j with O => 0 | _ => tenm 5 end)).
  pose proof (tenm_pos 5).
  eexists. split; [apply C68_constructor_partial; trivial|].
  split; [reflexivity|]. split; [reflexivity|]. split; [trivial|].
  unfold specimen_volume. cbn [stype slen vx vy vz bat].
  destruct (rltb_spec ((tenm 5 - 0) * (tenm 5 - 0) * (tenm 5 - 0)) (tenm 14)) as [(-> & Q)|(-> & Q)]; [reflexivity|].
  exfalso. revert Q. replace ((tenm 5 - 0) * (tenm 5 - 0) * (tenm 5 - 0)) with (tenm 15).
  - unfold tenm. intro Q. assert (/ 10 ^ 15 < / 10 ^ 14); [|lra].
    apply Rinv_lt_contravar; [apply Rmult_lt_0_compat; apply pow_lt; lra|]. apply Rlt_pow; [lra|lia].
  - unfold tenm. rewrite !Rminus_0_r, <- !Rinv_mult. f_equal. rewrite <- !pow_add. reflexivity.
Qed.
Print Assumptions C68_small_volume_refuted.

Example C68_example : exists s, new_specimen (wide 3 2) SBox = Ok s /\ specimen_volume s = Ok 1.
Proof.
  eexists. split.
  - apply C68_constructor_partial; trivial. intros i _. cbn [wide bat INR]. lra.
  - destruct (C68_volume_partial (mkSpecimen (wide 3 2) SBox (V3 (1 - 0) (1 - 0) (1 - 0)))) as (H & _).
    cbn [stype slen vx vy vz] in H. cbn [wide bat INR]. rewrite H; trivial.
    + f_equal. ring.
    + replace ((1 - 0) * (1 - 0) * (1 - 0)) with 1 by ring. unfold tenm. rewrite <- Rinv_1.
      apply Rinv_le_contravar; [lra|]. apply pow_R1_Rle. lra.
Qed.
