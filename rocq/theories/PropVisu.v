(** * C89: the visualizer draws every cell and stores every value at its place *)
From Coq Require Import String List ZArith Arith Reals Bool Lia Lra.
From Verif Require Import RSum Outcome GridModel ShapeModel PropShape VisuModel VisuSpec VisuProofs.
Import ListNotations.
Local Open Scope Z_scope.

(** C89: the constructor draws the points and visualization cells of every cell *)
Theorem C89_geometry h objs : (forall o, In o objs -> supported h o) -> exists v, visualizer h objs = Ok v /\ geometry h objs (vi_grid v).
Proof.
  intros H. destruct (visualizer_ok h objs H) as (subs & E & Es). eexists. split; [exact E|]. apply ready_geometry. constructor; cbn [vi_grid vi_pids vi_sub]; auto.
Qed.
Print Assumptions C89_geometry.

Lemma run_ready h objs ops : forall v, (forall o, In o objs -> supported h o) -> (forall op, In op ops -> op_ok h objs op) -> ready h objs v ->
  exists v', visu_run h objs v ops = Ok v' /\ ready h objs v' /\
    forall k id name x, (forall op, In op ops -> target h op <> (k, name)) -> data k (vi_grid v) id name = Ok x -> data k (vi_grid v') id name = Ok x.
Proof.
  induction ops as [|op ops IH]; intros v Hs Ho R; cbn [visu_run]; [exists v; auto|].
  destruct (op_wrote h objs v op R Hs) as (v1 & l & E & R1 & W & _); [apply Ho; left; reflexivity|]. rewrite E. cbn [obind].
  destruct (IH v1 Hs) as (v2 & E2 & R2 & K); [intros; apply Ho; right; assumption|exact R1|]. exists v2. split; [exact E2|]. split; [exact R2|].
  intros k id name x Hn Hd. apply K; [intros; apply Hn; right; assumption|]. apply (w_old _ _ _ _ _ W); [|exact Hd].
  intros -> ->. exfalso. apply (Hn op (or_introl eq_refl)). apply surjective_pairing.
Qed.

(** C89: after any calls, every point and visualization cell has, under every name, the value of the last call with that
    name; the drawn geometry stays *)
Theorem C89_data h objs v ops : (forall o, In o objs -> supported h o) -> (forall op, In op ops -> op_ok h objs op) -> visualizer h objs = Ok v ->
  exists v', visu_run h objs v ops = Ok v' /\ geometry h objs (vi_grid v') /\
    forall before op after k name, ops = before ++ op :: after -> target h op = (k, name) -> (forall op', In op' after -> target h op' <> (k, name)) ->
    forall c o i, nth_error objs c = Some o -> (i < items h k o)%nat -> data k (vi_grid v') (item h k objs c i) name = Ok (stored h op c o i).
Proof.
  intros Hs Ho E. destruct (visualizer_ok h objs Hs) as (subs & E' & Es). rewrite E' in E. injection E as <-.
  assert (R : ready h objs (mkVisu (mkGrid (layout_points h objs) (layout_cells h 0 objs) [] []) (layout_pids h 0 objs) subs)) by (constructor; cbn [vi_grid vi_pids vi_sub]; auto).
  set (v := mkVisu _ _ subs) in *. destruct (run_ready h objs ops v Hs Ho R) as (v' & Ev & Rv & _). exists v'. split; [exact Ev|]. split; [apply ready_geometry; exact Rv|].
  intros before op after k name Eops Et Hn c o i Hc Hi. subst ops.
  destruct (run_ready h objs before v Hs) as (v1 & E1 & R1 & _); [intros; apply Ho; apply in_app_iff; auto|exact R|].
  destruct (op_wrote h objs v1 op R1 Hs) as (v2 & l & E2 & R2 & W & Hl); [apply Ho; apply in_app_iff; right; left; reflexivity|].
  destruct (run_ready h objs after v2 Hs) as (v3 & E3 & R3 & K); [intros; apply Ho; apply in_app_iff; right; right; assumption|exact R2|].
  assert (Erun : forall l1 l2 a, visu_run h objs a (l1 ++ l2) = obind (visu_run h objs a l1) (fun b => visu_run h objs b l2)).
  { induction l1 as [|p l1 IH]; intros l2 a; cbn [visu_run app obind]; [reflexivity|]. destruct (visu_op h objs a p); cbn [obind]; auto. }
  rewrite Erun, E1 in Ev. cbn [obind visu_run] in Ev. rewrite E2 in Ev. cbn [obind] in Ev. rewrite E3 in Ev. injection Ev as <-.
  apply K; [exact Hn|]. rewrite Et in W, Hl. cbn [fst snd] in W, Hl. apply (w_new _ _ _ _ _ W). apply Hl; assumption.
Qed.
Print Assumptions C89_data.

(** C89: no two cells share a point or a visualization cell *)
Theorem C89_separate h k objs c o i c' o' i' : nth_error objs c = Some o -> nth_error objs c' = Some o' -> (i < items h k o)%nat -> (i' < items h k o')%nat ->
  item h k objs c i = item h k objs c' i' -> c = c' /\ i = i'.
Proof. unfold item. apply first_inj. Qed.
Print Assumptions C89_separate.

(** finding: the averaging handler has no geometry for hexahedra and pyramids, no Visualizer can be constructed *)
Theorem C89_brick_refuted : forall o, v_shape o = SHexahedron \/ v_shape o = SPyramid -> visualizer HAverage [o] = Throw.
Proof. intros o [H|H]; unfold visualizer; cbn [write_all_geometry write_geometry]; rewrite H; reflexivity. Qed.
Print Assumptions C89_brick_refuted.

(** finding: the averaging handler reads the first value of a cell without integration points *)
Theorem C89_empty_refuted : exists o v, supported HAverage o /\ visualizer HAverage [o] = Ok v /\ visu_run HAverage [o] v [VCell "stress" (fun _ => [])] = UB.
Proof.
  exists (mkObj SLine (fun x => x)). eexists. split; [|split; [reflexivity|reflexivity]]. split; [split; discriminate|]. intros x [<-|[<-|[]]]; cbn; lia.
Qed.
Print Assumptions C89_empty_refuted.

(** finding: nothing relates the number of integration points of a cell to the cells of the Voronoi handler but an assert *)
Theorem C89_mismatch_refuted : exists h o v, supported h o /\ visualizer h [o] = Ok v /\ visu_run h [o] v [VCell "stress" (fun _ => [[1%R]; [2%R]])] = UB.
Proof.
  exists (HVoronoi [[-1]; [1]]%R [([0; 1], 3)]), (mkObj SLine (fun x => x)). eexists. split; [|split; [reflexivity|reflexivity]]. split.
  - intros ids t i [E|[]] Hi. injection E as <- <-. cbn in Hi. cbn. lia.
  - intros x [<-|[<-|[]]]; cbn; lia.
Qed.
Print Assumptions C89_mismatch_refuted.

(** two line elements, values averaged over two integration points *)
Example C89_example : let objs := [mkObj SLine (fun x => x); mkObj SLine (map (fun t => t + 2)%R)] in
  exists v v', visualizer HAverage objs = Ok v /\ visu_run HAverage objs v [VCell "s" (fun c => match c with O => [[1%R]; [3%R]] | _ => [[5%R]; [6%R]] end); VPoint "x" (fun x => x)] = Ok v' /\
    cell_data (vi_grid v') 1 "s" = Ok [(11 / 2)%R] /\ point_data (vi_grid v') 3 "x" = Ok [3%R].
Proof.
  intros objs. assert (Hs : forall o, In o objs -> supported HAverage o).
  { intros o [<-|[<-|[]]]; (split; [split; discriminate|]); intros x [<-|[<-|[]]]; cbn; lia. }
  destruct (C89_geometry HAverage objs Hs) as (v & E & _). exists v.
  destruct (C89_data HAverage objs v [VCell "s" (fun c => match c with O => [[1%R]; [3%R]] | _ => [[5%R]; [6%R]] end); VPoint "x" (fun x => x)] Hs) as (v' & E' & _ & D); [|exact E|].
  { intros op [<-|[<-|[]]] c o Hc; cbn [op_ok]; auto. exists 1%nat. destruct c; (split; [discriminate|]); intros w [<-|[<-|[]]]; reflexivity. }
  exists v'. split; [exact E|]. split; [exact E'|]. split.
  - pose proof (D [] _ [VPoint "x" (fun x => x)] true "s"%string eq_refl eq_refl ltac:(intros op [<-|[]]; discriminate) 1%nat _ 0%nat eq_refl ltac:(cbn; lia)) as X.
    change (cell_data (vi_grid v') 1 "s" = Ok (mean [[5%R]; [6%R]])) in X. rewrite X. unfold mean. cbn. apply (f_equal (fun t => Ok [t])). lra.
  - pose proof (D [VCell "s" (fun c => match c with O => [[1%R]; [3%R]] | _ => [[5%R]; [6%R]] end)] _ [] false "x"%string eq_refl eq_refl ltac:(intros op []) 1%nat _ 1%nat eq_refl ltac:(cbn; lia)) as X.
    change (point_data (vi_grid v') 3 "x" = Ok [(1 + 2)%R]) in X. rewrite X. apply (f_equal (fun t => Ok [t])). lra.
Qed.
