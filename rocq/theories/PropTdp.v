(** C83: renumbering and evaluating a time dependent problem.  C84: ids of stored cells. *)
From Coq Require Import List ZArith Arith Bool Lia Lra Reals.
From Verif Require Import Outcome GroupModel GroupSpec GroupProofs DofModel DofSpec DofProofs ConstraintModel ConstraintSpec ConstraintProofs Algebra
  MergerModel MergerSpec MergerProofs AssemblerModel AssemblerSpec AssemblerProofs TdpModel TdpSpec TdpProofs.
Import ListNotations.

(** * C83 *)
(** The node values survive RenumberDofs: whatever the old numbering, the constraints and the rest of the state, each
    component of each node has in the returned vector, at its new number, and at the node the value it had before; the
    new numbers of a dof type are 0 .. N-1, each used once; nothing else changes. *)
Theorem C83_renumber_keeps_values : forall mesh c dofTypes old garbage s,
  merger_state mesh (t_memo s) -> ascending old -> NoDup dofTypes ->
  (forall d d' a, In d dofTypes -> In d' dofTypes -> in_mesh mesh d a -> in_mesh mesh d' a -> d = d') ->
  (forall d a, In d dofTypes -> in_mesh mesh d a -> node_complete (t_nodes s) (t_values s) a) ->
  (forall d, In d dofTypes -> old_fits mesh (t_nodes s) old d) ->
  (forall d k, In d dofTypes -> mentions c d k -> in_mesh mesh d (fst k)) ->
  exists s' new size, renumber_dofs mesh c dofTypes old garbage s = Ok (s', new) /\
    (forall d, In d dofTypes -> renumbered mesh old (t_nodes s) (t_values s) d (t_nodes s') (t_values s') new (size d)) /\
    sizes_known (t_info s') dofTypes size /\ vector_fits mesh (t_nodes s') (t_values s') 0 dofTypes size /\
    (forall a, ~ (exists d, In d dofTypes /\ in_mesh mesh d a) -> t_nodes s' a = t_nodes s a /\ forall i j, component (t_values s') j a i = component (t_values s) j a i) /\
    (forall a i j, j <> 0 -> component (t_values s') j a i = component (t_values s) j a i) /\
    memo_current mesh (t_memo s').
Proof.
  intros mesh c dofTypes old garbage s Hm Ho Hnd Hsep Hc Hf Hk.
  destruct (renumber_loop_spec mesh c old garbage Ho dofTypes (mkTdp (t_memo s) (t_nodes s) (t_values s) (mkInfo [] [])) [] Hnd Hsep)
    as (s' & new & E & Hm' & _ & _ & F & R).
  - cbn [t_memo]. apply merger_state_current. exact Hm.
  - constructor.
  - split; constructor.
  - intros d Hd. cbn [t_nodes t_values]. split; [intros a; apply Hc; exact Hd|]. split; [apply Hf; exact Hd|]. intros k. apply Hk. exact Hd.
  - cbn [t_nodes t_values] in *.
    assert (C: exists size, forall d, In d dofTypes -> sizes_at (t_info s') d (size d) /\ renumbered mesh old (t_nodes s) (t_values s) d (t_nodes s') (t_values s') new (size d)).
    { exists (fun d => match @size_of R_cring new d with Some N => N | None => 0 end). intros d Hd. destruct (R d Hd) as (N & S & RR).
      pose proof RR as (E1 & _). rewrite E1. split; assumption. }
    destruct C as (size & C). exists s', new, size. split; [exact E|]. split; [intros d Hd; apply C; exact Hd|].
    assert (NC: forall d a, In d dofTypes -> in_mesh mesh d a -> node_complete (t_nodes s') (t_values s') a).
    { intros d a Hd Ha. apply (node_complete_frame _ _ _ _ _ _ _ F). cbn [t_nodes t_values]. apply (Hc d a Hd Ha). }
    destruct F as (F1 & F2 & F3 & F4 & F5 & F6). cbn [t_nodes t_values] in *.
    split; [|split; [|split; [|split]]].
    + intros d Hd. destruct (C d Hd) as ((x & y & Ex & Ey & Es) & _). exists x, y. rewrite Es. repeat split; auto; [lia|]. rewrite Nat2Z.id. reflexivity.
    + split; [exact Hnd|]. split; [|exact Hsep]. intros d a Hd Ha. pose proof (NC d a Hd Ha) as N1.
      split; [exact N1|]. split; [apply num_values_complete; exact N1|]. intros i Hi. rewrite F1 in Hi.
      destruct (C d Hd) as (_ & _ & R2 & _). destruct (R2 a i Ha Hi) as (n & x & Hn & Hlt & _). exists n. split; assumption.
    + intros a Ha. split; [apply F2; exact Ha|]. intros i j. apply F4. right. exact Ha.
    + intros a i j Hj. apply F4. left. exact Hj.
    + exact Hm'.
Qed.
Print Assumptions C83_renumber_keeps_values.

(** Gradient puts the given values at the nodes and returns, for every schedule of the assembler's threads, the sum over
    all gradient functions and their cells, evaluated at those values, at the given time and time step *)
Theorem C83_gradient : forall mesh threads fs s values dofs t dt size,
  memo_current mesh (t_memo s) -> 0 < threads -> sizes_known (t_info s) dofs size ->
  vector_fits mesh (t_nodes s) (t_values s) 0 dofs size -> (forall d, In d dofs -> @size_of R_cring values d = Some (size d)) ->
  (forall f v, In f fs -> Forall (vcell_fits dofs size) (f t dt v (t_nodes s))) ->
  exists v', 
    (forall d a i n, In d dofs -> in_mesh mesh d a -> numbered_as (t_nodes s) a i n -> component v' 0 a i = Some (@val R_cring values d n)) /\
    (forall a i j, j <> 0 \/ ~ (exists d, In d dofs /\ in_mesh mesh d a) -> component v' j a i = component (t_values s) j a i) /\
    (exists r, tdp_gradient mesh threads fs s values dofs t dt r) /\
    forall r, tdp_gradient mesh threads fs s values dofs t dt r ->
      exists m' g, r = Ok (mkTdp m' (t_nodes s) v' (t_info s), g) /\ memo_current mesh m' /\
        (fs <> [] -> forall d, In d dofs -> @size_of R_cring g d = Some (size d)) /\
        (forall d n, In d dofs -> @val R_cring g d n = sum_over fs (fun f => sum_over (f t dt v' (t_nodes s)) (fun c => vcell_contrib c d n))).
Proof.
  intros mesh threads fs s values dofs t dt size Hm Hth Hsz Hfit Hval Hcells.
  destruct (merge_lemma mesh (t_nodes s) values 0 size dofs (t_memo s) (t_values s) Hm Hfit Hval) as (m' & v' & E & Hm' & _ & _ & V1 & V2).
  destruct (gradient_loop_spec (t_info s) threads dofs t dt v' (t_nodes s) size (proj1 Hfit) Hth Hsz fs []) as ((g & Hg) & Hall).
  - split; [constructor|]. intros d. left. reflexivity.
  - intros f Hf. apply Hcells. exact Hf.
  - exists v'. split; [exact V1|]. split; [exact V2|]. split.
    + exists (omap (fun g => (mkTdp m' (t_nodes s) v' (t_info s), g)) (Ok g)). apply tg_merged; assumption.
    + intros r Hr. inversion Hr as [Em|Em|m v r' Em Hl]; try congruence. rewrite E in Em. injection Em as <- <-.
      destruct (Hall r' Hl) as (g' & -> & _ & G2 & G3). exists m', g'. split; [reflexivity|]. split; [exact Hm'|]. split; [exact G2|].
      intros d n Hd. rewrite (G3 d n Hd). apply Rplus_0_l.
Qed.
Print Assumptions C83_gradient.

(** RenumberDofs replaces the DofInfo of the assembler by that of the given dof types: afterwards no gradient of any other
    dof type returns, also if it was renumbered before *)
Theorem C83_other_types_refuted : forall mesh c dofTypes old garbage s s' new d,
  merger_state mesh (t_memo s) -> ascending old -> NoDup dofTypes ->
  (forall d d' a, In d dofTypes -> In d' dofTypes -> in_mesh mesh d a -> in_mesh mesh d' a -> d = d') ->
  (forall d a, In d dofTypes -> in_mesh mesh d a -> node_complete (t_nodes s) (t_values s) a) ->
  (forall d, In d dofTypes -> old_fits mesh (t_nodes s) old d) ->
  (forall d k, In d dofTypes -> mentions c d k -> in_mesh mesh d (fst k)) ->
  renumber_dofs mesh c dofTypes old garbage s = Ok (s', new) -> ~ In d dofTypes ->
  forall threads f fs values dofs t dt x, In d dofs -> ~ tdp_gradient mesh threads (f :: fs) s' values dofs t dt (Ok x).
Proof.
  intros mesh c dofTypes old garbage s s' new d Hm Ho Hnd Hsep Hc Hf Hk Er Hd threads f fs values dofs t dt x Hin Hg.
  destruct (renumber_loop_spec mesh c old garbage Ho dofTypes (mkTdp (t_memo s) (t_nodes s) (t_values s) (mkInfo [] [])) [] Hnd Hsep)
    as (s1 & new1 & E & _ & _ & _ & F & _).
  - cbn [t_memo]. apply merger_state_current. exact Hm.
  - constructor.
  - split; constructor.
  - intros d' Hd'. cbn [t_nodes t_values]. split; [intros a; apply Hc; exact Hd'|]. split; [apply Hf; exact Hd'|]. intros k. apply Hk. exact Hd'.
  - unfold renumber_dofs in Er. rewrite E in Er. injection Er as -> ->.
    destruct F as (_ & _ & _ & _ & _ & F6). destruct (F6 d Hd) as (N1 & _). cbn [t_info numIndependent mfind] in N1.
    inversion Hg as [| |m v r Em Hl Ex]. destruct r as [g| |]; try discriminate.
    assert (T: forall r, build_vector (t_info s') threads (f t dt v (t_nodes s')) dofs r <-> r = Throw) by (apply build_vector_throw_lemma with (d := d); assumption).
    inversion Hl as [| | | |? ? ? g0 acc' ? Hb]; subst. apply T in Hb. discriminate.
Qed.
Print Assumptions C83_other_types_refuted.

(** a truss of two elements 1-2-3 with one displacement per node; the old vector [5; 6; 7] is numbered backwards *)
Definition ex_mesh : list felement := [fun d => if Z.eqb d 0 then Some [1; 2]%Z else None; fun d => if Z.eqb d 0 then Some [2; 3]%Z else None].
Definition ex_state : tdp := mkTdp [] (fun a => if andb (Z.leb 1 a) (Z.leb a 3) then [3 - a]%Z else []) (fun a => if andb (Z.leb 1 a) (Z.leb a 3) then [[0%R]] else []) (mkInfo [] []).
Lemma ex_in_mesh d a : in_mesh ex_mesh d a -> d = 0%Z /\ (a = 1 \/ a = 2 \/ a = 3)%Z.
Proof.
  intros (e & l & [<-|[<-|[]]] & El & Hl); destruct (Z.eqb_spec d 0); try discriminate; injection El as <-; destruct Hl as [<-|[<-|[]]]; auto.
Qed.
Example C83_case : merger_state ex_mesh (t_memo ex_state) /\ NoDup [0%Z] /\
  (forall d a, In d [0%Z] -> in_mesh ex_mesh d a -> node_complete (t_nodes ex_state) (t_values ex_state) a) /\
  (forall d, In d [0%Z] -> old_fits ex_mesh (t_nodes ex_state) [(0%Z, [5; 6; 7]%R)] d) /\
  (forall d k, In d [0%Z] -> mentions cons_empty d k -> in_mesh ex_mesh d (fst k)) /\
  exists s', renumber_dofs ex_mesh cons_empty [0%Z] [(0%Z, [5; 6; 7]%R)] (fun _ _ => 9%R) ex_state = Ok (s', [(0%Z, [7; 6; 5]%R)]) /\
    t_nodes s' 1%Z = [0%Z] /\ t_nodes s' 3%Z = [2%Z].
Proof.
  split; [constructor|]. split; [repeat constructor; intros []|]. split; [|split; [|split]].
  - intros d a _ Ha. apply ex_in_mesh in Ha. destruct Ha as (_ & [->|[->| ->]]); eexists; split; reflexivity.
  - intros d [<-|[]]. unfold old_fits. cbn [mfind lt_dof]. intros a i Ha Hi. apply ex_in_mesh in Ha.
    destruct Ha as (_ & [->|[->| ->]]); destruct i as [|i]; try (cbn in Hi; lia); [exists 2|exists 1|exists 0]; (split; [reflexivity|cbn; lia]).
  - intros d k _ (e & He & _). destruct He.
  - eexists. split; [|]; [vm_compute; reflexivity|]. split; reflexivity.
Qed.

(** * C84 *)
(** the ids of the cells at the given addresses *)
Definition ids_of (cells : list scell) (g : list Z) : list (option Z) := map (fun a => option_map sc_id (nth_error cells (Z.to_nat a))) g.
Definition elements_of (cells : list scell) (g : list Z) : list (option Z) := map (fun a => option_map sc_element (nth_error cells (Z.to_nat a))) g.

Lemma nth_after {A} (l m : list A) i : nth_error (l ++ m) (length l + i) = nth_error m i.
Proof. rewrite nth_error_app2 by lia. f_equal. lia. Qed.
Lemma map_nth_seq {A B} (f : A -> B) (l : list A) : map (fun i => option_map f (nth_error l i)) (seq 0 (length l)) = map (fun x => Some (f x)) l.
Proof.
  induction l as [|x l IH]; [reflexivity|]. cbn [length seq map nth_error option_map]. f_equal. rewrite <- seq_shift, map_map. exact IH.
Qed.

(** AddCells returns one new cell per element, in the order of the elements, with the ids start, start + 1, ...; the cells
    stored before keep their ids and elements *)
Theorem C84_cell_ids : forall cells elements start, (start + Z.of_nat (length elements) <= INT_MAX)%Z ->
  exists cells' g, add_cells cells elements start = Ok (cells', g) /\
    ids_of cells' (mData g) = map (fun i => Some (start + Z.of_nat i)%Z) (seq 0 (length elements)) /\
    elements_of cells' (mData g) = map Some elements /\
    NoDup (mData g) /\ (forall i, i < length cells -> nth_error cells' i = nth_error cells i) /\
    length cells' = length cells + length elements.
Proof.
  intros cells es start Hmax. destruct (add_cells_loop_spec es start cells group_empty group_ok_empty) as (g & E & Hok & Hd).
  - intros a [].
  - exact Hmax.
  - set (new := map (fun p => mkScell (fst p) (start + Z.of_nat (snd p))) (combine es (seq 0 (length es)))) in *.
    assert (Ln: length new = length es) by (unfold new; rewrite map_length, combine_length, seq_length; lia).
    assert (G: forall B (f : scell -> B), map (fun a => option_map f (nth_error (cells ++ new) (Z.to_nat a))) (mData g) = map (fun x => Some (f x)) new).
    { intros B f. rewrite Hd. cbn [group_empty mData app]. rewrite map_map. rewrite <- map_nth_seq, Ln. apply map_ext. intros i. rewrite Nat2Z.id, nth_after. reflexivity. }
    exists (cells ++ new), g. split; [exact E|]. split; [|split; [|split; [|split]]].
    + unfold ids_of. rewrite G. unfold new. rewrite map_map. cbn [sc_id].
      transitivity (map (fun i => Some (start + Z.of_nat i)%Z) (map snd (combine es (seq 0 (length es))))); [rewrite map_map; reflexivity|].
      f_equal. clear. generalize 0. induction es as [|e es IH]; intros n; [reflexivity|]. cbn [length seq combine map snd]. f_equal. apply IH.
    + unfold elements_of. rewrite G. unfold new. rewrite map_map. cbn [sc_element].
      transitivity (map Some (map fst (combine es (seq 0 (length es))))); [rewrite map_map; reflexivity|].
      f_equal. clear. generalize 0. induction es as [|e es IH]; intros n; [reflexivity|]. cbn [length seq combine map fst]. f_equal. apply IH.
    + rewrite Hd. cbn [group_empty mData app]. apply FinFun.Injective_map_NoDup; [|apply seq_NoDup]. intros i j Hij. lia.
    + intros i Hi. apply nth_error_app1. exact Hi.
    + rewrite app_length, Ln. reflexivity.
Qed.
Print Assumptions C84_cell_ids.

(** cells of different calls share ids unless the caller passes start ids: with the default start 0 the first cells of two
    groups both have id 0, so they share the rows of a history (C42, C81) *)
Theorem C84_default_ids_refuted : forall e es e' es', (Z.of_nat (length (e :: es)) <= INT_MAX)%Z -> (Z.of_nat (length (e' :: es')) <= INT_MAX)%Z ->
  exists c1 g1 c2 g2, add_cells [] (e :: es) 0 = Ok (c1, g1) /\ add_cells c1 (e' :: es') 0 = Ok (c2, g2) /\
    exists a b, In a (mData g1) /\ In b (mData g2) /\ a <> b /\ ids_of c2 [a] = [Some 0%Z] /\ ids_of c2 [b] = [Some 0%Z].
Proof.
  intros e es e' es' H1 H2.
  destruct (C84_cell_ids [] (e :: es) 0 H1) as (c1 & g1 & E1 & I1 & _ & N1 & _ & L1).
  destruct (C84_cell_ids c1 (e' :: es') 0 H2) as (c2 & g2 & E2 & I2 & _ & _ & O2 & L2).
  exists c1, g1, c2, g2. split; [exact E1|]. split; [exact E2|].
  pose proof (add_cells_loop_spec (e :: es) 0 [] group_empty group_ok_empty) as (g1' & F1 & _ & D1); [intros a []|exact H1|].
  unfold add_cells in E1. rewrite F1 in E1. injection E1 as C1 <-. cbn [length seq map group_empty mData app Nat.add] in D1.
  assert (P2: forall a, In a (mData g2) -> (Z.of_nat (length c1) <= a)%Z).
  { pose proof (add_cells_loop_spec (e' :: es') 0 c1 group_empty group_ok_empty) as (g2' & F2 & _ & D2); [intros a []|exact H2|].
    unfold add_cells in E2. rewrite F2 in E2. injection E2 as _ <-. rewrite D2. cbn [group_empty mData app]. intros a Ha. apply in_map_iff in Ha. destruct Ha as (i & <- & _). lia. }
  rewrite D1 in *. cbn [ids_of map] in I1. destruct (mData g2) as [|b rest] eqn:G2; [discriminate|].
  exists 0%Z, b. split; [left; reflexivity|]. split; [left; reflexivity|].
  assert (Hb: (Z.of_nat (length c1) <= b)%Z) by (apply P2; left; reflexivity). cbn [length] in L1. 
  split; [lia|]. cbn [ids_of map] in *. split.
  - unfold ids_of. cbn [map]. rewrite O2 by lia. cbn [length seq map] in I1. injection I1 as I1 _. f_equal. exact I1.
  - unfold ids_of in I2. cbn [map length seq] in I2. injection I2 as I2 _. unfold ids_of. cbn [map]. f_equal. exact I2.
Qed.
Print Assumptions C84_default_ids_refuted.
Example C84_case : match add_cells [mkScell 9 4] [7; 8]%Z 20 with
  | Ok (c, g) => mData g = [1; 2]%Z /\ ids_of c (mData g) = [Some 20; Some 21]%Z | _ => False end.
Proof. split; reflexivity. Qed.
