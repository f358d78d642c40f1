(** * Proofs for C51, continued: node order and creation of the mesh *)
From Coq Require Import String Ascii List ZArith Arith Reals Lra Lia.
From Verif Require Import Outcome AdaptiveModel AdaptiveProofs CellModel InterpolationModel LobattoModel GroupModel GroupProofs
  GmshModel GmshSpec GmshProofs.
Import ListNotations.
Local Open Scope R_scope.

(** ** Node order *)
Lemma list_eq {A} (x y : A) l m : x = y -> l = m -> x :: l = y :: m.
Proof. congruence. Qed.
Ltac coords := repeat (first [reflexivity | apply list_eq]); try lra; try field.

Lemma supported_cases (P : Z -> Prop) : P 1%Z -> P 2%Z -> P 3%Z -> P 4%Z -> P 5%Z -> P 6%Z -> P 7%Z -> P 8%Z -> P 9%Z -> P 10%Z ->
  P 11%Z -> P 12%Z -> P 13%Z -> P 16%Z -> forall t, In t supported -> P t.
Proof. intros. simpl in H13. repeat (destruct H13 as [<- |H13]; [assumption|]). contradiction. Qed.

(** the reordering is a permutation of the node numbers, and the interpolation has the nodes of gmsh in this order *)
Lemma node_order t : In t supported -> t <> 7%Z -> exists ip, element_interpolation t = Ok ip
  /\ num_nodes t = Ok (count (gmsh_nodes t)) /\ length (e_nodes ip) = length (gmsh_nodes t)
  /\ length (reordering t (length (gmsh_nodes t))) = length (gmsh_nodes t)
  /\ (forall q, In q (reordering t (length (gmsh_nodes t))) <-> (q < length (gmsh_nodes t))%nat)
  /\ e_nodes ip = map (fun q => nth q (gmsh_nodes t) []) (reordering t (length (gmsh_nodes t))).
Proof.
  intros H. pattern t. revert t H. apply supported_cases; intros Hne; try contradiction;
    (eexists; split; [reflexivity|]; split; [reflexivity|]; split; [reflexivity|]; split; [reflexivity|]; split;
     [intros q; cbn; split; [intros; repeat (destruct H as [<- |H]; [lia|]); contradiction|
        intros; do 27 (destruct q as [|q]; [lia|]); lia]
     |cbn; unfold mid, quad_coords, brick_coords, lobatto2; cbn; coords]).
Qed.

(** ** Nodes *)
Lemma node_map_gen nodes : forall i m, let r := fold_left (fun '(i, m) n => ((i + 1)%Z, fun id => if Z.eqb id (gn_id n) then Some i else m id)) nodes (i, m) in
  NoDup (map gn_id nodes) ->
  forall id, (forall j n, nth_error nodes j = Some n -> gn_id n = id -> snd r id = Some (i + Z.of_nat j)%Z)
    /\ ((forall n, In n nodes -> gn_id n <> id) -> snd r id = m id).
Proof.
  induction nodes as [|n0 nodes IH]; intros i m r Hnd id.
  - split; [intros j n H; destruct j; discriminate|reflexivity].
  - inversion Hnd as [|? ? Hn0 Hnd']; subst. unfold r. cbn [fold_left].
    destruct (IH (i + 1)%Z (fun id => if Z.eqb id (gn_id n0) then Some i else m id) Hnd' id) as (H1 & H2). split.
    + intros [|j] n Hj Hid.
      * injection Hj as <-. rewrite H2.
        { rewrite <- Hid, Z.eqb_refl. f_equal. lia. }
        intros n Hin E. apply Hn0. rewrite Hid, <- E. apply in_map. exact Hin.
      * rewrite (H1 j n Hj Hid). f_equal. lia.
    + intros Hne. rewrite H2 by (intros n Hin; apply Hne; right; exact Hin).
      destruct (Z.eqb_spec id (gn_id n0)) as [E|E]; [exfalso; apply (Hne n0 (or_introl eq_refl)); auto|reflexivity].
Qed.

Lemma node_map_spec nodes : NoDup (map gn_id nodes) -> forall j n, nth_error nodes j = Some n -> node_map nodes (gn_id n) = Some (Z.of_nat j).
Proof. intros H j n Hj. destruct (node_map_gen nodes 0%Z (fun _ => None) H (gn_id n)) as (H1 & _). exact (H1 j n Hj eq_refl). Qed.

Lemma lookup_nodes_spec ptrs ids : (forall id, In id ids -> exists a, ptrs id = Some a) ->
  exists old, lookup_nodes ptrs ids = Ok old /\ length old = length ids
    /\ forall k id, nth_error ids k = Some id -> ptrs id = nth_error old k.
Proof.
  induction ids as [|id ids IH]; intros H.
  - exists []. split; [reflexivity|]. split; [reflexivity|]. intros k id Hk. destruct k; discriminate.
  - destruct IH as (old & E & Hl & Hn); [intros; apply H; right; assumption|].
    destruct (H id (or_introl eq_refl)) as (a & Ha). exists (a :: old). unfold lookup_nodes in *. cbn [fold_right]. rewrite Ha, E.
    split; [reflexivity|]. split; [cbn; lia|]. intros [|k] id' Hk; [injection Hk as <-; exact Ha|exact (Hn k id' Hk)].
Qed.

Lemma gather_spec (old : list Z) l : (forall q, In q l -> (q < length old)%nat) ->
  exists ns, fold_right (fun i acc => match nth_error old i with Some a => obind acc (fun l => Ok (a :: l)) | None => UB end) (Ok []) l = Ok ns
    /\ length ns = length l /\ forall k a, nth_error ns k = Some a -> exists q, nth_error l k = Some q /\ nth_error old q = Some a.
Proof.
  induction l as [|q l IH]; intros Hin.
  - exists []. split; [reflexivity|]. split; [reflexivity|]. intros k a Hk. destruct k; discriminate.
  - destruct IH as (ns & E & Hl' & Hn); [intros q' Hq; apply Hin; right; exact Hq|].
    destruct (nth_error old q) as [a|] eqn:Ea.
    + exists (a :: ns). cbn [fold_right]. rewrite Ea, E. split; [reflexivity|]. split; [cbn; lia|].
      intros [|k] b Hk; [injection Hk as <-; exists q; auto|exact (Hn k b Hk)].
    + exfalso. apply nth_error_None in Ea. specialize (Hin q (or_introl eq_refl)). lia.
Qed.
Lemma reorder_spec t old : In t supported -> t <> 7%Z -> length old = length (gmsh_nodes t) ->
  exists nodes, reorder t old = Ok nodes /\ length nodes = length (gmsh_nodes t)
    /\ forall k a, nth_error nodes k = Some a -> exists q, nth_error (reordering t (length (gmsh_nodes t))) k = Some q /\ nth_error old q = Some a.
Proof.
  intros Ht Hne Hl. destruct (node_order t Ht Hne) as (ip & _ & _ & _ & Hlen & Hr & _). unfold reorder. rewrite Hl.
  destruct (gather_spec old (reordering t (length (gmsh_nodes t)))) as (ns & E & H1 & H2).
  { intros q Hq. rewrite Hl. apply Hr. exact Hq. }
  exists ns. split; [exact E|]. split; [congruence|exact H2].
Qed.

(** ** Elements and groups *)
Lemma deriv_length t ip : In t supported -> element_interpolation t = Ok ip -> length (e_deriv ip (fun _ => 0)) = length (e_nodes ip).
Proof. intros H. revert ip. pattern t. revert t H. apply supported_cases; intros ip E; injection E as <-; reflexivity. Qed.

Lemma nth_error_nth {A} (l : list A) d k a : nth_error l k = Some a -> nth k l d = a.
Proof. revert k. induction l as [|x l IH]; intros [|k] H; try discriminate; [injection H as <-; reflexivity|apply IH; exact H]. Qed.

Lemma element_nodes nodes e : NoDup (map gn_id nodes) -> In (ge_type e) supported -> ge_type e <> 7%Z -> node_count_ok e ->
  (forall id, In id (ge_nodes e) -> exists n, In n nodes /\ gn_id n = id) ->
  exists ip old ns, element_interpolation (ge_type e) = Ok ip /\ lookup_nodes (node_map nodes) (ge_nodes e) = Ok old
    /\ reorder (ge_type e) old = Ok ns /\ node_rel nodes e ip ns.
Proof.
  intros Hnd Ht Hne Hok Hids. destruct (node_order _ Ht Hne) as (ip & Eip & Enum & Hln & Hlr & Hr & Hmap).
  destruct (lookup_nodes_spec (node_map nodes) (ge_nodes e)) as (old & Eold & Hlo & Hold).
  { intros id Hid. destruct (Hids id Hid) as (n & Hin & <-). apply In_nth_error in Hin. destruct Hin as (i & Hi).
    exists (Z.of_nat i). apply node_map_spec; assumption. }
  assert (Hlen : length old = length (gmsh_nodes (ge_type e))).
  { unfold node_count_ok in Hok. destruct (Z.eqb_spec (ge_type e) 15) as [E|E]; [rewrite E in Ht; simpl in Ht; intuition discriminate|]. congruence. }
  destruct (reorder_spec _ old Ht Hne Hlen) as (ns & Ens & Hlns & Hns).
  exists ip, old, ns. split; [exact Eip|]. split; [exact Eold|]. split; [exact Ens|]. split; [lia|].
  intros k a Hk. destruct (Hns k a Hk) as (q & Hq & Ha).
  assert (Hql : (q < length (ge_nodes e))%nat) by (rewrite <- Hlo; apply nth_error_Some; rewrite Ha; discriminate).
  destruct (nth_error (ge_nodes e) q) as [id|] eqn:Eid; [|apply nth_error_None in Eid; lia].
  destruct (Hids id (nth_error_In _ _ Eid)) as (n & Hin & <-). apply In_nth_error in Hin. destruct Hin as (i & Hi).
  exists q, i, n. split; [exact Hi|]. split.
  - pose proof (Hold q _ Eid) as X. rewrite (node_map_spec nodes Hnd i n Hi), Ha in X. injection X as ->. reflexivity.
  - split; [exact Eid|]. rewrite Hmap. apply nth_error_nth.
    rewrite nth_error_map, Hq. reflexivity.
Qed.

Lemma members_snoc id es e : members id (es ++ [e]) = members id es ++ (if has_tag id e then [Z.of_nat (length es)] else []).
Proof.
  unfold members. rewrite app_length, Nat.add_comm. cbn [length Nat.add]. rewrite seq_S, filter_app, map_app. cbn [Nat.add]. f_equal.
  - f_equal. apply filter_ext_in. intros j Hj. apply in_seq in Hj. rewrite nth_error_app1 by lia. reflexivity.
  - cbn [filter]. rewrite nth_error_app2 by lia. rewrite Nat.sub_diag. cbn [nth_error]. destruct (has_tag id e); reflexivity.
Qed.
Lemma in_members id es a : In a (members id es) -> (a < Z.of_nat (length es))%Z.
Proof. unfold members. intros H. apply in_map_iff in H. destruct H as (j & <- & Hj). apply filter_In in Hj. destruct Hj as (Hj & _). apply in_seq in Hj. lia. Qed.

Definition group_of (es : list gelem) (id : Z) (o : option group) : Prop :=
  match o with
  | Some g => group_ok g /\ mData g = members id es /\ members id es <> []
  | None => members id es = []
  end.

Lemma has_tag_eq id t e ts : ge_tags e = t :: ts -> has_tag id e = Z.eqb id t.
Proof. intros E. unfold has_tag. rewrite E. apply Z.eqb_sym. Qed.

Lemma add_to_group_spec names m es e tag ts : (forall id, group_of es id (gm_groups m id)) -> ge_tags e = tag :: ts ->
  exists m', add_to_group names m (Z.of_nat (length es)) tag = Ok m' /\ gm_values m' = gm_values m /\ gm_elems m' = gm_elems m
    /\ (forall id, group_of (es ++ [e]) id (gm_groups m' id))
    /\ (forall v, gm_named m' v = match gm_named m v with Some i => Some i | None =>
          match gm_groups m tag with Some _ => None | None =>
            if String.eqb (upper (group_name names tag)) EmptyString then None
            else if String.eqb v (upper (group_name names tag)) then Some tag else None end end).
Proof.
  intros Hg Et. unfold add_to_group.
  assert (New : forall g, group_ok g -> mData g = members tag es -> exists g', group_add g (Z.of_nat (length es)) = Some g'
     /\ group_ok g' /\ mData g' = members tag (es ++ [e]) /\ members tag (es ++ [e]) <> []).
  { intros g Hok Hd. destruct (group_add_spec g (Z.of_nat (length es)) Hok) as (g' & E & Hok' & Hd'). exists g'.
    split; [exact E|]. split; [exact Hok'|]. rewrite members_snoc, (has_tag_eq tag tag e ts Et), Z.eqb_refl.
    rewrite Hd' in *. rewrite Hd in *. destruct (in_dec _ _ _) as [i|i].
    - apply in_members in i. lia.
    - split; [reflexivity|]. destruct (members tag es); discriminate. }
  assert (Old : forall id, id <> tag -> group_of (es ++ [e]) id (gm_groups m id)).
  { intros id Hne. specialize (Hg id). unfold group_of in *. rewrite members_snoc, (has_tag_eq id tag e ts Et).
    destruct (Z.eqb_spec id tag); [contradiction|]. rewrite app_nil_r. exact Hg. }
  pose proof (Hg tag) as Ht. destruct (gm_groups m tag) as [g|] eqn:Eg.
  - destruct Ht as (T1 & T2 & T3). destruct (New g T1 T2) as (g' & -> & G1 & G2). eexists. split; [reflexivity|].
    cbn [gm_values gm_elems gm_groups gm_named]. split; [reflexivity|]. split; [reflexivity|]. split.
    + intros id. destruct (Z.eqb_spec id tag) as [-> |Hne]; [split; [exact G1|exact G2]|apply Old; exact Hne].
    + intros v. destruct (gm_named m v); reflexivity.
  - destruct (New group_empty group_ok_empty) as (g' & -> & G1 & G2); [symmetry; exact Ht|]. eexists. split; [reflexivity|].
    cbn [gm_values gm_elems gm_groups gm_named]. split; [reflexivity|]. split; [reflexivity|]. split.
    + intros id. destruct (Z.eqb_spec id tag) as [-> |Hne]; [split; [exact G1|exact G2]|apply Old; exact Hne].
    + intros v. destruct (String.eqb _ EmptyString); [destruct (gm_named m v); reflexivity|]. reflexivity.
Qed.

Lemma Forall2_len {A B} (P : A -> B -> Prop) l m : Forall2 P l m -> length l = length m.
Proof. induction 1; simpl; congruence. Qed.

(** the names of the groups that exist *)
Definition named_of (names : list gname) (m : gmesh) : Prop :=
  (forall v id, gm_named m v = Some id -> gm_groups m id <> None /\ upper (group_name names id) = v /\ v <> EmptyString)
  /\ (forall id, gm_groups m id <> None -> upper (group_name names id) <> EmptyString -> gm_named m (upper (group_name names id)) <> None).

Section Create.
  Variables (names : list gname) (nodes : list gnode) (dim : nat).
  Hypothesis Hnd : NoDup (map gn_id nodes).

  Definition state_of (es : list gelem) (m : gmesh) : Prop :=
    gm_values m = map (node_coords dim) nodes /\ Forall2 (elem_rel nodes) es (gm_elems m)
    /\ (forall id, group_of es id (gm_groups m id)) /\ named_of names m.

  Lemma create_element_spec es m e : state_of es m -> ge_type e <> 15%Z -> creatable nodes dim e ->
    exists m', create_element names (node_map nodes) m e = Ok m' /\ state_of (es ++ [e]) m'.
  Proof.
    intros (Hv & Hel & Hg & Hn) H15 (Ht & H7 & Hok & Htags & Hids & Hjac). unfold create_element.
    destruct (Z.eqb_spec (ge_type e) 15); [contradiction|].
    destruct (element_nodes nodes e Hnd Ht H7 Hok Hids) as (ip & old & ns & Eip & Eold & Ens & Hrel).
    rewrite Eip. cbn [obind]. rewrite Eold. cbn [obind]. rewrite Ens. cbn [obind]. cbv zeta.
    destruct (Hjac ip ns Eip Hrel) as (jac & Ejac & Hdet). unfold check_jacobian. rewrite (deriv_length _ _ Ht Eip).
    rewrite Hv, Ejac. cbn [obind]. destruct (rleb_spec (jDet jac) 0) as [(-> & H)|(-> & H)]; [lra|]. cbn [obind].
    destruct (ge_tags e) as [|tag ts] eqn:Etags; [congruence|].
    assert (Hlen : length (gm_elems m) = length es) by (symmetry; apply (Forall2_len _ _ _ Hel)). rewrite Hlen.
    set (m1 := mkGmesh _ _ _ _).
    destruct (add_to_group_spec names m1 es e tag ts Hg Etags) as (m' & E & V1 & V2 & V3 & V4).
    exists m'. split; [exact E|]. split; [|split; [|split]].
    - rewrite V1. reflexivity.
    - rewrite V2. unfold m1. cbn [gm_elems]. apply Forall2_app; [exact Hel|]. constructor; [|constructor].
      split; [reflexivity|]. exists ip. auto.
    - exact V3.
    - assert (Mono : forall id, gm_groups m id <> None -> gm_groups m' id <> None).
      { intros id Hid Hc. pose proof (V3 id) as G. rewrite Hc in G. unfold group_of in G. rewrite members_snoc in G.
        pose proof (Hg id) as G0. destruct (gm_groups m id) as [g|]; [|congruence]. destruct G0 as (_ & _ & G0).
        apply app_eq_nil in G. destruct G; contradiction. }
      assert (Tag : gm_groups m' tag <> None).
      { intros Hc. pose proof (V3 tag) as G. rewrite Hc in G. unfold group_of in G. rewrite members_snoc, (has_tag_eq tag tag e ts Etags), Z.eqb_refl in G.
        apply app_eq_nil in G. destruct G; discriminate. }
      destruct Hn as (N1 & N2). split.
      + intros v id. rewrite V4. unfold m1. cbn [gm_named gm_groups]. destruct (gm_named m v) as [i|] eqn:Ev.
        * intros X. injection X as <-. destruct (N1 v i Ev) as (A & B & C). split; [apply Mono; exact A|]. split; [exact B|exact C].
        * destruct (gm_groups m tag) eqn:Eg; [discriminate|]. destruct (String.eqb_spec (upper (group_name names tag)) EmptyString); [discriminate|].
          destruct (String.eqb_spec v (upper (group_name names tag))) as [-> |]; [|discriminate]. intros X. injection X as <-. split; [exact Tag|]. split; [reflexivity|assumption].
      + intros id Hid Hne. rewrite V4. unfold m1. cbn [gm_named gm_groups].
        destruct (gm_named m (upper (group_name names id))) eqn:Ev; [discriminate|].
        destruct (gm_groups m id) eqn:Eid; [exfalso; apply (N2 id); [congruence|exact Hne|exact Ev]|].
        assert (id = tag).
        { pose proof (V3 id) as G. pose proof (Hg id) as G0. rewrite Eid in G0. destruct (gm_groups m' id) as [g'|]; [|congruence].
          destruct G as (_ & _ & G). rewrite members_snoc, (has_tag_eq id tag e ts Etags) in G. unfold group_of in G0. rewrite G0 in G.
          destruct (Z.eqb_spec id tag); [assumption|]. contradiction. }
        subst id. rewrite Eid. destruct (String.eqb_spec (upper (group_name names tag)) EmptyString); [contradiction|].
        rewrite String.eqb_refl. discriminate.
  Qed.

  Lemma create_elements_spec elems : (forall e, In e elems -> ge_type e = 15%Z \/ creatable nodes dim e) ->
    forall es m, state_of es m -> exists m', create_elements names (node_map nodes) m elems = Ok m' /\ state_of (es ++ mesh_elems elems) m'.
  Proof.
    induction elems as [|e elems IH]; intros He es m Hs.
    - exists m. split; [reflexivity|]. cbn. rewrite app_nil_r. exact Hs.
    - cbn [create_elements mesh_elems filter]. destruct (Z.eqb_spec (ge_type e) 15) as [E15|E15]; cbn [negb].
      + unfold create_element. rewrite E15, Z.eqb_refl. cbn [obind]. apply IH; [intros; apply He; right; assumption|exact Hs].
      + destruct (create_element_spec es m e Hs E15) as (m1 & -> & Hs1).
        { destruct (He e (or_introl eq_refl)); [contradiction|assumption]. }
        cbn [obind]. destruct (IH (fun e' H => He e' (or_intror H)) (es ++ [e]) m1 Hs1) as (m' & E & Hs'). exists m'.
        split; [exact E|]. rewrite <- app_assoc in Hs'. exact Hs'.
  Qed.
End Create.

Lemma create_mesh_spec names nodes elems : NoDup (map gn_id nodes) ->
  (forall e, In e elems -> ge_type e = 15%Z \/ creatable nodes (find_dimension nodes) e) ->
  exists m, create_mesh (mkContent (find_dimension nodes) nodes elems names) = Ok m
    /\ state_of names nodes (find_dimension nodes) (mesh_elems elems) m.
Proof.
  intros Hnd He. unfold create_mesh. cbn [cnames cnodes cdim celems].
  apply (create_elements_spec names nodes (find_dimension nodes) Hnd elems He []).
  split; [reflexivity|]. split; [constructor|]. split; [reflexivity|]. split; [intros v id H; discriminate|intros id H; exfalso; apply H; reflexivity].
Qed.

Lemma find_dimension_spec nodes : let d := find_dimension nodes in
  (d = 1 \/ d = 2 \/ d = 3)%nat
  /\ ((d <= 2)%nat <-> forall n, In n nodes -> gn_z n = 0)
  /\ ((d <= 1)%nat <-> forall n, In n nodes -> gn_z n = 0 /\ gn_y n = 0).
Proof.
  unfold find_dimension.
  assert (G : forall a b, let r := fold_left (fun '(a, b) n =>
    (orb a (if Req_EM_T (gn_y n) 0 then false else true), orb b (if Req_EM_T (gn_z n) 0 then false else true))) nodes (a, b) in
    (fst r = false <-> a = false /\ forall n, In n nodes -> gn_y n = 0) /\ (snd r = false <-> b = false /\ forall n, In n nodes -> gn_z n = 0)).
  { induction nodes as [|n l IH]; intros a b; cbn [fold_left].
    - cbn. split; (split; [intros H; split; [exact H|intros n []]|intros (H & _); exact H]).
    - specialize (IH (orb a (if Req_EM_T (gn_y n) 0 then false else true)) (orb b (if Req_EM_T (gn_z n) 0 then false else true))).
      cbv zeta in *. destruct IH as (I1 & I2). rewrite I1, I2. rewrite !Bool.orb_false_iff.
      split; (split; [intros ((H1 & H2) & H3); split; [exact H1|]; intros k [<- |Hk]; [|apply H3; exact Hk];
        destruct (Req_EM_T _ 0) in H2; [assumption|discriminate]
        |intros (H1 & H2); split; [split; [exact H1|]|intros k Hk; apply H2; right; exact Hk];
        clear I1 I2; destruct (Req_EM_T _ 0) as [|Hc]; [reflexivity|exfalso; apply Hc, H2; left; reflexivity]]). }
  specialize (G false false). cbv zeta in G. destruct (fold_left _ nodes (false, false)) as (a, b). cbn [fst snd] in G.
  destruct G as (G1 & G2). cbv zeta.
  destruct b; [|destruct a].
  - split; [auto|]. split; (split; [lia|]); intros H; exfalso.
    + assert (X : true = false) by (apply G2; auto). discriminate.
    + assert (X : true = false) by (apply G2; split; [reflexivity|intros n Hn; apply H; exact Hn]). discriminate.
  - destruct (proj1 G2 eq_refl) as (_ & Z0). split; [auto|]. split; [split; [intros _; exact Z0|intros; lia]|]. split; [lia|]. intros H. exfalso.
    assert (X : true = false) by (apply G1; split; [reflexivity|intros n Hn; apply H; exact Hn]). discriminate.
  - destruct (proj1 G2 eq_refl) as (_ & Z0). destruct (proj1 G1 eq_refl) as (_ & Y0). split; [auto|].
    split; [split; [intros _; exact Z0|intros; lia]|]. split; [intros _ n Hn; auto|intros; lia].
Qed.

Lemma count_elem_ok e : In (ge_type e) (15%Z :: supported) -> node_count_ok e -> elem_ok e.
Proof.
  unfold elem_ok, node_count_ok, count. intros Ht. revert Ht. generalize (ge_type e) as t. intros t [<- |Ht]; [intros ->; reflexivity|].
  pattern t. revert t Ht. apply supported_cases; intros ->; reflexivity.
Qed.

(** ** Binary blocks with several elements *)
Lemma read_block_overflow type numTags num elems0 tail : num_nodes type = Ok num ->
  (forall e, In e elems0 -> count (ge_tags e) = numTags /\ count (ge_nodes e) = num) ->
  forall rest done elems, elems0 = done ++ rest -> rest <> [] -> length elems = length elems0 -> (5 <= length elems0)%nat ->
  forall c, (2 * c = length done * (length done - 1))%nat ->
  read_block type numTags num (seq (length done) (length rest))
    (flat_map (fun e => [TBinInt (ge_id e)] ++ map TBinInt (ge_tags e) ++ map TBinInt (ge_nodes e)) rest ++ tail) elems c = UB.
Proof.
  intros Hnum Hall. induction rest as [|e rest IH]; intros done elems E Hne Hlen H5 c Hc; [congruence|].
  cbn [length seq read_block]. destruct (Nat.leb_spec (length elems) c) as [H|H]; [reflexivity|].
  destruct rest as [|e2 rest].
  - exfalso. rewrite E, app_length in *. cbn [length] in *. nia.
  - cbn [flat_map]. rewrite <- !app_assoc. cbn [app read_bin_int obind].
    destruct (Hall e) as (H1 & H2); [rewrite E; apply in_app_iff; right; left; reflexivity|].
    rewrite <- ?app_assoc. rewrite read_bin_ints by (symmetry; exact H1). cbn [obind]. rewrite read_bin_ints by (symmetry; exact H2). cbn [obind].
    specialize (IH (done ++ [e]) (set_elem elems c {| ge_id := ge_id e; ge_type := type; ge_tags := ge_tags e; ge_nodes := ge_nodes e |})).
    rewrite app_length, Nat.add_1_r in IH. cbn [flat_map] in IH. rewrite <- ?app_assoc in IH. cbn [app] in IH. rewrite <- ?app_assoc in IH. cbn [app] in IH. apply IH.
    + exact E.
    + discriminate.
    + unfold set_elem. rewrite app_length, firstn_length. cbn [length]. rewrite skipn_length. lia.
    + exact H5.
    + nia.
Qed.
