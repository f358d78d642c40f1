(** * Proofs for C48: node selection *)
From Coq Require Import List ZArith Arith Reals Lra Lia.
From Verif Require Import Outcome RSum GroupModel GroupProofs CellModel CellProofs AdaptiveModel AdaptiveProofs
  InterpolationModel MeshModel MeshSpec.
Import ListNotations.
Local Open Scope R_scope.

Lemma find_first_spec {A B} (P : A -> B -> Prop) (f : A -> outcome (option B)) l :
  (forall a, In a l -> exists r, f a = Ok r /\ match r with Some b => P a b | None => forall b, ~ P a b end) ->
  exists r, find_first l f = Ok r
    /\ match r with Some b => exists a, In a l /\ P a b | None => forall a b, In a l -> ~ P a b end.
Proof.
  induction l as [|a l IH]; intros H; simpl.
  - exists None. split; [reflexivity|]. intros ? ? [].
  - destruct (H a (or_introl eq_refl)) as (r & -> & Hr). simpl. destruct r as [b|].
    + exists (Some b). split; [reflexivity|]. exists a. auto.
    + destruct IH as (r & E & Hr'); [intros; apply H; right; assumption|]. exists r. split; [exact E|].
      destruct r as [b|].
      * destruct Hr' as (a' & Hi & Hp). exists a'. auto.
      * intros a' b [<- | Hi]; [apply Hr | apply Hr'; exact Hi].
Qed.

Lemma for_each_group {A} (P : A -> Z -> Prop) (f : group -> A -> outcome group) l : forall g, group_ok g ->
  (forall a g, In a l -> group_ok g -> exists g', f g a = Ok g' /\ group_ok g'
     /\ forall n, In n (mData g') <-> In n (mData g) \/ P a n) ->
  exists g', for_each l f g = Ok g' /\ group_ok g'
    /\ forall n, In n (mData g') <-> In n (mData g) \/ exists a, In a l /\ P a n.
Proof.
  induction l as [|a l IH]; intros g Hg H; simpl.
  - exists g. split; [reflexivity|]. split; [exact Hg|]. intros n. split; [auto|]. intros [?|(? & [] & _)]; assumption.
  - destruct (H a g (or_introl eq_refl) Hg) as (g1 & -> & H1 & E1). simpl.
    destruct (IH g1 H1) as (g2 & E2 & H2 & I2); [intros; apply H; [right|]; assumption|].
    exists g2. split; [exact E2|]. split; [exact H2|]. intros n. rewrite I2, E1. split.
    + intros [[?|?]|(b & Hb & Pb)]; [auto|right; exists a; auto|right; exists b; auto].
    + intros [?|(b & [<- |Hb] & Pb)]; [auto|auto|right; exists b; auto].
Qed.

Lemma add_to_spec g a : group_ok g -> exists g', add_to g a = Ok g' /\ group_ok g'
  /\ forall n, In n (mData g') <-> In n (mData g) \/ n = a.
Proof.
  intros Hg. unfold add_to. destruct (group_add_spec g a Hg) as (g' & -> & H & E). exists g'.
  split; [reflexivity|]. split; [exact H|]. intros n. rewrite E, in_app_iff.
  destruct (in_dec Z.eq_dec a (mData g)) as [Hi|Hi]; simpl; split.
  - intros [?|[]]; auto.
  - intros [?| ->]; auto.
  - intros [?|[?|[]]]; auto.
  - intros [?| ->]; auto.
Qed.

Lemma get_node_spec e i : (i < length (enodes e))%nat ->
  exists n, get_node e i = Ok n /\ nth_error (enodes e) i = Some n /\ n = nth i (enodes e) 0%Z /\ In n (enodes e).
Proof.
  intros H. unfold get_node. destruct (nth_error (enodes e) i) as [n|] eqn:E.
  - exists n. split; [reflexivity|]. split; [reflexivity|]. split; [symmetry; apply nth_error_nth; exact E|].
    eapply nth_error_In; eauto.
  - apply nth_error_None in E. lia.
Qed.

Lemma interpolate_spec garbage values dim e x : element_ok values dim e ->
  exists p, interpolate garbage values e x = Ok p /\ length p = dim
    /\ forall i, (i < dim)%nat -> nth i p 0 = position values e x i.
Proof.
  intros (Hne & Hlen & Hv). unfold interpolate. set (num := length (enodes e)) in *.
  assert (Hnum : (0 < num)%nat) by (unfold num; destruct (enodes e); [congruence|simpl; lia]).
  destruct (get_node_spec e 0 Hnum) as (n0 & -> & _ & _ & Hin). cbn [obind].
  rewrite (Hv n0 Hin).
  assert (F : forallb (fun n => Nat.eqb (length (values n)) dim) (enodes e) = true).
  { apply forallb_forall. intros n Hn. apply Nat.eqb_eq, Hv, Hn. }
  rewrite F. replace (inum (einterp e)) with num. rewrite Nat.eqb_refl. cbn [andb].
  eexists. split; [reflexivity|]. split; [rewrite map_length, seq_length; reflexivity|].
  intros i Hi.
  rewrite (nth_indep _ 0 (mvmul (num * dim) (matrix_N garbage (ishape (einterp e) x) num dim)
     (fun c => nth c (extract_node_values dim num (fun k i0 => nth i0 (values (nth k (enodes e) 0%Z)) 0)) 0) 0%nat))
    by (rewrite map_length, seq_length; exact Hi).
  rewrite map_nth, seq_nth by exact Hi. rewrite matrix_N_interpolates by exact Hi.
  unfold position. fold num. apply rsum_ext. intros k Hk. unfold extract_node_values.
  rewrite nth_flat_blocks by assumption. reflexivity.
Qed.

Lemma much_smaller_spec dim a b tol : length a = dim -> length b = dim -> 0 <= tol ->
  exists r, much_smaller a b tol = Ok r /\ (r = true <-> distance dim (comp a) (comp b) <= tol).
Proof.
  intros Ha Hb Ht. unfold much_smaller. rewrite Ha, Hb, Nat.eqb_refl. eexists. split; [reflexivity|].
  unfold distance, comp.
  assert (E : rsum dim (fun i => (nth i a 0 - nth i b 0) * (nth i a 0 - nth i b 0))
    = rsum dim (fun i => (nth i a 0 - nth i b 0) ^ 2)) by (apply rsum_ext; intros; ring).
  rewrite E. set (s := rsum _ _). assert (0 <= s) by (apply rsum_nonneg; intros; apply pow2_ge_0).
  replace (1 * tol * (1 * tol)) with (tol * tol) by ring.
  destruct (rleb_spec s (tol * tol)) as [(-> & H1)|(-> & H1)]; split; intros H2; try reflexivity; try discriminate.
  - rewrite <- (sqrt_square tol Ht). apply sqrt_le_1_alt. exact H1.
  - exfalso. assert (s <= tol * tol); [|lra]. rewrite <- (sqrt_sqrt s H). apply Rmult_le_compat; auto using sqrt_pos.
Qed.

Lemma distance_ext dim a a' b : (forall i, (i < dim)%nat -> a i = a' i) -> distance dim a b = distance dim a' b.
Proof. intros H. unfold distance. f_equal. apply rsum_ext. intros i Hi. rewrite H by exact Hi. reflexivity. Qed.

Lemma node_at_coordinate_spec values dim elements coords tol :
  mesh_ok values dim elements -> length coords = dim -> 0 <= tol ->
  (exists n, node_at_coordinate values elements coords tol = Ok n /\ coordinate_node elements n
     /\ distance dim (comp (values n)) (comp coords) <= tol)
  \/ (node_at_coordinate values elements coords tol = Throw
     /\ forall n, coordinate_node elements n -> tol < distance dim (comp (values n)) (comp coords)).
Proof.
  intros Hm Hc Ht. unfold node_at_coordinate.
  destruct (find_first_spec (fun c n => In n (enodes (ecoord c)) /\ distance dim (comp (values n)) (comp coords) <= tol)
    (fun c => find_first (seq 0 (inum (einterp (ecoord c)))) (fun i =>
        obind (get_node (ecoord c) i) (fun n =>
          obind (much_smaller (values n) coords tol) (fun b =>
            Ok (if b then Some n else None))))) elements) as (r & -> & Hr).
  - intros c Hin. destruct (Hm c Hin) as ((Hne & Hlen & Hv) & _). rewrite <- Hlen.
    destruct (find_first_spec (fun i n => nth_error (enodes (ecoord c)) i = Some n
        /\ distance dim (comp (values n)) (comp coords) <= tol)
      (fun i => obind (get_node (ecoord c) i) (fun n =>
          obind (much_smaller (values n) coords tol) (fun b => Ok (if b then Some n else None))))
      (seq 0 (length (enodes (ecoord c))))) as (r & -> & Hr).
    + intros i Hi. apply in_seq in Hi. destruct (get_node_spec (ecoord c) i) as (n & -> & Hn & _ & Hin'); [lia|].
      cbn [obind]. destruct (much_smaller_spec dim (values n) coords tol) as (b & -> & Hb); auto.
      cbn [obind]. destruct b.
      * exists (Some n). split; [reflexivity|]. split; [exact Hn|]. apply Hb. reflexivity.
      * exists None. split; [reflexivity|]. intros m (Hm' & Hd). rewrite Hn in Hm'. injection Hm' as <-.
        apply Hb in Hd. discriminate.
    + exists r. split; [reflexivity|]. destruct r as [n|].
      * destruct Hr as (i & _ & Hi & Hd). split; [eapply nth_error_In; eauto|exact Hd].
      * intros n (Hn & Hd). apply In_nth_error in Hn. destruct Hn as (i & Hi). apply (Hr i n); [|auto].
        apply in_seq. split; [lia|]. simpl. apply nth_error_Some. rewrite Hi. discriminate.
  - cbn [obind]. destruct r as [n|].
    + left. exists n. split; [reflexivity|]. destruct Hr as (c & Hin & Hn & Hd). split; [exists c; auto|exact Hd].
    + right. split; [reflexivity|]. intros n (c & Hin & Hn).
      destruct (Rlt_le_dec tol (distance dim (comp (values n)) (comp coords))) as [H|H]; [exact H|].
      exfalso. apply (Hr c n Hin). auto.
Qed.

Lemma dof_node_at_coordinate_spec garbage values dim elements coords dof tol :
  mesh_ok values dim elements -> length coords = dim -> 0 <= tol ->
  (exists n p, dof_node_at_coordinate garbage values elements coords dof tol = Ok n
     /\ dof_node_at values elements dof n p /\ distance dim p (comp coords) <= tol)
  \/ (dof_node_at_coordinate garbage values elements coords dof tol = Throw
     /\ forall n p, dof_node_at values elements dof n p -> tol < distance dim p (comp coords)).
Proof.
  intros Hm Hc Ht. unfold dof_node_at_coordinate.
  destruct (find_first_spec (fun c n => exists de k, edof c dof = Some de /\ nth_error (enodes de) k = Some n
      /\ distance dim (position values (ecoord c) (ilocal (einterp de) k)) (comp coords) <= tol)
    (fun c => match edof c dof with
      | None => Ok None
      | Some de =>
        find_first (seq 0 (inum (einterp de))) (fun i =>
          obind (interpolate garbage values (ecoord c) (ilocal (einterp de) i)) (fun x =>
            obind (much_smaller x coords tol) (fun b =>
              if b then obind (get_node de i) (fun n => Ok (Some n)) else Ok None)))
      end) elements) as (r & -> & Hr).
  - intros c Hin. destruct (Hm c Hin) as (Hok & Hde). destruct (edof c dof) as [de|] eqn:Ed.
    2:{ exists None. split; [reflexivity|]. intros n (de & k & H & _). discriminate. }
    specialize (Hde dof de Ed). rewrite <- Hde.
    destruct (find_first_spec (fun i n => nth_error (enodes de) i = Some n
        /\ distance dim (position values (ecoord c) (ilocal (einterp de) i)) (comp coords) <= tol)
      (fun i => obind (interpolate garbage values (ecoord c) (ilocal (einterp de) i)) (fun x =>
            obind (much_smaller x coords tol) (fun b =>
              if b then obind (get_node de i) (fun n => Ok (Some n)) else Ok None)))
      (seq 0 (length (enodes de)))) as (r & -> & Hr).
    + intros i Hi. apply in_seq in Hi.
      destruct (interpolate_spec garbage values dim (ecoord c) (ilocal (einterp de) i) Hok) as (p & -> & Hp & Ep).
      cbn [obind]. destruct (much_smaller_spec dim p coords tol) as (b & -> & Hb); auto. cbn [obind].
      rewrite (distance_ext dim (comp p) (position values (ecoord c) (ilocal (einterp de) i))) in Hb by exact Ep.
      destruct (get_node_spec de i) as (n & -> & Hn & _ & _); [lia|]. destruct b.
      * exists (Some n). split; [reflexivity|]. split; [exact Hn|]. apply Hb. reflexivity.
      * exists None. split; [reflexivity|]. intros m (Hm' & Hd). apply Hb in Hd. discriminate.
    + exists r. split; [reflexivity|]. destruct r as [n|].
      * destruct Hr as (i & _ & Hi & Hd). exists de, i. auto.
      * intros n (de' & i & E & Hi & Hd). injection E as <-. apply (Hr i n); [|auto].
        apply in_seq. split; [lia|]. simpl. apply nth_error_Some. rewrite Hi. discriminate.
  - cbn [obind]. destruct r as [n|].
    + left. destruct Hr as (c & Hin & de & k & He & Hn & Hd).
      exists n, (position values (ecoord c) (ilocal (einterp de) k)). split; [reflexivity|].
      split; [exists c, de, k; auto|exact Hd].
    + right. split; [reflexivity|]. intros n p (c & de & k & Hin & He & Hn & ->).
      match goal with |- tol < ?d => destruct (Rlt_le_dec tol d) as [H|H]; [exact H|] end.
      exfalso. apply (Hr c n Hin). exists de, k. auto.
Qed.

Lemma nodes_at_axis_spec values dim elements d offset tol : mesh_ok values dim elements -> (d < dim)%nat ->
  exists g, nodes_at_axis values elements d offset tol = Ok g /\ group_ok g
    /\ forall n, In n (mData g) <-> coordinate_node elements n /\ Rabs (comp (values n) d - offset) < tol.
Proof.
  intros Hm Hd. unfold nodes_at_axis.
  destruct (for_each_group (fun c n => In n (enodes (ecoord c)) /\ Rabs (comp (values n) d - offset) < tol)
    (fun g c => for_each (seq 0 (length (enodes (ecoord c)))) (fun g i =>
        obind (get_node (ecoord c) i) (fun n =>
          obind (component (values n) d) (fun v =>
            if rltb (Rabs (v - offset)) tol then add_to g n else Ok g))) g) elements group_empty group_ok_empty)
    as (g & E & Hg & Hn).
  - intros c g Hin Hg. destruct (Hm c Hin) as ((_ & _ & Hv) & _).
    destruct (for_each_group (fun i n => nth_error (enodes (ecoord c)) i = Some n /\ Rabs (comp (values n) d - offset) < tol)
      (fun g i => obind (get_node (ecoord c) i) (fun n =>
          obind (component (values n) d) (fun v =>
            if rltb (Rabs (v - offset)) tol then add_to g n else Ok g)))
      (seq 0 (length (enodes (ecoord c)))) g Hg) as (g' & -> & Hg' & Hn).
    + intros i g0 Hi Hg0. apply in_seq in Hi. destruct (get_node_spec (ecoord c) i) as (n & -> & Hn & _ & Hin'); [lia|].
      cbn [obind]. unfold component.
      destruct (nth_error (values n) d) as [v|] eqn:Ev.
      2:{ apply nth_error_None in Ev. rewrite (Hv n Hin') in Ev. lia. }
      cbn [obind]. assert (Hvd : comp (values n) d = v) by (apply nth_error_nth; exact Ev).
      destruct (rltb_spec (Rabs (v - offset)) tol) as [(-> & H)|(-> & H)].
      * destruct (add_to_spec g0 n Hg0) as (g1 & E1 & H1 & I1). exists g1. split; [exact E1|]. split; [exact H1|].
        intros m. rewrite I1. split; (intros [Hl|Hr]; [left; exact Hl|right]).
        -- subst m. rewrite Hvd. auto.
        -- destruct Hr as (Hr & _). rewrite Hn in Hr. congruence.
      * exists g0. split; [reflexivity|]. split; [exact Hg0|]. intros m. split; [auto|].
        intros [Hl|(Hr & Hlt)]; [exact Hl|]. exfalso. rewrite Hn in Hr. injection Hr as <-. rewrite Hvd in Hlt. lra.
    + exists g'. split; [reflexivity|]. split; [exact Hg'|]. intros n. rewrite Hn. split; (intros [Hl|Hr]; [left; exact Hl|right]).
      * destruct Hr as (i & _ & Hi & Hlt). split; [eapply nth_error_In; eauto|exact Hlt].
      * destruct Hr as (Hi & Hlt). apply In_nth_error in Hi. destruct Hi as (i & Hi). exists i. split; [|auto].
        apply in_seq. split; [lia|]. simpl. apply nth_error_Some. rewrite Hi. discriminate.
  - exists g. split; [exact E|]. split; [exact Hg|]. intros n. rewrite Hn. unfold coordinate_node. split.
    + intros [[]|(c & Hin & Hi & Hlt)]. split; [exists c; auto|exact Hlt].
    + intros ((c & Hin & Hi) & Hlt). right. exists c. auto.
Qed.

Lemma dof_nodes_at_axis_spec garbage values dim elements d dof offset tol : mesh_ok values dim elements -> (d < dim)%nat ->
  exists g, dof_nodes_at_axis garbage values elements d dof offset tol = Ok g /\ group_ok g
    /\ forall n, In n (mData g) <-> exists p, dof_node_at values elements dof n p /\ Rabs (p d - offset) < tol.
Proof.
  intros Hm Hd. unfold dof_nodes_at_axis.
  destruct (for_each_group (fun c n => exists de k, edof c dof = Some de /\ nth_error (enodes de) k = Some n
      /\ Rabs (position values (ecoord c) (ilocal (einterp de) k) d - offset) < tol)
    (fun g c => match edof c dof with
      | None => Ok g
      | Some de =>
        for_each (seq 0 (inum (einterp de))) (fun g i =>
          obind (interpolate garbage values (ecoord c) (ilocal (einterp de) i)) (fun x =>
            obind (component x d) (fun v =>
              if rltb (Rabs (v - offset)) tol then obind (get_node de i) (add_to g) else Ok g))) g
      end) elements group_empty group_ok_empty)
    as (g & E & Hg & Hn).
  - intros c g Hin Hg. destruct (Hm c Hin) as (Hok & Hde). destruct (edof c dof) as [de|] eqn:Ed.
    2:{ exists g. split; [reflexivity|]. split; [exact Hg|]. intros n. split; [auto|].
        intros [Hl|(de & k & H & _)]; [exact Hl|discriminate]. }
    specialize (Hde dof de Ed). rewrite <- Hde.
    destruct (for_each_group (fun i n => nth_error (enodes de) i = Some n
        /\ Rabs (position values (ecoord c) (ilocal (einterp de) i) d - offset) < tol)
      (fun g i => obind (interpolate garbage values (ecoord c) (ilocal (einterp de) i)) (fun x =>
            obind (component x d) (fun v =>
              if rltb (Rabs (v - offset)) tol then obind (get_node de i) (add_to g) else Ok g)))
      (seq 0 (length (enodes de))) g Hg) as (g' & -> & Hg' & Hn).
    + intros i g0 Hi Hg0. apply in_seq in Hi.
      destruct (interpolate_spec garbage values dim (ecoord c) (ilocal (einterp de) i) Hok) as (p & -> & Hp & Ep).
      cbn [obind]. unfold component.
      destruct (nth_error p d) as [v|] eqn:Ev; [|apply nth_error_None in Ev; lia].
      cbn [obind]. assert (Hvd : position values (ecoord c) (ilocal (einterp de) i) d = v).
      { rewrite <- (Ep d Hd). apply nth_error_nth. exact Ev. }
      destruct (get_node_spec de i) as (n & -> & Hn & _ & _); [lia|]. cbn [obind].
      destruct (rltb_spec (Rabs (v - offset)) tol) as [(-> & H)|(-> & H)].
      * destruct (add_to_spec g0 n Hg0) as (g1 & E1 & H1 & I1). exists g1. split; [exact E1|]. split; [exact H1|].
        intros m. rewrite I1. split; (intros [Hl|Hr]; [left; exact Hl|right]).
        -- subst m. rewrite Hvd. auto.
        -- destruct Hr as (Hr & _). rewrite Hn in Hr. congruence.
      * exists g0. split; [reflexivity|]. split; [exact Hg0|]. intros m. split; [auto|].
        intros [Hl|(Hr & Hlt)]; [exact Hl|]. exfalso. rewrite Hvd in Hlt. lra.
    + exists g'. split; [reflexivity|]. split; [exact Hg'|]. intros n. rewrite Hn. split; (intros [Hl|Hr]; [left; exact Hl|right]).
      * destruct Hr as (i & _ & Hi & Hlt). exists de, i. auto.
      * destruct Hr as (de' & i & Heq & Hi & Hlt). injection Heq as <-. exists i. split; [|auto].
        apply in_seq. split; [lia|]. simpl. apply nth_error_Some. rewrite Hi. discriminate.
  - exists g. split; [exact E|]. split; [exact Hg|]. intros n. rewrite Hn. split.
    + intros [[]|(c & Hin & de & k & Hde & Hi & Hlt)].
      exists (position values (ecoord c) (ilocal (einterp de) k)). split; [exists c, de, k; auto|exact Hlt].
    + intros (p & (c & de & k & Hin & Hde & Hi & ->) & Hlt). right. exists c. split; [exact Hin|]. exists de, k. auto.
Qed.

Lemma nodes_total_spec values dim elements : mesh_ok values dim elements ->
  exists g, nodes_total elements = Ok g /\ group_ok g /\ forall n, In n (mData g) <-> coordinate_node elements n.
Proof.
  intros Hm. unfold nodes_total.
  destruct (for_each_group (fun c n => In n (enodes (ecoord c)))
    (fun g c => for_each (seq 0 (inum (einterp (ecoord c)))) (fun g i => obind (get_node (ecoord c) i) (add_to g)) g)
    elements group_empty group_ok_empty) as (g & E & Hg & Hn).
  - intros c g Hin Hg. destruct (Hm c Hin) as ((_ & Hlen & _) & _). rewrite <- Hlen.
    destruct (for_each_group (fun i n => nth_error (enodes (ecoord c)) i = Some n)
      (fun g i => obind (get_node (ecoord c) i) (add_to g)) (seq 0 (length (enodes (ecoord c)))) g Hg) as (g' & -> & Hg' & Hn).
    + intros i g0 Hi Hg0. apply in_seq in Hi. destruct (get_node_spec (ecoord c) i) as (n & -> & Hn & _ & _); [lia|].
      cbn [obind]. destruct (add_to_spec g0 n Hg0) as (g1 & E1 & H1 & I1). exists g1. split; [exact E1|]. split; [exact H1|].
      intros m. rewrite I1, Hn. split; (intros [Hl|Hr]; [left; exact Hl|right; congruence]).
    + exists g'. split; [reflexivity|]. split; [exact Hg'|]. intros n. rewrite Hn. split; (intros [Hl|Hr]; [left; exact Hl|right]).
      * destruct Hr as (i & _ & Hi). eapply nth_error_In; eauto.
      * apply In_nth_error in Hr. destruct Hr as (i & Hi). exists i. split; [|auto].
        apply in_seq. split; [lia|]. simpl. apply nth_error_Some. rewrite Hi. discriminate.
  - exists g. split; [exact E|]. split; [exact Hg|]. intros n. rewrite Hn. unfold coordinate_node. split.
    + intros [[]|(c & Hin & Hi)]. exists c; auto.
    + intros (c & Hin & Hi). right. exists c. auto.
Qed.

(** each node of the group is set exactly once *)
Lemma set_all_spec f l : forall vs, NoDup l ->
  forall n, (In n l -> fold_left (fun vs n => set_values vs n (f (vs n))) l vs n = f (vs n))
    /\ (~ In n l -> fold_left (fun vs n => set_values vs n (f (vs n))) l vs n = vs n).
Proof.
  induction l as [|a l IH]; intros vs Hn n; simpl; [tauto|].
  inversion Hn as [|? ? Ha Hl]; subst. destruct (IH (set_values vs a (f (vs a))) Hl n) as (IH1 & IH2). split.
  - intros [-> |Hi].
    + rewrite IH2 by exact Ha. unfold set_values. rewrite Z.eqb_refl. reflexivity.
    + rewrite IH1 by exact Hi. unfold set_values. destruct (Z.eqb_spec n a); [subst; contradiction|reflexivity].
  - intros Hi. rewrite IH2 by tauto. unfold set_values. destruct (Z.eqb_spec n a); [subst; tauto|reflexivity].
Qed.

Lemma transform_spec values dim elements f : mesh_ok values dim elements ->
  exists vs, transform values elements f = Ok vs
    /\ forall n, (coordinate_node elements n -> vs n = f (values n)) /\ (~ coordinate_node elements n -> vs n = values n).
Proof.
  intros Hm. unfold transform. destruct (nodes_total_spec values dim elements Hm) as (g & -> & (_ & _ & Hnd) & Hn).
  cbn [obind]. eexists. split; [reflexivity|]. intros n. destruct (set_all_spec f (mData g) values Hnd n) as (H1 & H2).
  rewrite <- Hn. auto.
Qed.
