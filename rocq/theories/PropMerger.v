(** * C29: nodal value merge/extract *)
From Coq Require Import List ZArith Arith Bool Reals Lia.
From Verif Require Import Outcome GroupModel DofModel DofSpec ConstraintModel Algebra MergerModel MergerSpec MergerProofs.
Import ListNotations.

(** Merge after any history of calls: every component of every node of the dof types receives the
    entry with its dof number, all other values are unchanged *)
Theorem C29_merge_partial mesh h (values : dofvec R_cring) inst size dofs m v :
  merger_state mesh m -> vector_fits mesh h v inst dofs size ->
  (forall d, In d dofs -> @size_of R_cring values d = Some (size d)) ->
  exists m' v', merge mesh h values dofs inst m v = Ok (m', v') /\ merger_state mesh m' /\
    (forall d a i n, In d dofs -> in_mesh mesh d a -> numbered_as h a i n -> component v' inst a i = Some (@val R_cring values d n)) /\
    (forall a i j, j <> inst \/ ~ (exists d, In d dofs /\ in_mesh mesh d a) -> component v' j a i = component v j a i).
Proof.
  intros Hm Hf Hs. destruct (merge_lemma mesh h values inst size dofs m v (merger_state_current _ _ Hm) Hf Hs) as (m' & v' & E & _ & _ & _ & H1 & H2).
  exists m', v'. split; auto. split; [|auto]. apply (merger_merge mesh h values dofs inst m v m' v' Hm E).
Qed.
Print Assumptions C29_merge_partial.

(** Extract into a vector of the right sizes: the entry with the dof number of a component is its value *)
Theorem C29_extract_partial mesh h (dest : dofvec R_cring) inst size dofs m v :
  merger_state mesh m -> ascending dest -> vector_fits mesh h v inst dofs size -> numbers_unique mesh h dofs ->
  (forall d, In d dofs -> @size_of R_cring dest d = Some (size d)) ->
  exists m' dest', extract mesh h v dofs inst m dest = Ok (m', dest') /\ merger_state mesh m' /\
    (forall d, @size_of R_cring dest' d = @size_of R_cring dest d) /\
    (forall d, ~ In d dofs -> mfind lt_dof d dest' = mfind lt_dof d dest) /\
    (forall d a i n, In d dofs -> in_mesh mesh d a -> numbered_as h a i n -> component v inst a i = Some (@val R_cring dest' d n)).
Proof.
  intros Hm Hs Hf Hu Hz. destruct (extract_lemma mesh h v inst size dofs m dest (merger_state_current _ _ Hm) Hs Hf Hu Hz) as (m' & d' & E & _ & _ & H1 & H2 & H3).
  exists m', d'. split; auto. split; auto. apply (merger_extract mesh h dest dofs inst m v m' d' Hm E).
Qed.
Print Assumptions C29_extract_partial.

(** Extract after Merge returns the merged vector *)
Theorem C29_merge_extract_partial mesh h (values dest : dofvec R_cring) inst size dofs m v :
  merger_state mesh m -> ascending dest ->
  vector_fits mesh h v inst dofs size -> numbers_unique mesh h dofs -> numbers_complete mesh h dofs size ->
  (forall d, In d dofs -> @size_of R_cring values d = Some (size d) /\ @size_of R_cring dest d = Some (size d)) ->
  exists m1 v1 m2 dest', merge mesh h values dofs inst m v = Ok (m1, v1) /\ extract mesh h v1 dofs inst m1 dest = Ok (m2, dest') /\
    (forall d, In d dofs -> mfind lt_dof d dest' = mfind lt_dof d values) /\
    (forall d, ~ In d dofs -> mfind lt_dof d dest' = mfind lt_dof d dest).
Proof.
  intros Hm Hs Hf Hu Hc Hz. pose proof (merger_state_current _ _ Hm) as Hm'.
  destruct (merge_lemma mesh h values inst size dofs m v Hm' Hf) as (m1 & v1 & E & _); [intros d Hd; apply Hz; auto|].
  destruct (merge_extract_lemma mesh h values dest inst size dofs m v m1 v1 Hm' Hs Hf Hu Hc Hz E) as (m2 & dest' & H).
  exists m1, v1, m2, dest'. split; auto.
Qed.
Print Assumptions C29_merge_extract_partial.

(** Merge after Extract leaves every nodal value unchanged *)
Theorem C29_extract_merge_partial mesh h (dest : dofvec R_cring) inst size dofs m v :
  merger_state mesh m -> ascending dest ->
  vector_fits mesh h v inst dofs size -> numbers_unique mesh h dofs ->
  (forall d, In d dofs -> @size_of R_cring dest d = Some (size d)) ->
  exists m1 values m2 v2, extract mesh h v dofs inst m dest = Ok (m1, values) /\ merge mesh h values dofs inst m1 v = Ok (m2, v2) /\
    forall a i j, component v2 j a i = component v j a i.
Proof.
  intros Hm Hs Hf Hu Hz. pose proof (merger_state_current _ _ Hm) as Hm'.
  destruct (extract_lemma mesh h v inst size dofs m dest Hm' Hs Hf Hu Hz) as (m1 & values & E & _).
  destruct (extract_merge_lemma mesh h dest inst size dofs m v m1 values Hm' Hs Hf Hu Hz E) as (m2 & v2 & H).
  exists m1, values, m2, v2. split; auto.
Qed.
Print Assumptions C29_extract_merge_partial.

(** two elements sharing node 2, dof type 0 with two components, dof type 1 with one component at node 3 *)
Definition mesh_29 : list felement :=
  [fun d => if Z.eqb d 0 then Some [1%Z; 2%Z] else None; fun d => if Z.eqb d 0 then Some [2%Z] else if Z.eqb d 1 then Some [3%Z] else None].
Definition num_29 : nodes := fun a => if Z.eqb a 1 then [3; 1]%Z else if Z.eqb a 2 then [0; 2]%Z else if Z.eqb a 3 then [0]%Z else [].
Definition val_29 : node_values := fun a => if Z.eqb a 1 then [[10; 11]%R] else if Z.eqb a 2 then [[12; 13]%R] else if Z.eqb a 3 then [[14]%R] else [].
Definition size_29 (d : Z) : nat := if Z.eqb d 0 then 4 else 1.

Lemma in_mesh_29 d a : in_mesh mesh_29 d a <-> (d = 0 /\ (a = 1 \/ a = 2))%Z \/ (d = 1 /\ a = 3)%Z.
Proof.
  split.
  - intros (e & l & [<-|[<-|[]]] & He & Ha); destruct (Z.eqb_spec d 0) as [->|]; try discriminate.
    + injection He as <-. simpl in Ha. intuition.
    + injection He as <-. simpl in Ha. intuition.
    + destruct (Z.eqb_spec d 1) as [->|]; [|discriminate]. injection He as <-. simpl in Ha. intuition.
  - intros [(-> & [->| ->])|(-> & ->)].
    + eexists (nth 0 mesh_29 _), _. split; [left; reflexivity|]. split; [reflexivity|]. simpl; auto.
    + eexists (nth 0 mesh_29 _), _. split; [left; reflexivity|]. split; [reflexivity|]. simpl; auto.
    + eexists (nth 1 mesh_29 _), _. split; [right; left; reflexivity|]. split; [reflexivity|]. simpl; auto.
  Unshelve. all: exact (fun _ => None).
Qed.

Example C29_example : merger_state mesh_29 [] /\ vector_fits mesh_29 num_29 val_29 0 [0; 1]%Z size_29 /\
  numbers_unique mesh_29 num_29 [0; 1]%Z /\ numbers_complete mesh_29 num_29 [0; 1]%Z size_29.
Proof.
  split; [constructor|]. split; [split; [|split]|split].
  - repeat constructor; simpl; intuition lia.
  - intros d a _ Ha. apply in_mesh_29 in Ha. destruct Ha as [(-> & [->| ->])|(-> & ->)]; cbn.
    + split; [eexists; split; [reflexivity|reflexivity]|]. split; [reflexivity|]. intros [|[|i]] Hi; [exists 3|exists 1|lia]; split; try reflexivity; cbn; lia.
    + split; [eexists; split; [reflexivity|reflexivity]|]. split; [reflexivity|]. intros [|[|i]] Hi; [exists 0|exists 2|lia]; split; try reflexivity; cbn; lia.
    + split; [eexists; split; [reflexivity|reflexivity]|]. split; [reflexivity|]. intros [|i] Hi; [exists 0|lia]; split; try reflexivity; cbn; lia.
  - intros d d' a _ _ H H'. apply in_mesh_29 in H, H'. lia.
  - intros d a a' i i' n _ H H' Hn Hn'. apply in_mesh_29 in H, H'. unfold numbered_as in *.
    destruct H as [(-> & [->| ->])|(-> & ->)], H' as [(Hd & [->| ->])|(Hd & ->)]; try discriminate; cbn in *;
      destruct i as [|[|i]], i' as [|[|i']]; cbn in *; try discriminate; try (split; reflexivity);
      try (destruct i; discriminate); try (destruct i'; discriminate);
      injection Hn as Hn; injection Hn' as Hn'; lia.
  - intros d n [<-|[<-|[]]] Hn; cbn in Hn.
    + destruct n as [|[|[|[|n]]]]; [exists 2%Z, 0|exists 1%Z, 1|exists 2%Z, 1|exists 1%Z, 0|lia]; (split; [apply in_mesh_29; lia|reflexivity]).
    + destruct n as [|n]; [exists 3%Z, 0|lia]. split; [apply in_mesh_29; lia|reflexivity].
Qed.

(** FINDING: the nodes of a dof type are looked up once. After an element with a new node was added to
    the mesh, Merge does not write to the new node, although it is part of the mesh and has a dof number. *)
Theorem C29_added_nodes_refuted :
  ~ (forall mesh added h h' (values values' : dofvec R_cring) dofs m m1 v v1 v' m2 v2 size,
       merger_state mesh m -> merge mesh h values dofs 0 m v = Ok (m1, v1) ->
       vector_fits (mesh ++ added) h' v' 0 dofs size -> (forall d, In d dofs -> @size_of R_cring values' d = Some (size d)) ->
       merge (mesh ++ added) h' values' dofs 0 m1 v' = Ok (m2, v2) ->
       forall d a i n, In d dofs -> in_mesh (mesh ++ added) d a -> numbered_as h' a i n -> component v2 0 a i = Some (@val R_cring values' d n)).
Proof.
  intros H.
  pose (el := fun a : Z => fun d : Z => if Z.eqb d 0 then Some [a] else None : option (list Z)).
  pose (h := fun a : Z => if Z.eqb a 1 then [0]%Z else if Z.eqb a 2 then [1]%Z else []).
  pose (v := fun a : Z => if Z.eqb a 1 then [[0]]%R else if Z.eqb a 2 then [[0]]%R else []).
  assert (E1 : exists m1 v1, merge [el 1%Z] h [(0%Z, [5%R])] [0%Z] 0 [] v = Ok (m1, v1) /\ m1 = [(0%Z, [1%Z])]) by (eexists _, _; split; reflexivity).
  destruct E1 as (m1 & v1 & E1 & Hm1).
  assert (E2 : exists m2 v2, merge ([el 1%Z] ++ [el 2%Z]) h [(0%Z, [5; 6]%R)] [0%Z] 0 m1 v = Ok (m2, v2) /\ component v2 0 2 0 = Some 0%R)
    by (rewrite Hm1; eexists _, _; split; reflexivity).
  destruct E2 as (m2 & v2 & E2 & Hc).
  assert (Hin : forall d a, in_mesh ([el 1%Z] ++ [el 2%Z]) d a -> d = 0%Z /\ (a = 1 \/ a = 2)%Z).
  { intros d a (e & l & [<-|[<-|[]]] & He & Ha); unfold el in He; destruct (Z.eqb_spec d 0) as [->|]; try discriminate;
      injection He as <-; simpl in Ha; intuition. }
  assert (C : component v2 0 2 0 = Some (@val R_cring [(0%Z, [5; 6]%R)] 0 1)).
  { apply (H [el 1%Z] [el 2%Z] h h [(0%Z, [5%R])] [(0%Z, [5; 6]%R)] [0%Z] [] m1 v v1 v m2 v2 (fun _ => 2)); auto.
    - constructor.
    - split; [repeat constructor; simpl; tauto|]. split.
      + intros d a _ Ha. apply Hin in Ha. destruct Ha as (-> & [->| ->]); cbn.
        * split; [eexists; split; reflexivity|]. split; [reflexivity|]. intros [|i] Hi; [exists 0|lia]. split; [reflexivity|lia].
        * split; [eexists; split; reflexivity|]. split; [reflexivity|]. intros [|i] Hi; [exists 1|lia]. split; [reflexivity|lia].
      + intros d d' a _ _ Ha Ha'. apply Hin in Ha, Ha'. lia.
    - intros d [<-|[]]. reflexivity.
    - left; reflexivity.
    - exists (el 2%Z), [2%Z]. simpl; auto.
    - reflexivity. }
  rewrite Hc in C. cbn in C. injection C as C. revert C. change (0 <> 6)%R. apply Rlt_not_eq. apply (IZR_lt 0 6). lia.
Qed.
Print Assumptions C29_added_nodes_refuted.
