(** * C50: AddDofInterpolation refuses elements that have the dof already

    A group that contains an element twice, an element that already has an element of this dof type, or an element of
    another shape than the given interpolation is rejected with an exception: no element gets a second set of nodes. *)
From Coq Require Import List ZArith Arith Reals Lra Lia.
From Verif Require Import Outcome RSum CellModel InterpolationModel MeshModel MeshSpec UnitMeshProofs DofMeshModel
  DofMeshProofs DofMeshProofs2 DofMeshProofs3 DofMeshProofs4 PropDofMesh.
Import ListNotations.
Local Open Scope R_scope.

Lemma for_each_split {A S} (f : S -> A -> outcome S) l1 a l2 s s1 : for_each l1 f s = Ok s1 ->
  for_each (l1 ++ a :: l2) f s = obind (f s1 a) (fun s2 => for_each l2 f s2).
Proof.
  revert s. induction l1 as [|b l1 IH]; intros s; cbn [for_each app].
  - intros [= ->]. reflexivity.
  - destruct (f s b) as [s'| |]; cbn [obind]; [apply IH|discriminate|discriminate].
Qed.

Theorem C50_repeated_element_rejected garbage values dim elements next dof before idx after optIp c :
  let eps := / 10 ^ 10 in
  let P := fun p => (exists n, dof_node_at values elements dof n p) \/ new_point values elements (before ++ [idx]) optIp p in
  (dim <= 3)%nat -> elements <> [] -> mesh_ok values dim elements -> node_box_wide values dim elements (298 * eps) ->
  NoDup before ->
  (forall i, In i before -> exists c, nth_error elements i = Some c /\ edof c dof = None
     /\ itype (einterp (ecoord c)) = itype (new_interp optIp c)) ->
  (forall p, P p -> in_node_box values dim elements p) ->
  (forall p q r, P p -> P q -> P r -> distance dim p q < eps -> distance dim q r < eps -> distance dim p r < eps) ->
  nodes_shared values dim elements dof eps ->
  (forall n p, dof_node_at values elements dof n p -> (n < next)%Z) ->
  nth_error elements idx = Some c ->
  In idx before \/ edof c dof <> None \/ itype (einterp (ecoord c)) <> itype (new_interp optIp c) ->
  add_dof_interpolation garbage values elements next dof (before ++ idx :: after) optIp = Throw.
Proof.
  intros eps P Hdim Hne Hmesh Hwide Hnd Hg Hbox Htrans Hshared Hnext Hc Hbad.
  assert (He : 0 < eps) by (unfold eps; apply Rinv_0_lt_compat, pow_lt; lra).
  destruct (domain_spec values dim elements Hdim Hmesh eps Hne He Hwide) as (d & b0 & Ed & Dok & Eb & Hb0 & Hin).
  unfold add_dof_interpolation. fold eps. rewrite Ed. cbn [obind]. rewrite Eb. cbn [obind].
  destruct (node_points_total_spec garbage values dim elements dof Hdim Hmesh) as (nps & -> & Hn1 & Hn2). cbn [obind].
  destruct (box_add_all d eps [] Dok nps b0 Hb0) as (b1 & -> & Hb1).
  { intros (q & n) Hq. destruct (Hn1 q n Hq) as (p & Hp & ->). apply Hin, Hbox. left. exists n. exact Hp. }
  cbn [obind app] in *.
  assert (Pr0 : Progress values dim eps d P elements dof optIp next [] (mkDstate b1 next elements)).
  { split; [|split; [|split]]; cbn [dboxes dnext delems].
    - exists nps. split; [|exact Hn2]. exists nps. split; [exact Hb1|]. split; [apply incl_refl|]. split.
      + intros q n Hq. destruct (Hn1 q n Hq) as (p & Hp & ->). split; [exists p; split; [left; exists n; exact Hp|reflexivity]|].
        split; [exact (Hnext n p Hp)|]. exists (pad dim p). split; [exact Hq|]. apply close_refl. exact He.
      + intros q n q' n' Hq Hq'. destruct (Hn1 q n Hq) as (p & Hp & ->). destruct (Hn1 q' n' Hq') as (p' & Hp' & ->).
        rewrite (Hshared n p n' p' Hp Hp'). apply distance_close; assumption.
    - lia.
    - reflexivity.
    - intros i ci Hci. exists ci. split; [exact Hci|]. split; [reflexivity|]. split; [reflexivity|]. split; [reflexivity|]. intros []. }
  destruct (convert_all garbage values dim eps d Hdim Dok P (fun p Hp => Hin p (Hbox p Hp)) Htrans elements dof optIp next Hmesh
    before (mkDstate b1 next elements) Pr0 Hnd) as (s & Es & ((A & HI & HA) & Hle & Hlen & Hel)).
  { intros i Hi. destruct (Hg i Hi) as (ci & Hci & H1 & H2). exists ci. split; [exact Hci|]. split; [exact H1|].
    split; [exact H2|]. intros k Hk. right. exists i, ci, k. rewrite in_app_iff. auto. }
  rewrite (for_each_split _ before idx after _ s Es).
  enough (convert_element garbage values d dof optIp s idx = Throw) as -> by reflexivity.
  destruct (Hel idx c Hc) as (c' & Hc' & Ecoord & _ & Enot & Eyes).
  unfold convert_element. rewrite Hc'. cbv zeta. rewrite Ecoord.
  change (match optIp with Some ip => ip | None => einterp (ecoord c) end) with (new_interp optIp c).
  destruct (Nat.eqb_spec (itype (einterp (ecoord c))) (itype (new_interp optIp c))) as [Ht|Ht]; cbn [negb]; [|reflexivity].
  destruct (Hmesh c (nth_error_In _ _ Hc)) as (Hok & _).
  destruct (points_loop garbage values dim eps d Hdim Dok P (fun p Hp => Hin p (Hbox p Hp)) Htrans A (dboxes s) (dnext s)
    (ecoord c) (new_interp optIp c) HI Hok) as (b' & next' & nodes & A' & -> & _).
  { intros k Hk. right. exists idx, c, k. rewrite in_app_iff. cbn [In]. auto. }
  cbn [obind]. unfold add_dof_element.
  assert (Hsome : edof c' dof <> None).
  { destruct (in_dec Nat.eq_dec idx before) as [Hi|Hi].
    - destruct (Eyes Hi) as (de & -> & _). discriminate.
    - rewrite (Enot Hi). destruct Hbad as [Hb|[Hb|Hb]]; [contradiction|exact Hb|contradiction]. }
  destruct (edof c' dof); [reflexivity|congruence].
Qed.
Print Assumptions C50_repeated_element_rejected.

(** two line elements, the first of them twice in the group *)
Example C50_repeated_case garbage :
  add_dof_interpolation garbage two_lines_values two_lines 10 7 [0; 1; 0]%nat (Some (of_table truss_quadratic 0)) = Throw.
Proof.
  set (eps := / 10 ^ 10). assert (He : 0 < eps < 1 / 1000000000) by (unfold eps; simpl; lra).
  assert (Pt : forall p, (exists n, dof_node_at two_lines_values two_lines 7 n p)
       \/ new_point two_lines_values two_lines ([0; 1] ++ [0])%nat (Some (of_table truss_quadratic 0)) p ->
     p 0%nat = 0 \/ p 0%nat = 1 / 2 \/ p 0%nat = 1 \/ p 0%nat = 3 / 2 \/ p 0%nat = 2).
  { intros p [(n & c & de & k & [<- |[<- |[]]] & Hde & _)|(idx & c & k & Hin & Hc & Hk & ->)]; try discriminate.
    simpl in Hk. destruct Hin as [<- |[<- |[<- |[]]]]; injection Hc as <-;
      (destruct k as [|[|[|k]]]; [| | |lia]); unfold position, two_lines_values; cbn; lra. }
  assert (Dist : forall p q, distance 1 p q < eps <-> Rabs (p 0%nat - q 0%nat) < eps).
  { intros p q. unfold distance. cbn [rsum]. replace (0 + (p 0%nat - q 0%nat) ^ 2) with (Rsqr (p 0%nat - q 0%nat)) by (unfold Rsqr; ring).
    rewrite sqrt_Rsqr_abs. reflexivity. }
  assert (N0 : coordinate_node two_lines 0) by (eexists; split; [left; reflexivity|simpl; auto]).
  assert (N2 : coordinate_node two_lines 2) by (eexists; split; [right; left; reflexivity|simpl; auto]).
  assert (C : forall u, Rabs u < eps -> - (1 / 1000000000) < u < 1 / 1000000000).
  { intros u Hu. apply Rabs_def2 in Hu. lra. }
  eapply (C50_repeated_element_rejected garbage two_lines_values 1 two_lines 10 7 [0; 1]%nat 0 []).
  - lia.
  - discriminate.
  - intros c [<- |[<- |[]]]; (split; [split; [discriminate|split; [reflexivity|reflexivity]]|intros d de Hd; discriminate]).
  - intros i Hi. replace i with 0%nat by lia. exists 0%Z, 2%Z.
    split; [exact N0|]. split; [exact N2|].
    unfold comp, two_lines_values. cbn [nth]. fold eps. lra.
  - repeat constructor; simpl; intuition discriminate.
  - intros idx [<- |[<- |[]]]; eexists; (split; [reflexivity|split; reflexivity]).
  - intros p Hp. specialize (Pt p Hp). intros i Hi. replace i with 0%nat by lia. split; [exists 0%Z|exists 2%Z];
      (split; [assumption|unfold comp, two_lines_values; cbn; lra]).
  - fold eps. intros p q r Hp Hq Hr H1 H2. apply Dist in H1, H2. apply Dist. apply C in H1, H2.
    specialize (Pt p Hp) as Hp'. specialize (Pt q Hq) as Hq'. specialize (Pt r Hr) as Hr'.
    assert (EE : p 0%nat = r 0%nat).
    { assert (p 0%nat = q 0%nat) by (destruct Hp' as [A|[A|[A|[A|A]]]], Hq' as [B|[B|[B|[B|B]]]]; lra).
      assert (q 0%nat = r 0%nat) by (destruct Hr' as [A|[A|[A|[A|A]]]], Hq' as [B|[B|[B|[B|B]]]]; lra). lra. }
    rewrite EE. unfold Rminus. rewrite Rplus_opp_r, Rabs_R0. lra.
  - intros n p n' p' (c & de & k & [<- |[<- |[]]] & Hde & _); discriminate.
  - intros n p (c & de & k & [<- |[<- |[]]] & Hde & _); discriminate.
  - reflexivity.
  - left. left. reflexivity.
Qed.
