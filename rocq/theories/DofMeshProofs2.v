(** * Proofs for C50, continued: the loops of AddDofInterpolation *)
From Coq Require Import List ZArith Arith Reals Lra Lia.
From Flocq Require Import Core.Raux.
From Verif Require Import Outcome RSum AdaptiveModel AdaptiveProofs CellModel MeshModel MeshSpec MeshProofs UnitMeshProofs
  DofMeshModel DofMeshProofs.
Import ListNotations.
Local Open Scope R_scope.

Lemma for_each_inv {A S} (I : list A -> S -> Prop) (f : S -> A -> outcome S) l : forall pre s, I pre s ->
  (forall done a rest s, pre ++ l = done ++ a :: rest -> I done s -> exists s', f s a = Ok s' /\ I (done ++ [a]) s') ->
  exists s', for_each l f s = Ok s' /\ I (pre ++ l) s'.
Proof.
  induction l as [|a l IH]; intros pre s Hs H; simpl.
  - exists s. rewrite app_nil_r. auto.
  - destruct (H pre a l s eq_refl Hs) as (s1 & -> & H1). cbn [obind].
    destruct (IH (pre ++ [a]) s1 H1) as (s2 & E2 & H2).
    + intros done b rest s' E. apply (H done b rest). rewrite <- E, <- app_assoc. reflexivity.
    + exists s2. split; [exact E2|]. rewrite <- app_assoc in H2. exact H2.
Qed.

(** ** points *)
Definition pad (dim : nat) (p : nat -> R) : p3 :=
  (if Nat.ltb 0 dim then p 0%nat else 0, if Nat.ltb 1 dim then p 1%nat else 0, if Nat.ltb 2 dim then p 2%nat else 0).
Lemma to3d_map dim f : (dim <= 3)%nat -> to3d (map f (seq 0 dim)) = Ok (pad dim f).
Proof. intros H. destruct dim as [|[|[|[|dim]]]]; try lia; reflexivity. Qed.
Lemma to3d_list dim l : length l = dim -> (dim <= 3)%nat -> to3d l = Ok (pad dim (comp l)).
Proof.
  intros Hl H. destruct l as [|x [|y [|z [|w l]]]]; simpl in Hl; subst dim; try reflexivity. simpl in H. lia.
Qed.
Lemma distance_close dim p q eps : (dim <= 3)%nat -> 0 < eps -> (distance dim p q < eps <-> close eps (pad dim p) (pad dim q)).
Proof.
  intros Hd He. unfold distance, close.
  assert (E : sqnorm_diff (pad dim p) (pad dim q) = rsum dim (fun i => (p i - q i) ^ 2)).
  { destruct dim as [|[|[|[|dim]]]]; try lia; unfold sqnorm_diff, pad; cbn [px py pz fst snd Nat.ltb Nat.leb rsum]; unfold px, py, pz; cbn [fst snd]; ring. }
  rewrite E. set (s := rsum _ _). assert (0 <= s) by (apply rsum_nonneg; intros; apply pow2_ge_0). split; intros H1.
  - rewrite <- (sqrt_sqrt s) by assumption. pose proof (sqrt_pos s). nra.
  - destruct (Rlt_le_dec (sqrt s) eps) as [G|G]; [exact G|]. exfalso.
    assert (eps * eps <= s); [|lra]. rewrite <- (sqrt_sqrt s) by assumption. apply Rmult_le_compat; lra.
Qed.

(** ** the domain *)
Section Domain.
  Variables (values : Z -> list R) (dim : nat) (elements : list collection).
  Hypothesis Hdim : (dim <= 3)%nat.
  Hypothesis Hmesh : mesh_ok values dim elements.

  Definition covers (nodes : Z -> Prop) (se : list R * list R) : Prop :=
    length (fst se) = dim /\ length (snd se) = dim
    /\ (forall n i, nodes n -> (i < dim)%nat -> comp (fst se) i <= comp (values n) i <= comp (snd se) i)
    /\ (forall i, (i < dim)%nat -> exists n m, coordinate_node elements n /\ coordinate_node elements m
         /\ comp (fst se) i = comp (values n) i /\ comp (snd se) i = comp (values m) i).

  Lemma vmin_length a b : length (vmin a b) = Nat.min (length a) (length b).
  Proof. unfold vmin. rewrite map_length, combine_length. reflexivity. Qed.
  Lemma vmax_length a b : length (vmax a b) = Nat.min (length a) (length b).
  Proof. unfold vmax. rewrite map_length, combine_length. reflexivity. Qed.
  Lemma vmin_comp : forall a b i, (i < length a)%nat -> length a = length b -> comp (vmin a b) i = Rmin (comp a i) (comp b i).
  Proof.
    induction a as [|x a IH]; intros [|y b] i Hi Hl; simpl in *; try lia. destruct i as [|i]; [reflexivity|].
    apply (IH b i); lia.
  Qed.
  Lemma vmax_comp : forall a b i, (i < length a)%nat -> length a = length b -> comp (vmax a b) i = Rmax (comp a i) (comp b i).
  Proof.
    induction a as [|x a IH]; intros [|y b] i Hi Hl; simpl in *; try lia. destruct i as [|i]; [reflexivity|].
    apply (IH b i); lia.
  Qed.

  Lemma covers_step nodes s e n : covers nodes (s, e) -> length (values n) = dim -> coordinate_node elements n ->
    covers (fun m => nodes m \/ m = n) (vmin s (values n), vmax e (values n)).
  Proof.
    intros (Hs & He & Hc & Ht) Hv Hcn. cbn [fst snd] in *. split; [|split; [|split]].
    - cbn [fst]. rewrite vmin_length, Hs, Hv. apply Nat.min_id.
    - cbn [snd]. rewrite vmax_length, He, Hv. apply Nat.min_id.
    - intros m i Hm Hi. cbn [fst snd]. rewrite vmin_comp, vmax_comp by congruence || (rewrite ?Hs, ?He, ?Hv; auto).
      destruct Hm as [Hm| ->].
      + specialize (Hc m i Hm Hi). pose proof (Rmin_l (comp s i) (comp (values n) i)). pose proof (Rmax_l (comp e i) (comp (values n) i)). lra.
      + split; [apply Rmin_r|apply Rmax_r].
    - intros i Hi. cbn [fst snd]. rewrite vmin_comp, vmax_comp by congruence || (rewrite ?Hs, ?He, ?Hv; auto).
      destruct (Ht i Hi) as (a & b & Ha & Hb & -> & ->).
      destruct (Rmin_case_strong (comp (values a) i) (comp (values n) i)
        (fun r => exists a', coordinate_node elements a' /\ r = comp (values a') i)) as (a' & Ha' & ->); [eauto|eauto|].
      destruct (Rmax_case_strong (comp (values b) i) (comp (values n) i)
        (fun r => exists a', coordinate_node elements a' /\ r = comp (values a') i)) as (b' & Hb' & ->); [eauto|eauto|].
      exists a', b'. auto.
  Qed.
  Lemma covers_weaken (P Q : Z -> Prop) se : covers P se -> (forall n, Q n -> P n) -> covers Q se.
  Proof. intros (A & B & C & D) H. split; [exact A|split; [exact B|split; [|exact D]]]. intros. apply C; auto. Qed.

  Lemma setup_domain_spec numBoxes eps : elements <> [] ->
    exists s e, setup_domain values elements numBoxes eps
      = Ok (mkDomain (add_const (pad dim (comp s)) (- eps)) (add_const (pad dim (comp e)) eps)
             ((if Nat.ltb 0 dim then numBoxes else 1%Z), (if Nat.ltb 1 dim then numBoxes else 1%Z),
              (if Nat.ltb 2 dim then numBoxes else 1%Z)) (eps * eps))
      /\ covers (coordinate_node elements) (s, e).
  Proof.
    intros Hne. unfold setup_domain. destruct elements as [|c0 es] eqn:Eel; [congruence|]. rewrite <- Eel in *.
    assert (Hc0 : In c0 elements) by (rewrite Eel; left; reflexivity).
    destruct (Hmesh c0 Hc0) as ((Hn0 & Hl0 & Hv0) & _).
    destruct (get_node_spec (ecoord c0) 0) as (n0 & -> & _ & _ & Hin0).
    { destruct (enodes (ecoord c0)); [congruence|simpl; lia]. }
    cbn [obind].
    destruct (for_each_inv (fun done se => covers (fun n => exists c, In c done /\ In n (enodes (ecoord c))) se)
      (fun se c => for_each (seq 0 (length (enodes (ecoord c)))) (fun '(s, e) i =>
          obind (get_node (ecoord c) i) (fun n =>
            if Nat.eqb (length s) (length (values n)) then Ok (vmin s (values n), vmax e (values n)) else UB)) se)
      elements [] (values n0, values n0)) as ((s & e) & -> & Hse).
    - split; [apply Hv0, Hin0|]. split; [apply Hv0, Hin0|]. split; [intros n i (c & [] & _)|].
      intros i Hi. exists n0, n0. cbn [fst snd]. assert (coordinate_node elements n0) by (exists c0; auto). auto.
    - intros done c rest se E Hc. simpl in E.
      assert (Hin : In c elements) by (rewrite E; apply in_app_iff; right; left; reflexivity).
      destruct (Hmesh c Hin) as ((_ & _ & Hv) & _).
      destruct (for_each_inv (fun di se => covers (fun n => (exists c, In c done /\ In n (enodes (ecoord c)))
            \/ exists i, In i di /\ nth_error (enodes (ecoord c)) i = Some n) se)
        (fun '(s, e) i => obind (get_node (ecoord c) i) (fun n =>
            if Nat.eqb (length s) (length (values n)) then Ok (vmin s (values n), vmax e (values n)) else UB))
        (seq 0 (length (enodes (ecoord c)))) [] se) as (se' & E' & Hse').
      + apply (covers_weaken _ _ _ Hc). intros n [H|(i & [] & _)]. exact H.
      + intros di i ri (s & e) Ei Hcov. simpl in Ei.
        assert (Hi : (i < length (enodes (ecoord c)))%nat).
        { assert (G : In i (seq 0 (length (enodes (ecoord c))))) by (rewrite Ei; apply in_app_iff; right; left; reflexivity).
          apply in_seq in G. lia. }
        destruct (get_node_spec (ecoord c) i Hi) as (n & -> & Hn & _ & Hnin). cbn [obind].
        pose proof Hcov as (Hs & He & _). cbn [fst snd] in Hs, He. rewrite Hs, (Hv n Hnin), Nat.eqb_refl.
        eexists. split; [reflexivity|]. apply (covers_weaken _ _ _ (covers_step _ s e n Hcov (Hv n Hnin) (ex_intro _ c (conj Hin Hnin)))).
        intros m [Hm|(i' & Hi' & Hm)]; [auto|]. apply in_app_iff in Hi'. destruct Hi' as [Hi'|[<- |[]]].
        * left. right. exists i'. auto.
        * right. rewrite Hn in Hm. congruence.
      + exists se'. split; [exact E'|]. apply (covers_weaken _ _ _ Hse'). intros n (c' & Hc' & Hn).
        apply in_app_iff in Hc'. destruct Hc' as [Hc'|[<- |[]]]; [left; exists c'; auto|].
        right. apply In_nth_error in Hn. destruct Hn as (i & Hi). exists i. split; [|exact Hi].
        simpl. apply in_seq. split; [lia|]. simpl. apply nth_error_Some. rewrite Hi. discriminate.
    - cbn [obind]. simpl in Hse. pose proof Hse as (Hs & He & _). cbn [fst snd] in Hs, He.
      rewrite (to3d_list dim s), (to3d_list dim e) by auto. cbn [obind]. cbv zeta. rewrite Hs.
      exists s, e. split; [reflexivity|]. exact Hse.
  Qed.

  Lemma domain_spec eps : elements <> [] -> 0 < eps -> node_box_wide values dim elements (298 * eps) ->
    exists d b0, setup_domain values elements 300 eps = Ok d /\ domain_ok d eps /\ make_boxes d = Ok b0 /\ boxes_hold d b0 []
      /\ forall p, in_node_box values dim elements p -> in_domain d eps (pad dim p).
  Proof.
    intros Hne He Hw. destruct (setup_domain_spec 300 eps Hne) as (s & e & E & (_ & _ & Hc & _)). cbn [fst snd] in Hc.
    eexists. exists (fun _ => []). split; [exact E|].
    assert (W : forall i, (i < dim)%nat -> 298 * eps <= comp e i - comp s i).
    { intros i Hi. destruct (Hw i Hi) as (n & m & Hn & Hm & H). pose proof (Hc n i Hn Hi). pose proof (Hc m i Hm Hi). lra. }
    match goal with |- domain_ok ?d _ /\ _ => set (dd := d) end.
    assert (Dl : eps <= px (delta dd) /\ eps <= py (delta dd) /\ eps <= pz (delta dd)).
    { unfold delta, dd, add_const, pad; cbn [dsubs dstart dend px py pz fst snd].
      assert (A : forall i (H : {(i < dim)%nat} + {~ (i < dim)%nat}),
         eps <= ((if Nat.ltb i dim then comp e i else 0) + eps - ((if Nat.ltb i dim then comp s i else 0) + - eps))
           / IZR (if Nat.ltb i dim then 300%Z else 1%Z)).
      { intros i [H|H].
        - specialize (W i H). apply Nat.ltb_lt in H. rewrite H. unfold Rdiv. lra.
        - assert (G : Nat.ltb i dim = false) by (apply Nat.ltb_ge; lia). rewrite G. lra. }
      split; [|split]; (unfold px, py, pz; cbn [fst snd]; apply A; apply lt_dec). }
    assert (Dok : domain_ok dd eps).
    { constructor; [exact He|reflexivity| |exact Dl]. unfold dd; cbn [dsubs].
      destruct (Nat.ltb 0 dim), (Nat.ltb 1 dim), (Nat.ltb 2 dim); lia. }
    split; [exact Dok|]. split; [|split].
    - unfold make_boxes. cbv zeta. rewrite (dk_r2 _ _ Dok).
      match goal with |- context [rltb (?m * ?m) _] => assert (M : eps <= m) by (destruct Dl as (A & B & C); repeat apply Rmin_glb; assumption) end.
      match goal with |- context [rltb ?a ?b] => destruct (rltb_spec a b) as [(-> & H)|(-> & H)] end; [exfalso; nra|reflexivity].
    - split; [intros ? ? ? ? []|intros ? ? []].
    - intros p Hp. unfold in_domain, dd, add_const, pad; cbn [dstart dend px py pz fst snd]. unfold px, py, pz; cbn [fst snd].
      assert (A : forall i, ((if Nat.ltb i dim then comp s i else 0) + - eps) + eps <= (if Nat.ltb i dim then p i else 0)
                 <= ((if Nat.ltb i dim then comp e i else 0) + eps) - eps).
      { intros i. destruct (Nat.ltb_spec i dim) as [H|H]; [|lra]. destruct (Hp i H) as ((n & Hn & Hnl) & (m & Hm & Hml)).
        pose proof (Hc n i Hn H). pose proof (Hc m i Hm H). lra. }
      split; [apply (A 0%nat)|split; [apply (A 1%nat)|apply (A 2%nat)]].
  Qed.
End Domain.
