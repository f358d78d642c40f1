(** C83, continued: Hessian0 and UpdateHistory of a time dependent problem. *)
From Coq Require Import List ZArith Arith Bool Lia Lra Reals.
From Verif Require Import Outcome DofModel DofSpec DofProofs Algebra ConstraintModel MergerModel MergerSpec MergerProofs AssemblerModel AssemblerSpec AssemblerProofs
  CellModel CellProofs TdpModel TdpSpec TdpProofs2.
Import ListNotations.

(** Hessian0 puts the given values at the nodes and returns, for every schedule of the assembler's threads, the sum over
    all Hessian functions and their cells, evaluated at those values, at the given time and time step *)
Theorem C83_hessian : forall mesh threads fs s values dofs t dt size,
  memo_current mesh (t_memo s) -> 0 < threads -> sizes_known (t_info s) dofs size ->
  vector_fits mesh (t_nodes s) (t_values s) 0 dofs size -> (forall d, In d dofs -> @size_of R_cring values d = Some (size d)) ->
  (forall f v, In f fs -> Forall (mcell_fits dofs size) (f t dt v (t_nodes s))) ->
  exists v',
    (forall d a i n, In d dofs -> in_mesh mesh d a -> numbered_as (t_nodes s) a i n -> component v' 0 a i = Some (@val R_cring values d n)) /\
    (forall a i j, j <> 0 \/ ~ (exists d, In d dofs /\ in_mesh mesh d a) -> component v' j a i = component (t_values s) j a i) /\
    (exists r, tdp_hessian mesh threads fs s values dofs t dt r) /\
    forall r, tdp_hessian mesh threads fs s values dofs t dt r ->
      exists m' g, r = Ok (mkTdp m' (t_nodes s) v' (t_info s), g) /\ memo_current mesh m' /\
        (fs <> [] -> forall a b, In a dofs -> In b dofs -> exists k, mat_at g a b = Some k /\ srows k = size a /\ scols k = size b /\ in_range k) /\
        (forall a b i j, In a dofs -> In b dofs ->
           at_entry g a b i j = @sum_over R_cring _ fs (fun f => @sum_over R_cring _ (f t dt v' (t_nodes s)) (fun c => mcell_contrib c a b i j))) /\
        (forall a b, ~ (In a dofs /\ In b dofs) -> mat_at g a b = None).
Proof.
  intros mesh threads fs s values dofs t dt size Hm Hth Hsz Hfit Hval Hcells.
  destruct (merge_lemma mesh (t_nodes s) values 0 size dofs (t_memo s) (t_values s) Hm Hfit Hval) as (m' & v' & E & Hm' & _ & _ & V1 & V2).
  destruct (hessian_loop_spec (t_info s) threads dofs t dt v' (t_nodes s) size (proj1 Hfit) Hth Hsz fs []) as ((g & Hg) & Hall).
  - split; [constructor|]. intros a b. left. reflexivity.
  - intros f Hf. apply Hcells. exact Hf.
  - exists v'. split; [exact V1|]. split; [exact V2|]. split.
    + exists (omap (fun g => (mkTdp m' (t_nodes s) v' (t_info s), g)) (Ok g)). apply th_merged; assumption.
    + intros r Hr. inversion Hr as [Em|Em|m v r' Em Hl]; try congruence. rewrite E in Em. injection Em as <- <-.
      destruct (Hall r' Hl) as (g' & -> & (_ & G1) & G2 & G3). exists m', g'. split; [reflexivity|]. split; [exact Hm'|]. split; [exact G2|]. split.
      * intros a b i j Ia Ib. rewrite (G3 a b i j Ia Ib). apply Rplus_0_l.
      * intros a b Hab. destruct (G1 a b) as [F|(Ia & Ib & _)]; [exact F|tauto].
Qed.
Print Assumptions C83_hessian.

(** UpdateHistory puts the given values at the nodes and calls each update function once for each integration point of
    each cell of its group, in the order of registration, of the group and of the points, with those values, the given
    time and the given time step.  [ips c i] is what the cell shows at point i *)
Theorem C83_update : forall (S : Type) mesh (fs : list (list ucell * update_function S)) ips s values dofs t dt size (x : S),
  memo_current mesh (t_memo s) -> vector_fits mesh (t_nodes s) (t_values s) 0 dofs size ->
  (forall d, In d dofs -> @size_of R_cring values d = Some (size d)) ->
  (forall cells f c i, In (cells, f) fs -> In c cells -> i < uc_ips c -> cell_point c i (ips c i)) ->
  exists m' v',
    (forall d a i n, In d dofs -> in_mesh mesh d a -> numbered_as (t_nodes s) a i n -> component v' 0 a i = Some (@val R_cring values d n)) /\
    (forall a i j, j <> 0 \/ ~ (exists d, In d dofs /\ in_mesh mesh d a) -> component v' j a i = component (t_values s) j a i) /\
    memo_current mesh m' /\
    tdp_update mesh fs s values dofs t dt x =
      Ok (mkTdp m' (t_nodes s) v' (t_info s), fold_left (fun y call => fst call y (snd call)) (calls ips t dt v' fs) x).
Proof.
  intros S mesh fs ips s values dofs t dt size x Hm Hfit Hval Hp.
  destruct (merge_lemma mesh (t_nodes s) values 0 size dofs (t_memo s) (t_values s) Hm Hfit Hval) as (m' & v' & E & Hm' & _ & _ & V1 & V2).
  exists m', v'. split; [exact V1|]. split; [exact V2|]. split; [exact Hm'|].
  unfold tdp_update. rewrite E. cbn [obind fst snd]. rewrite (update_loop_spec ips t dt v' fs Hp x). reflexivity.
Qed.
Print Assumptions C83_update.

(** history data per cell id and integration point: if the cells of the group have different ids, every point is updated
    exactly once, from the data it had before the call, and no other data change *)
Theorem C83_history_once : forall (H : Type) (g : R -> R -> node_values -> ipdata -> H -> H) mesh cells ips s values dofs t dt size (x : Z -> nat -> H),
  memo_current mesh (t_memo s) -> vector_fits mesh (t_nodes s) (t_values s) 0 dofs size ->
  (forall d, In d dofs -> @size_of R_cring values d = Some (size d)) ->
  (forall c i, In c cells -> i < uc_ips c -> cell_point c i (ips c i)) -> NoDup (map uc_id cells) ->
  exists m' v' x', tdp_update mesh [(cells, at_point g)] s values dofs t dt x = Ok (mkTdp m' (t_nodes s) v' (t_info s), x') /\
    (forall d a i n, In d dofs -> in_mesh mesh d a -> numbered_as (t_nodes s) a i n -> component v' 0 a i = Some (@val R_cring values d n)) /\
    (forall c i, In c cells -> i < uc_ips c -> x' (uc_id c) i = g t dt v' (ips c i) (x (uc_id c) i)) /\
    (forall k i, ~ (exists c, In c cells /\ uc_id c = k /\ i < uc_ips c) -> x' k i = x k i).
Proof.
  intros H g mesh cells ips s values dofs t dt size x Hm Hfit Hval Hp Hn.
  destruct (C83_update (Z -> nat -> H) mesh [(cells, at_point g)] ips s values dofs t dt size x Hm Hfit Hval) as (m' & v' & V1 & _ & _ & E).
  { intros cells' f c i [F|[]] Hc Hi. injection F as <- <-. apply Hp; assumption. }
  exists m', v'. eexists. split; [exact E|]. split; [exact V1|].
  unfold calls. cbn [flat_map fst snd]. rewrite app_nil_r.
  assert (Fold: forall l y, fold_left (fun y (call : ((Z -> nat -> H) -> ipdata -> Z -> nat -> H) * ipdata) => fst call y (snd call)) (map (fun ip => (at_point g t dt v', ip)) l) y = fold_left (store_update (g t dt v')) l y).
  { induction l as [|p l IH]; intros y; cbn [map fold_left fst snd]; [reflexivity|apply IH]. }
  rewrite Fold. destruct (points_keys ips cells Hp Hn) as (K1 & K2).
  destruct (store_fold (g t dt v') _ K1 x) as (S1 & S2). split.
  - intros c i Hc Hi. destruct (make_ip_fields _ _ _ _ _ _ i _ (Hp c i Hc Hi)) as (F1 & F2 & _).
    assert (Hin: In (ips c i) (points_of ips cells)).
    { unfold points_of. apply in_flat_map. exists c. split; [exact Hc|]. apply in_map. apply in_seq. lia. }
    pose proof (S1 _ Hin) as Q. rewrite F1, F2 in Q. exact Q.
  - intros k i Hk. apply S2. rewrite K2. exact Hk.
Qed.
Print Assumptions C83_history_once.

(** Bind, Bind_t and Bind_dt: functions of the cell alone, of the time and of the time step are added to a problem; its Hessian0 is the
    sum of all of them, those of the time at the given time and those of the time step at the given time step *)
Theorem C83_bind : forall mesh threads (plain : list (node_values -> nodes -> list (mcell R_cring))) timed stepped s values dofs t dt size,
  memo_current mesh (t_memo s) -> 0 < threads -> sizes_known (t_info s) dofs size ->
  vector_fits mesh (t_nodes s) (t_values s) 0 dofs size -> (forall d, In d dofs -> @size_of R_cring values d = Some (size d)) ->
  (forall f v, In f plain -> Forall (mcell_fits dofs size) (f v (t_nodes s))) ->
  (forall f v, In f timed -> Forall (mcell_fits dofs size) (f t v (t_nodes s))) ->
  (forall f v, In f stepped -> Forall (mcell_fits dofs size) (f dt v (t_nodes s))) ->
  let total (cells : list (mcell R_cring)) a b i j := @sum_over R_cring _ cells (fun c => mcell_contrib c a b i j) in
  exists v', forall r, tdp_hessian mesh threads (map bind_none plain ++ map bind_t timed ++ map bind_dt stepped) s values dofs t dt r ->
    exists m' g, r = Ok (mkTdp m' (t_nodes s) v' (t_info s), g) /\
      forall a b i j, In a dofs -> In b dofs ->
        at_entry g a b i j = (@sum_over R_cring _ plain (fun f => total (f v' (t_nodes s)) a b i j) +
          (@sum_over R_cring _ timed (fun f => total (f t v' (t_nodes s)) a b i j) + @sum_over R_cring _ stepped (fun f => total (f dt v' (t_nodes s)) a b i j)))%R.
Proof.
  intros mesh threads plain timed stepped s values dofs t dt size Hm Hth Hsz Hfit Hval H0 H1 H2 total.
  destruct (C83_hessian mesh threads (map bind_none plain ++ map bind_t timed ++ map bind_dt stepped) s values dofs t dt size Hm Hth Hsz Hfit Hval) as (v' & _ & _ & _ & All).
  - intros f v Hf. rewrite !in_app_iff, !in_map_iff in Hf. destruct Hf as [(g & <- & Hg)|[(g & <- & Hg)|(g & <- & Hg)]]; [apply H0|apply H1|apply H2]; exact Hg.
  - exists v'. intros r Hr. destruct (All r Hr) as (m' & g & Er & _ & _ & Eg & _). exists m', g. split; [exact Er|]. intros a b i j Ha Hb.
    rewrite (Eg a b i j Ha Hb), !sum_over_app, !sum_over_map. reflexivity.
Qed.
Print Assumptions C83_bind.

(** a truss of two elements, numbered 0, 1, 2, with two cells of two integration points each; the history counts updates *)
Definition ex2_mesh : list felement := [fun d => if Z.eqb d 0 then Some [1; 2]%Z else None; fun d => if Z.eqb d 0 then Some [2; 3]%Z else None].
Definition ex2_state : tdp := mkTdp [] (fun a => if andb (Z.leb 1 a) (Z.leb a 3) then [a - 1]%Z else []) (fun a => if andb (Z.leb 1 a) (Z.leb a 3) then [[0%R]] else [])
  (mkInfo [(0, 3)]%Z [(0, 0)]%Z).
Definition ex2_size (d : Z) : nat := 3.
Definition ex2_cell (id : Z) : ucell := mkUcell id 2 (fun i => [INR i]) [0; 2]%R 2 1 (fun _ k _ => nth k [-1/2; 1/2]%R 0%R).
Definition ex2_hessian : hessian_function := fun t dt v h =>
  [mkMCell (F:=R_cring) [((0, 0)%Z, mkD (F:=R_cring) 2 2 (fun i j => if Nat.eqb i j then t else - t)%R)] (fun _ => [0; 1]%Z);
   mkMCell (F:=R_cring) [((0, 0)%Z, mkD (F:=R_cring) 2 2 (fun i j => if Nat.eqb i j then dt else - dt)%R)] (fun _ => [1; 2]%Z)].
Lemma ex2_in_mesh d a : in_mesh ex2_mesh d a -> d = 0%Z /\ (a = 1 \/ a = 2 \/ a = 3)%Z.
Proof.
  intros (e & l & [<-|[<-|[]]] & El & Hl); destruct (Z.eqb_spec d 0); try discriminate; injection El as <-; destruct Hl as [<-|[<-|[]]]; auto.
Qed.
Example C83_hypotheses :
  memo_current ex2_mesh (t_memo ex2_state) /\ sizes_known (t_info ex2_state) [0%Z] ex2_size /\
  vector_fits ex2_mesh (t_nodes ex2_state) (t_values ex2_state) 0 [0%Z] ex2_size /\
  (forall d, In d [0%Z] -> @size_of R_cring [(0%Z, [5; 6; 7]%R)] d = Some (ex2_size d)) /\
  (forall f v, In f [ex2_hessian] -> Forall (mcell_fits [0%Z] ex2_size) (f 2 3 v (t_nodes ex2_state))%R) /\
  (exists ips, forall c i, In c [ex2_cell 4; ex2_cell 9] -> i < uc_ips c -> cell_point c i (ips c i)) /\ NoDup (map uc_id [ex2_cell 4; ex2_cell 9]) /\
  @sum_over R_cring _ (ex2_hessian 2 3 (t_values ex2_state) (t_nodes ex2_state))%R (fun c => mcell_contrib c 0%Z 0%Z 1 1) = 5%R.
Proof.
  split; [split; [constructor|intros d l F; discriminate F]|]. split; [|split; [|split; [|split; [|split; [|split]]]]].
  - intros d [<-|[]]. exists 3%Z, 0%Z. repeat split; lia.
  - split; [repeat constructor; intros []|]. split.
    + intros d a [<-|[]] Ha. apply ex2_in_mesh in Ha.
      assert (N: forall k, (a = 1 + Z.of_nat k)%Z -> k < 3 -> numbered_as (t_nodes ex2_state) a 0 k /\ k < ex2_size 0).
      { intros k -> Hk. split; [destruct k as [|[|[|k]]]; [reflexivity..|lia]|exact Hk]. }
      destruct Ha as (_ & [->|[->| ->]]); (split; [eexists; split; reflexivity|split; [cbn; lia|intros i Hi; destruct i as [|i]; [|cbn in Hi; lia]]]);
        [exists 0|exists 1|exists 2]; apply N; lia.
    + intros d d' a [<-|[]] [<-|[]] _ _. reflexivity.
  - intros d [<-|[]]. reflexivity.
  - intros f v [<-|[]]. repeat constructor; cbn [mc_val mc_num];
      try (intros a b [<-|[]] [<-|[]] _ _; eexists; split; [reflexivity|]; cbn [drows dcols]; split; [reflexivity|]; split; [reflexivity|];
           split; unfold ex2_size; repeat constructor; cbn; lia).
  - exists (fun c i => match make_ip (uc_id c) (uc_ip c) (uc_coordinates c) (uc_numNodes c) (uc_dim c) (uc_dShape c) i with Ok ip => ip | _ => mkIp 0 0 [] (mkJac 0 0 (fun _ _ => 0%R) (fun _ _ => 0%R) 0%R None) end).
    intros c i [<-|[<-|[]]] Hi; unfold cell_point; cbn [ex2_cell uc_id uc_ip uc_coordinates uc_numNodes uc_dim uc_dShape]; reflexivity.
  - repeat constructor; cbn; intuition lia.
  - unfold ex2_hessian, sum_over, mcell_contrib, contrib2. cbn. lra.
Qed.
