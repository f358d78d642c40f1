(** * Proofs for C50: dof nodes are shared by the spatial hashing *)
From Coq Require Import List ZArith Arith Reals Lra Lia.
From Flocq Require Import Core.Raux.
From Verif Require Import Outcome RSum AdaptiveModel AdaptiveProofs CellModel MeshModel MeshSpec MeshProofs UnitMeshProofs DofMeshModel.
Import ListNotations.
Local Open Scope R_scope.

(** ** one direction *)
Lemma axis_box s e x eps n : 0 < eps -> (0 < n <= 300)%Z -> eps <= (e - s) / IZR n -> s + eps <= x <= e - eps ->
  exists i, to_int ((x - s) / ((e - s) / IZR n)) = Ok i /\ (0 <= i < n)%Z
    /\ IZR i <= (x - s) / ((e - s) / IZR n) < IZR i + 1.
Proof.
  intros He Hn Hd Hx. set (dl := (e - s) / IZR n) in *.
  assert (Hdl : 0 < dl) by lra. assert (Hnr : 0 < IZR n) by (apply IZR_lt; lia).
  assert (E : e - s = dl * IZR n) by (unfold dl; field; lra).
  set (q := (x - s) / dl). assert (Eq : x - s = q * dl) by (unfold q; field; lra).
  assert (Hq0 : 0 <= q).
  { apply (Rmult_le_reg_r dl); [exact Hdl|]. rewrite Rmult_0_l, <- Eq. lra. }
  assert (Hq1 : q < IZR n).
  { apply (Rmult_lt_reg_r dl); [exact Hdl|]. rewrite <- Eq, (Rmult_comm (IZR n)), <- E. lra. }
  exists (Zfloor q). unfold to_int. rewrite Ztrunc_floor by exact Hq0.
  assert (B : (0 <= Zfloor q < n)%Z).
  { split; [apply Zfloor_lub; exact Hq0|]. apply lt_IZR. apply Rle_lt_trans with q; [apply Zfloor_lb|exact Hq1]. }
  split; [|split; [exact B|split; [apply Zfloor_lb|apply Zfloor_ub]]].
  cbv zeta. destruct (Z.leb_spec (-2147483648) (Zfloor q)); [|lia]. destruct (Z.ltb_spec (Zfloor q) 2147483648); [|lia].
  reflexivity.
Qed.

Lemma axis_neighbour s dl x y eps i j : 0 < eps -> eps <= dl -> Rabs (x - y) < eps ->
  IZR i <= (x - s) / dl < IZR i + 1 -> IZR j <= (y - s) / dl < IZR j + 1 -> (j = i \/ j = i - 1 \/ j = i + 1)%Z.
Proof.
  intros He Hd Ha Hi Hj. assert (Hdl : 0 < dl) by lra.
  assert (Hxy : Rabs ((x - s) / dl - (y - s) / dl) < 1).
  { replace ((x - s) / dl - (y - s) / dl) with ((x - y) / dl) by (field; lra). unfold Rdiv.
    rewrite Rabs_mult, (Rabs_pos_eq (/ dl)) by (left; apply Rinv_0_lt_compat; exact Hdl).
    apply (Rmult_lt_reg_r dl); [exact Hdl|]. rewrite Rmult_assoc, Rinv_l by lra. lra. }
  apply Rabs_def2 in Hxy.
  assert (H1 : (j < i + 2)%Z) by (apply lt_IZR; rewrite plus_IZR; lra).
  assert (H2 : (i < j + 2)%Z) by (apply lt_IZR; rewrite plus_IZR; lra). lia.
Qed.

(** ** the boxes *)
Record domain_ok (d : domain) (eps : R) : Prop := {
  dk_eps : 0 < eps;
  dk_r2 : radius2 d = eps * eps;
  dk_subs : let '(sx, sy, sz) := dsubs d in (0 < sx <= 300 /\ 0 < sy <= 300 /\ 0 < sz <= 300)%Z;
  dk_delta : eps <= px (delta d) /\ eps <= py (delta d) /\ eps <= pz (delta d) }.
Definition in_domain (d : domain) (eps : R) (p : p3) : Prop :=
  px (dstart d) + eps <= px p <= px (dend d) - eps /\ py (dstart d) + eps <= py p <= py (dend d) - eps
  /\ pz (dstart d) + eps <= pz p <= pz (dend d) - eps.

Definition in_box (d : domain) (p : p3) (ijk : Z * Z * Z) : Prop :=
  let '(i, j, k) := ijk in let '(sx, sy, sz) := dsubs d in
  (0 <= i < sx)%Z /\ (0 <= j < sy)%Z /\ (0 <= k < sz)%Z
  /\ IZR i <= (px p - px (dstart d)) / px (delta d) < IZR i + 1
  /\ IZR j <= (py p - py (dstart d)) / py (delta d) < IZR j + 1
  /\ IZR k <= (pz p - pz (dstart d)) / pz (delta d) < IZR k + 1.

Lemma box_of_spec d eps p : domain_ok d eps -> in_domain d eps p ->
  exists i j k, box_of d p = Ok (i, j, k) /\ in_box d p (i, j, k).
Proof.
  intros [He Hr Hs Hd] (Hx & Hy & Hz). unfold box_of, in_box, delta in *. destruct (dsubs d) as ((sx & sy) & sz).
  destruct Hs as (Hsx & Hsy & Hsz). cbn [px py pz fst snd] in *. destruct Hd as (Hdx & Hdy & Hdz).
  destruct (axis_box _ _ _ _ sx He Hsx Hdx Hx) as (i & Ei & Bi & Ri).
  destruct (axis_box _ _ _ _ sy He Hsy Hdy Hy) as (j & Ej & Bj & Rj).
  destruct (axis_box _ _ _ _ sz He Hsz Hdz Hz) as (k & Ek & Bk & Rk).
  exists i, j, k. unfold px, py, pz in *. cbn [fst snd] in *. rewrite Ei. cbn [obind]. rewrite Ej. cbn [obind]. rewrite Ek. cbn [obind].
  split; [reflexivity|]. auto 10.
Qed.

Lemma index_inj d i j k i' j' k' : let '(sx, sy, sz) := dsubs d in
  (0 <= i < sx)%Z -> (0 <= j < sy)%Z -> (0 <= i' < sx)%Z -> (0 <= j' < sy)%Z ->
  box_index d i j k = box_index d i' j' k' -> i = i' /\ j = j' /\ k = k'.
Proof.
  unfold box_index. destruct (dsubs d) as ((sx & sy) & sz). intros Hi Hj Hi' Hj' E.
  assert (k = k').
  { assert (F : (i + j * sx + k * (sy * sx) = i' + j' * sx + k' * (sy * sx))%Z) by lia.
    assert (0 <= i + j * sx < sy * sx)%Z by nia. assert (0 <= i' + j' * sx < sy * sx)%Z by nia. nia. }
  subst k'. assert (j = j') by nia. subst j'. split; [lia|auto].
Qed.

Lemma index_range d i j k : let '(sx, sy, sz) := dsubs d in
  (0 <= i < sx)%Z -> (0 <= j < sy)%Z -> (0 <= k < sz)%Z -> (0 <= box_index d i j k < num_boxes d)%Z.
Proof.
  unfold box_index, num_boxes. destruct (dsubs d) as ((sx & sy) & sz). intros Hi Hj Hk.
  assert (0 <= i + j * sx < sy * sx)%Z by nia. assert (0 <= k * (sy * sx))%Z by nia.
  assert (k * (sy * sx) <= (sz - 1) * (sy * sx))%Z by nia. nia.
Qed.

(** the boxes hold exactly the entries of [L], each in the box of its position *)
Definition boxes_hold (d : domain) (b : boxes) (L : list (p3 * Z)) : Prop :=
  (forall e i j k, In e L -> in_box d (fst e) (i, j, k) -> In e (b (box_index d i j k)))
  /\ (forall n e, In e (b n) -> In e L).

Lemma in_box_unique d p i j k i' j' k' : in_box d p (i, j, k) -> in_box d p (i', j', k') -> i = i' /\ j = j' /\ k = k'.
Proof.
  unfold in_box. destruct (dsubs d) as ((sx & sy) & sz).
  intros (_ & _ & _ & A & B & C) (_ & _ & _ & A' & B' & C').
  assert (U : forall a b x, IZR a <= x < IZR a + 1 -> IZR b <= x < IZR b + 1 -> a = b).
  { intros a b x Ha Hb. assert (a < b + 1)%Z by (apply lt_IZR; rewrite plus_IZR; lra).
    assert (b < a + 1)%Z by (apply lt_IZR; rewrite plus_IZR; lra). lia. }
  split; [eapply U; eauto|split; eapply U; eauto].
Qed.

Lemma box_add_spec d eps b L e : domain_ok d eps -> boxes_hold d b L -> in_domain d eps (fst e) ->
  exists b', box_add d b e = Ok b' /\ boxes_hold d b' (L ++ [e]).
Proof.
  intros Hd (H1 & H2) Hin. destruct (box_of_spec d eps (fst e) Hd Hin) as (i & j & k & Eb & Hb).
  unfold box_add. rewrite Eb. cbn [obind]. cbv zeta.
  assert (R : (0 <= box_index d i j k < num_boxes d)%Z).
  { pose proof (index_range d i j k) as R. unfold in_box in Hb. destruct (dsubs d) as ((sx & sy) & sz).
    destruct Hb as (A & B & C & _). apply R; assumption. }
  destruct (Z.leb_spec 0 (box_index d i j k)); [|lia]. destruct (Z.ltb_spec (box_index d i j k) (num_boxes d)); [|lia].
  cbn [andb]. eexists. split; [reflexivity|]. split.
  - intros e' i' j' k' Hi Hb'. apply in_app_iff in Hi. destruct Hi as [Hi|[<- |[]]].
    + specialize (H1 e' i' j' k' Hi Hb'). destruct (Z.eqb_spec (box_index d i' j' k') (box_index d i j k)) as [E|E].
      * apply in_app_iff. left. exact H1.
      * exact H1.
    + destruct (in_box_unique d (fst e) i j k i' j' k' Hb Hb') as (<- & <- & <-). rewrite Z.eqb_refl.
      apply in_app_iff. right. left. reflexivity.
  - intros n e' Hi. apply in_app_iff. destruct (Z.eqb_spec n (box_index d i j k)).
    + apply in_app_iff in Hi. destruct Hi as [Hi|Hi]; [left; eauto|right; exact Hi].
    + left. eauto.
Qed.

Lemma box_add_all d eps L : domain_ok d eps -> forall l b, boxes_hold d b L -> (forall e, In e l -> in_domain d eps (fst e)) ->
  exists b', for_each l (box_add d) b = Ok b' /\ boxes_hold d b' (L ++ l).
Proof.
  intros Hd l. revert L. induction l as [|e l IH]; intros L b Hb Hin; simpl.
  - exists b. rewrite app_nil_r. auto.
  - destruct (box_add_spec d eps b L e Hd Hb (Hin e (or_introl eq_refl))) as (b1 & -> & H1). cbn [obind].
    destruct (IH (L ++ [e]) b1 H1) as (b2 & E2 & H2); [intros; apply Hin; right; assumption|].
    exists b2. split; [exact E2|]. rewrite <- app_assoc in H2. exact H2.
Qed.

Definition close (eps : R) (p q : p3) : Prop := sqnorm_diff p q < eps * eps.
Lemma close_axis eps p q : 0 < eps -> close eps p q ->
  Rabs (px p - px q) < eps /\ Rabs (py p - py q) < eps /\ Rabs (pz p - pz q) < eps.
Proof.
  unfold close, sqnorm_diff. intros He H.
  assert (A : forall a, a * a < eps * eps -> Rabs a < eps).
  { intros a Ha. apply Rabs_def1; nra. }
  pose proof (Rle_0_sqr (px p - px q)). pose proof (Rle_0_sqr (py p - py q)). pose proof (Rle_0_sqr (pz p - pz q)). unfold Rsqr in *.
  split; [apply A; lra|split; apply A; lra].
Qed.
Lemma close_sym eps p q : close eps p q -> close eps q p.
Proof. unfold close, sqnorm_diff. intros H. nra. Qed.
Lemma close_refl eps p : 0 < eps -> close eps p p.
Proof. unfold close, sqnorm_diff. intros H. nra. Qed.

Lemma find_at_spec d eps b L p : domain_ok d eps -> boxes_hold d b L -> (forall e, In e L -> in_domain d eps (fst e)) ->
  in_domain d eps p ->
  exists r, find_at d b p = Ok r /\ match r with
    | Some e => In e L /\ close eps (fst e) p
    | None => forall e, In e L -> ~ close eps (fst e) p end.
Proof.
  intros Hd (H1 & H2) HL Hp. destruct (box_of_spec d eps p Hd Hp) as (i & j & k & Eb & Hb).
  unfold find_at. pose proof (dk_r2 d eps Hd) as Hr.
  set (inr := fun ii jj kk : Z => let '(sx, sy, sz) := dsubs d in (0 <= ii < sx /\ 0 <= jj < sy /\ 0 <= kk < sz)%Z).
  destruct (dsubs d) as ((sx & sy) & sz) eqn:Es. rewrite Eb. cbn [obind].
  pose (Q := fun (kk jj ii : Z) (e : p3 * Z) => inr ii jj kk /\ In e (b (box_index d ii jj kk)) /\ close eps (fst e) p).
  destruct (find_first_spec (fun kk e => exists jj ii, In jj [j; j - 1; j + 1]%Z /\ In ii [i; i - 1; i + 1]%Z /\ Q kk jj ii e)
    (fun kk =>
      find_first [j; j - 1; j + 1]%Z (fun jj =>
        find_first [i; i - 1; i + 1]%Z (fun ii =>
          if orb (Z.ltb ii 0) (Z.leb sx ii) then Ok None
          else if orb (Z.ltb jj 0) (Z.leb sy jj) then Ok None
          else if orb (Z.ltb kk 0) (Z.leb sz kk) then Ok None
          else find_first (b (box_index d ii jj kk)) (fun e =>
                 Ok (if rltb (sqnorm_diff (fst e) p) (radius2 d) then Some e else None)))))
    [k; k - 1; k + 1]%Z) as (r & -> & Hres).
  - intros kk _.
    destruct (find_first_spec (fun jj e => exists ii, In ii [i; i - 1; i + 1]%Z /\ Q kk jj ii e)
      (fun jj => find_first [i; i - 1; i + 1]%Z (fun ii =>
          if orb (Z.ltb ii 0) (Z.leb sx ii) then Ok None
          else if orb (Z.ltb jj 0) (Z.leb sy jj) then Ok None
          else if orb (Z.ltb kk 0) (Z.leb sz kk) then Ok None
          else find_first (b (box_index d ii jj kk)) (fun e =>
                 Ok (if rltb (sqnorm_diff (fst e) p) (radius2 d) then Some e else None))))
      [j; j - 1; j + 1]%Z) as (r & -> & Hres).
    + intros jj _.
      destruct (find_first_spec (fun ii e => Q kk jj ii e)
        (fun ii => if orb (Z.ltb ii 0) (Z.leb sx ii) then Ok None
          else if orb (Z.ltb jj 0) (Z.leb sy jj) then Ok None
          else if orb (Z.ltb kk 0) (Z.leb sz kk) then Ok None
          else find_first (b (box_index d ii jj kk)) (fun e =>
                 Ok (if rltb (sqnorm_diff (fst e) p) (radius2 d) then Some e else None)))
        [i; i - 1; i + 1]%Z) as (r & -> & Hres).
      * intros ii _.
        assert (W : (ii < 0 \/ sx <= ii \/ jj < 0 \/ sy <= jj \/ kk < 0 \/ sz <= kk)%Z \/ inr ii jj kk).
        { unfold inr. lia. }
        destruct W as [W|W].
        { exists None. split.
          - destruct (Z.ltb_spec ii 0); [reflexivity|]. destruct (Z.leb_spec sx ii); [reflexivity|].
            destruct (Z.ltb_spec jj 0); [reflexivity|]. destruct (Z.leb_spec sy jj); [reflexivity|].
            destruct (Z.ltb_spec kk 0); [reflexivity|]. destruct (Z.leb_spec sz kk); [reflexivity|]. lia.
          - intros e (Hi & _). unfold inr in Hi. lia. }
        pose proof W as W'. unfold inr in W'.
        destruct (Z.ltb_spec ii 0); [lia|]. destruct (Z.leb_spec sx ii); [lia|].
        destruct (Z.ltb_spec jj 0); [lia|]. destruct (Z.leb_spec sy jj); [lia|].
        destruct (Z.ltb_spec kk 0); [lia|]. destruct (Z.leb_spec sz kk); [lia|]. cbn [orb].
        destruct (find_first_spec (fun e e' => e' = e /\ close eps (fst e) p)
          (fun e => Ok (if rltb (sqnorm_diff (fst e) p) (radius2 d) then Some e else None)) (b (box_index d ii jj kk)))
          as (r & -> & Hres).
        { intros e _. eexists. split; [reflexivity|]. rewrite Hr.
          destruct (rltb_spec (sqnorm_diff (fst e) p) (eps * eps)) as [(-> & Hlt)|(-> & Hlt)].
          - split; [reflexivity|exact Hlt].
          - intros e' (_ & Hc). unfold close in Hc. lra. }
        exists r. split; [reflexivity|]. destruct r as [e|].
        { destruct Hres as (e' & Hin & -> & Hc). split; [exact W|]. auto. }
        { intros e (_ & Hin & Hc). apply (Hres e e Hin). auto. }
      * exists r. split; [reflexivity|]. destruct r as [e|].
        { destruct Hres as (ii & Hi & Hq). exists ii. auto. }
        { intros e (ii & Hi & Hq). exact (Hres ii e Hi Hq). }
    + exists r. split; [reflexivity|]. destruct r as [e|].
      { destruct Hres as (jj & Hj & ii & Hi & Hq). exists jj, ii. auto. }
      { intros e (jj & ii & Hj & Hi & Hq). apply (Hres jj e Hj). exists ii. auto. }
  - exists r. split; [reflexivity|]. destruct r as [e|].
    + destruct Hres as (kk & _ & jj & ii & _ & _ & _ & Hin & Hc). split; [eapply H2; eauto|exact Hc].
    + intros e He Hc. destruct (box_of_spec d eps (fst e) Hd (HL e He)) as (i' & j' & k' & _ & Hb').
      pose proof (H1 e i' j' k' He Hb') as Hin.
      destruct (close_axis eps _ _ (dk_eps d eps Hd) (close_sym _ _ _ Hc)) as (Ax & Ay & Az).
      destruct (dk_delta d eps Hd) as (Dx & Dy & Dz). pose proof (dk_eps d eps Hd) as He0.
      unfold in_box in Hb, Hb'. rewrite Es in Hb, Hb'.
      destruct Hb as (_ & _ & _ & Bx & By & Bz). destruct Hb' as (Ri & Rj & Rk & Cx & Cy & Cz).
      pose proof (axis_neighbour _ _ _ _ eps i i' He0 Dx Ax Bx Cx) as Ni.
      pose proof (axis_neighbour _ _ _ _ eps j j' He0 Dy Ay By Cy) as Nj.
      pose proof (axis_neighbour _ _ _ _ eps k k' He0 Dz Az Bz Cz) as Nk.
      apply (Hres k' e); [simpl; lia|]. exists j', i'. split; [simpl; lia|]. split; [simpl; lia|].
      split; [unfold inr; auto|]. auto.
Qed.
