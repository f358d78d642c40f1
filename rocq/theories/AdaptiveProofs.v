(** * Proofs for C26 *)
From Coq Require Import List ZArith Reals Lra Lia Sorted Bool.
From Verif Require Import AdaptiveModel AdaptiveSpec.
Import ListNotations.
Local Open Scope R_scope.

Lemma rltb_spec a b : (rltb a b = true /\ a < b) \/ (rltb a b = false /\ b <= a).
Proof. unfold rltb. destruct (Rlt_dec a b); [left|right]; split; auto; lra. Qed.
Lemma rleb_spec a b : (rleb a b = true /\ a <= b) \/ (rleb a b = false /\ b < a).
Proof. unfold rleb. destruct (Rle_dec a b); [left|right]; split; auto; lra. Qed.

Section Loop.
  Variable p : controller.
  Hypothesis Hp : good_controller p.
  Variables tEnd M m : R.
  Hypothesis HM : dtMax p <= M.
  Hypothesis Hm : 0 < m <= dtMin p.

  (** the time step is in (0,M] and a clipped one hits the end time *)
  Definition inv (t dt : R) : Prop := 0 < dt <= M /\ (m <= dt \/ t + dt = tEnd).

  Lemma next_dt_spec t dt n : t < tEnd -> 0 < dt <= M -> m <= dt -> inv t (next_dt p tEnd t dt n) /\ t + next_dt p tEnd t dt n <= tEnd.
  Proof.
    intros Ht Hdt Hmd. destruct Hp as (H1 & H2 & H3 & H4). unfold next_dt.
    set (dt1 := if andb (Z.ltb n 3) (rltb dt (dtMax p)) then Rmin (dt * increaseFactor p) (dtMax p) else dt).
    assert (Hd1 : dt <= dt1 <= M).
    { unfold dt1. destruct (Z.ltb n 3); simpl; [|lra]. destruct (rltb_spec dt (dtMax p)) as [(-> & Hl)|(-> & Hl)]; [|lra].
      split; [|eapply Rle_trans; [apply Rmin_r|exact HM]]. apply Rmin_glb; [|lra]. 
      rewrite <- (Rmult_1_r dt) at 1. apply Rmult_le_compat_l; lra. }
    destruct (rltb_spec tEnd (t + dt1)) as [(-> & Hl)|(-> & Hl)]; split; try (unfold inv; lra).
  Qed.

  Lemma loop_legal : forall fuel t dt resp k tr res, inv t dt ->
    adaptive_loop fuel p tEnd t dt resp k = (tr, res) -> legal M t tr.
  Proof.
    induction fuel as [|fuel IH]; intros t dt resp k tr res Hi H; simpl in H; [injection H as <- <-; constructor|].
    destruct Hi as (Hdt & Hmd).
    destruct (resp k) as [n| |]; simpl in H.
    - destruct (rleb_spec tEnd (t + dt)) as [(Hl & Hle)|(Hl & Hlt)]; rewrite Hl in H.
      + injection H as <- <-. constructor; [lra|constructor].
      + assert (Hmd' : m <= dt) by lra.
        destruct (adaptive_loop fuel p tEnd (t + dt) (next_dt p tEnd (t + dt) dt n) resp (S k)) as (ev, r) eqn:E.
        injection H as <- <-. simpl. constructor; [lra|]. eapply IH; [|exact E]. apply next_dt_spec; lra.
    - destruct Hp as (_ & _ & _ & Hd).
      assert (Hdd : 0 < dt * decreaseFactor p < dt).
      { split; [apply Rmult_lt_0_compat; lra|]. rewrite <- (Rmult_1_r dt) at 2. apply Rmult_lt_compat_l; lra. }
      destruct (rltb_spec (dt * decreaseFactor p) (dtMin p)) as [(Hl & Hlt)|(Hl & Hle)]; rewrite Hl in H.
      + injection H as <- <-. apply legal_failure; [lra|constructor].
      + destruct (adaptive_loop fuel p tEnd t (dt * decreaseFactor p) resp (S k)) as (ev, r) eqn:E.
        injection H as <- <-. simpl. apply legal_failure; [lra|]. eapply IH; [|exact E]. unfold inv. lra.
    - injection H as <- <-. apply legal_other. lra.
  Qed.

  (** how it ends; [Q]: the first step did not go beyond the end *)
  Lemma loop_result : forall fuel t dt resp k tr it, inv t dt -> t + dt <= tEnd ->
    adaptive_loop fuel p tEnd t dt resp k = (tr, Some it) ->
    match it with
    | Return t' _ => t' = tEnd /\ last (post_times tr) t = tEnd
    | ThrowSmall t' dt' => dt' < dtMin p /\ t' = last (post_times tr) t /\ last tr (EPost t) = EStep (t' + dt' / decreaseFactor p) NoConvergence
    | ThrowOther t' _ => t' = last (post_times tr) t /\ exists t'', last tr (EPost t) = EStep t'' OtherException
    | Continue _ _ => False
    end.
  Proof.
    assert (Hlast : forall (l : list event) a b, l <> [] -> last l a = last l b).
    { induction l as [|x l IHl]; intros a b H; [congruence|]. destruct l; [reflexivity|]. simpl. apply IHl. discriminate. }
    assert (Hlastr : forall (l : list R) a b, last (a :: l) b = last l a).
    { induction l as [|x l IHl]; intros a b; [reflexivity|]. change (last (x :: l) b = last (x :: l) a). rewrite (IHl x a). apply IHl. }
    assert (Hne : forall fuel t dt resp k tr it, adaptive_loop fuel p tEnd t dt resp k = (tr, Some it) -> tr <> []).
    { intros [|fuel] t dt resp k tr it; simpl; [discriminate|].
      destruct (resp k); simpl.
      - destruct (rleb tEnd (t + dt)); [intros [= <- <-]; discriminate|]. destruct (adaptive_loop _ _ _ _ _ _ _). intros [= <- _]. discriminate.
      - destruct (rltb _ _); [intros [= <- <-]; discriminate|]. destruct (adaptive_loop _ _ _ _ _ _ _). intros [= <- _]. discriminate.
      - intros [= <- <-]; discriminate. }
    induction fuel as [|fuel IH]; intros t dt resp k tr it Hi Hend H; simpl in H; [discriminate|].
    destruct Hi as (Hdt & Hmd).
    destruct (resp k) as [n| |]; simpl in H.
    - destruct (rleb_spec tEnd (t + dt)) as [(Hl & Hle)|(Hl & Hlt)]; rewrite Hl in H.
      + injection H as <- <-. simpl. lra.
      + assert (Hmd' : m <= dt) by lra.
        destruct (adaptive_loop fuel p tEnd (t + dt) (next_dt p tEnd (t + dt) dt n) resp (S k)) as (ev, r) eqn:E.
        injection H as <- ->.
        assert (Hn : inv (t + dt) (next_dt p tEnd (t + dt) dt n) /\ t + dt + next_dt p tEnd (t + dt) dt n <= tEnd) by (apply next_dt_spec; lra).
        specialize (IH (t + dt) (next_dt p tEnd (t + dt) dt n) resp (S k) ev it (proj1 Hn) (proj2 Hn) E). pose proof (Hne _ _ _ _ _ _ _ E) as Hev.
        cbn [app post_times]. rewrite Hlastr.
        destruct ev as [|e0 ev]; [congruence|]. cbn [last]. change (match ev with [] => e0 | _ :: _ => last ev (EPost t) end) with (last (e0 :: ev) (EPost t)).
        rewrite (Hlast (e0 :: ev) (EPost t) (EPost (t + dt))) by discriminate.
        destruct it; exact IH.
    - destruct Hp as (_ & _ & _ & Hd).
      assert (Hdd : 0 < dt * decreaseFactor p < dt).
      { split; [apply Rmult_lt_0_compat; lra|]. rewrite <- (Rmult_1_r dt) at 2. apply Rmult_lt_compat_l; lra. }
      destruct (rltb_spec (dt * decreaseFactor p) (dtMin p)) as [(Hl & Hlt)|(Hl & Hle)]; rewrite Hl in H.
      + injection H as <- <-. simpl. split; [exact Hlt|]. split; [reflexivity|]. do 2 f_equal. field. lra.
      + destruct (adaptive_loop fuel p tEnd t (dt * decreaseFactor p) resp (S k)) as (ev, r) eqn:E.
        injection H as <- ->.
        assert (Hi2 : inv t (dt * decreaseFactor p)) by (unfold inv; lra).
        assert (He2 : t + dt * decreaseFactor p <= tEnd) by lra.
        specialize (IH t (dt * decreaseFactor p) resp (S k) ev it Hi2 He2 E). pose proof (Hne _ _ _ _ _ _ _ E) as Hev.
        cbn [app post_times]. destruct ev as [|e0 ev]; [congruence|]. cbn [last].
        change (match ev with [] => e0 | _ :: _ => last ev (EPost t) end) with (last (e0 :: ev) (EPost t)).
        exact IH.
    - injection H as <- <-. simpl. split; [reflexivity|]. eauto.
  Qed.

  (** without that condition the end time is reached or passed *)
  Lemma loop_result_weak : forall fuel t dt resp k tr t' dt',
    adaptive_loop fuel p tEnd t dt resp k = (tr, Some (Return t' dt')) -> tEnd <= t' /\ last (post_times tr) t = t'.
  Proof.
    assert (Hlastr : forall (l : list R) a b, last (a :: l) b = last l a).
    { induction l as [|x l IHl]; intros a b; [reflexivity|]. change (last (x :: l) b = last (x :: l) a). rewrite (IHl x a). apply IHl. }
    induction fuel as [|fuel IH]; intros t dt resp k tr t' dt' H; simpl in H; [discriminate|].
    destruct (resp k) as [n| |]; simpl in H.
    - destruct (rleb_spec tEnd (t + dt)) as [(Hl & Hle)|(Hl & Hlt)]; rewrite Hl in H.
      + injection H as <- <- <-. simpl. lra.
      + destruct (adaptive_loop fuel p tEnd (t + dt) (next_dt p tEnd (t + dt) dt n) resp (S k)) as (ev, r) eqn:E.
        injection H as <- ->. cbn [app post_times]. rewrite Hlastr. eapply IH. exact E.
    - destruct (rltb (dt * decreaseFactor p) (dtMin p)); [discriminate|].
      destruct (adaptive_loop fuel p tEnd t (dt * decreaseFactor p) resp (S k)) as (ev, r) eqn:E.
      injection H as <- ->. cbn [app post_times]. eapply IH. exact E.
    - discriminate.
  Qed.

  (** termination: [F] failures in a row end it, every success that does not end it advances by m *)
  Variable F : nat.
  Hypothesis HF : M * decreaseFactor p ^ F < dtMin p.

  Lemma loop_halts : forall s f t dt resp k, inv t dt -> tEnd - t <= INR s * m -> dt * decreaseFactor p ^ f < dtMin p ->
    exists tr it, adaptive_loop (s * S F + S f) p tEnd t dt resp k = (tr, Some it).
  Proof.
    pose proof Hp as (Hmin & Hmax & Hinc & Hd).
    assert (Hmono : forall fuel fuel' t dt resp k tr it, (fuel <= fuel')%nat -> adaptive_loop fuel p tEnd t dt resp k = (tr, Some it) ->
       adaptive_loop fuel' p tEnd t dt resp k = (tr, Some it)).
    { induction fuel as [|fuel IH]; intros [|fuel'] t dt resp k tr it Hle H; simpl in H; try discriminate; [lia|].
      simpl. destruct (adaptive_iteration p tEnd t dt (resp k)) as (ev, i). destruct i; auto.
      destruct (adaptive_loop fuel p tEnd t0 dt0 resp (S k)) as (ev', r) eqn:E. injection H as <- ->.
      rewrite (IH fuel' _ _ _ _ _ _ ltac:(lia) E). reflexivity. }
    induction s as [s IHs] using lt_wf_ind. induction f as [|f IHf]; intros t dt resp k Hi Hs Hf.
    all: destruct Hi as (Hdt & Hmd).
    all: assert (Hdd : 0 < dt * decreaseFactor p < dt) by
      (split; [apply Rmult_lt_0_compat; lra|rewrite <- (Rmult_1_r dt) at 2; apply Rmult_lt_compat_l; lra]).
    all: match goal with |- exists _ _, adaptive_loop ?n _ _ _ _ _ _ = _ => replace n with (S (n - 1)) by lia end.
    all: cbn [adaptive_loop]; destruct (resp k) as [n| |] eqn:Er; cbn [adaptive_iteration].
    (* success: the same for both *)
    1,4: destruct (rleb_spec tEnd (t + dt)) as [(Hl & Hle)|(Hl & Hlt)]; rewrite Hl; [eauto|];
      assert (Hmd' : m <= dt) by lra;
      destruct s as [|s]; [exfalso; simpl in Hs; lra|];
      destruct (next_dt_spec (t + dt) dt n Hlt Hdt Hmd') as (Hn1 & Hn2);
      rewrite S_INR in Hs;
      destruct (IHs s (Nat.lt_succ_diag_r s) F (t + dt) (next_dt p tEnd (t + dt) dt n) resp (S k) Hn1) as (tr & it & E);
      [lra|
       eapply Rle_lt_trans; [|exact HF]; apply Rmult_le_compat_r; [apply pow_le; lra|apply Hn1]|];
      rewrite (fun H => Hmono _ _ _ _ _ _ _ _ H E); [eauto|cbn [Nat.mul]; lia].
    - (* failure, f = 0 : impossible to go on *)
      simpl in Hf. destruct (rltb_spec (dt * decreaseFactor p) (dtMin p)) as [(Hl & Hlt)|(Hl & Hle)]; rewrite Hl; [eauto|lra].
    - eauto.
    - destruct (rltb_spec (dt * decreaseFactor p) (dtMin p)) as [(Hl & Hlt)|(Hl & Hle)]; rewrite Hl; [eauto|].
      assert (Hi2 : inv t (dt * decreaseFactor p)) by (unfold inv; lra).
      assert (Hf2 : dt * decreaseFactor p * decreaseFactor p ^ f < dtMin p) by (simpl in Hf; lra).
      destruct (IHf t (dt * decreaseFactor p) resp (S k) Hi2 Hs Hf2) as (tr & it & E).
      rewrite (fun H => Hmono _ _ _ _ _ _ _ _ H E); [eauto|cbn [Nat.mul]; lia].
    - eauto.
  Qed.
End Loop.

Lemma legal_post M : 0 <= M -> forall t tr, legal M t tr -> post_times tr = success_times tr /\ StronglySorted Rlt (t :: post_times tr).
Proof.
  intros HM t tr H. induction H; simpl.
  - split; [reflexivity|repeat constructor].
  - destruct IHlegal as (E & S). split; [congruence|].
    constructor; [exact S|]. constructor; [lra|]. inversion S as [|? ? S' Fo]; subst. eapply Forall_impl; [|exact Fo]. intros a Ha; lra.
  - exact IHlegal.
  - split; [reflexivity|repeat constructor].
Qed.

Lemma adaptive_lemma p dt0 tEnd tStart : good_controller p -> 0 < dt0 ->
  exists N, forall resp, exists tr it,
    adaptive_solve N p dt0 tEnd tStart resp = (EPost tStart :: tr, Some it) /\
    legal (Rmax dt0 (dtMax p)) tStart tr /\
    post_times tr = success_times tr /\ StronglySorted Rlt (tStart :: post_times tr) /\
    match it with
    | Return t' _ => tEnd <= t' /\ last (post_times tr) tStart = t' /\ (dt0 <= tEnd - tStart -> t' = tEnd)
    | ThrowSmall t' dt' => dt0 <= tEnd - tStart -> dt' < dtMin p /\ t' = last (post_times tr) tStart
         /\ last tr (EPost tStart) = EStep (t' + dt' / decreaseFactor p) NoConvergence
    | ThrowOther t' _ => dt0 <= tEnd - tStart -> t' = last (post_times tr) tStart /\ exists t'', last tr (EPost tStart) = EStep t'' OtherException
    | Continue _ _ => False
    end.
Proof.
  intros Hp Hdt. pose proof Hp as (Hmin & Hmax & Hinc & Hd).
  set (M := Rmax dt0 (dtMax p)). set (m := Rmin dt0 (dtMin p)).
  assert (HM : dtMax p <= M) by apply Rmax_r. assert (HdM : dt0 <= M) by apply Rmax_l.
  assert (Hm : 0 < m <= dtMin p) by (split; [apply Rmin_glb_lt; lra|apply Rmin_r]).
  assert (Hmd : m <= dt0) by apply Rmin_l.
  assert (Hi : inv tEnd M m tStart dt0) by (unfold inv; lra).
  destruct (pow_lt_1_zero (decreaseFactor p)) with (y := dtMin p / M) as (F & HF); [rewrite Rabs_right; lra|apply Rdiv_lt_0_compat; lra|].
  specialize (HF F (Nat.le_refl F)). rewrite Rabs_right in HF by (apply Rle_ge, pow_le; lra).
  assert (HF' : M * decreaseFactor p ^ F < dtMin p).
  { apply Rmult_lt_compat_l with (r := M) in HF; [|lra]. replace (M * (dtMin p / M)) with (dtMin p) in HF by (field; lra). exact HF. }
  assert (Hs : exists s, tEnd - tStart <= INR s * m).
  { exists (Z.to_nat (up ((tEnd - tStart) / m))). destruct (archimed ((tEnd - tStart) / m)) as (Ha & _).
    rewrite INR_IZR_INZ. destruct (Z_le_gt_dec 0 (up ((tEnd - tStart) / m))) as [Hz|Hz].
    - rewrite Z2Nat.id by lia. apply Rmult_lt_compat_r with (r := m) in Ha; [|lra].
      unfold Rdiv in Ha. rewrite Rmult_assoc, Rinv_l, Rmult_1_r in Ha by lra. lra.
    - replace (Z.to_nat (up ((tEnd - tStart) / m))) with O by lia. simpl. rewrite Rmult_0_l.
      assert (Hz' : IZR (up ((tEnd - tStart) / m)) <= 0) by (apply IZR_le; lia).
      assert (Hneg : (tEnd - tStart) / m < 0) by lra. apply Rmult_lt_compat_r with (r := m) in Hneg; [|lra].
      unfold Rdiv in Hneg. rewrite Rmult_assoc, Rinv_l, Rmult_1_r in Hneg by lra. lra. }
  destruct Hs as (s & Hs).
  exists (s * S F + S F)%nat. intros resp.
  destruct (loop_halts p Hp tEnd M m HM Hm F HF' s F tStart dt0 resp 0%nat Hi Hs) as (tr & it & E).
  { eapply Rle_lt_trans; [|exact HF']. apply Rmult_le_compat_r; [apply pow_le; lra|exact HdM]. }
  exists tr, it. unfold adaptive_solve. rewrite E. split; [reflexivity|].
  assert (Hlegal : legal M tStart tr) by (eapply loop_legal; [exact Hp|exact HM|exact Hm|exact Hi|exact E]).
  split; [exact Hlegal|]. destruct (legal_post M ltac:(lra) tStart tr Hlegal) as (H1 & H2). split; [exact H1|]. split; [exact H2|].
  assert (HQ : dt0 <= tEnd - tStart -> tStart + dt0 <= tEnd) by (intros; lra).
  pose proof (fun Hq => loop_result p Hp tEnd M m HM Hm _ _ _ _ _ _ _ Hi (HQ Hq) E) as HR.
  destruct it as [t' d'|t' d'|t' d'|t' d'].
  - (* Continue cannot be a result *)
    clear -E. revert E. generalize (s * S F + S F)%nat 0%nat tStart dt0 tr. intros fuel. induction fuel as [|fuel IH]; intros k t dt tr' E; simpl in E; [discriminate|].
    destruct (adaptive_iteration p tEnd t dt (resp k)) as (ev, i). destruct i; try discriminate.
    destruct (adaptive_loop fuel p tEnd t0 dt1 resp (S k)) as (ev', r) eqn:E'. injection E as <- ->. eapply IH. exact E'.
  - destruct (loop_result_weak p tEnd _ _ _ _ _ _ _ _ E) as (Ha & Hb). split; [exact Ha|]. split; [exact Hb|].
    intros Hq. apply (HR Hq).
  - exact HR.
  - exact HR.
Qed.

(** more fuel does not change the result *)
Lemma adaptive_fuel p dt0 tEnd tStart resp : forall n n' tr it, (n <= n')%nat ->
  adaptive_solve n p dt0 tEnd tStart resp = (tr, Some it) -> adaptive_solve n' p dt0 tEnd tStart resp = (tr, Some it).
Proof.
  assert (Hmono : forall fuel fuel' t dt k tr it, (fuel <= fuel')%nat -> adaptive_loop fuel p tEnd t dt resp k = (tr, Some it) ->
       adaptive_loop fuel' p tEnd t dt resp k = (tr, Some it)).
    { induction fuel as [|fuel IH]; intros [|fuel'] t dt k tr it Hle H; simpl in H; try discriminate; [lia|].
      simpl. destruct (adaptive_iteration p tEnd t dt (resp k)) as (ev, i). destruct i; auto.
      destruct (adaptive_loop fuel p tEnd t0 dt1 resp (S k)) as (ev', r) eqn:E. injection H as <- ->.
      rewrite (fun H => IH fuel' _ _ _ _ _ H E) by lia. reflexivity. }
  unfold adaptive_solve. intros n n' tr it Hle H.
  destruct (adaptive_loop n p tEnd tStart dt0 resp 0) as (ev, r) eqn:E. injection H as <- ->.
  rewrite (Hmono _ _ _ _ _ _ _ Hle E). reflexivity.
Qed.
