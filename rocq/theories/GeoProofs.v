(** * Proofs for property C96: every call of a function of the script adds a shifted copy of one template *)
From Coq Require Import String List ZArith Bool Reals Permutation Lia Lra.
From Verif Require Import Outcome Vec3 GeoModel GeoSpec.
Import ListNotations.
Local Open Scope Z_scope.

(** ** Shifting *)
Definition isp (x : string) : bool := String.prefix "p" x.
Arguments isp : simpl never.
Section Shift.
Variables dp dr : Z.
Definition sh_curve (c : curve) : curve :=
  match c with CLine a b => CLine (a + dp) (b + dp) | CCircle a z b => CCircle (a + dp) (z + dp) (b + dp) | COffset c => COffset (c + dr) end.
Definition sh_signed (e : signed) : signed := (fst e, snd e + dr).
Definition sh_list (l : list Z) : list Z := map (fun t => t + dr) l.
Definition sh_surface (f : surface) : surface :=
  match f with SLoops l => SLoops (sh_list l) | SOffset s => SOffset (s + dr) | SStrip c => SStrip (c + dr) end.
Definition sh_volume (v : volume) : volume := match v with VShells l => VShells (sh_list l) | VLayer s => VLayer (s + dr) end.
Definition shp {A B} (f : A -> B) (d : Z) (x : Z * A) : Z * B := (fst x + d, f (snd x)).
Definition embed (G M : model) : model :=
  mkModel (points G ++ map (shp (fun c => c) dp) (points M)) (curves G ++ map (shp sh_curve dr) (curves M))
    (loops G ++ map (shp (map sh_signed) dr) (loops M)) (surfaces G ++ map (shp sh_surface dr) (surfaces M))
    (shells G ++ map (shp sh_list dr) (shells M)) (volumes G ++ map (shp sh_volume dr) (volumes M)).
Definition sh_var (v : string * Z) : string * Z := (fst v, snd v + (if isp (fst v) then dp else dr)).
Definition embed_state (G : model) (A O I : list Z) (s : state) : state :=
  mkState (map sh_var (vars s)) (nextp s + dp) (nextr s + dr) (embed G (geo s))
    (A ++ sh_list (theAggregates s)) (O ++ sh_list (theOuter s)) (I ++ sh_list (theInterfaces s)).

Lemma lookup_sh x l : lookup x (map sh_var l) = omap (fun t => t + (if isp x then dp else dr)) (lookup x l).
Proof.
  induction l as [|[y t] l IH]; [reflexivity|]. cbn [map sh_var lookup fst snd].
  destruct (String.eqb_spec x y) as [->|]; [reflexivity|exact IH].
Qed.
Definition kref (r : ref) : bool := match r with Var x => negb (isp x) | Next x => negb (isp x) end.
Definition kinded (n : nat) (c : stmt) : bool :=
  match c with
  | NewP x => isp x | NewR x => negb (isp x) | Point x _ => isp x
  | Line x a b => negb (isp x) && isp a && isp b
  | Circle x a c b => negb (isp x) && isp a && isp c && isp b
  | LineLoop x l => negb (isp x) && forallb (fun '(_, y) => negb (isp y)) l
  | SurfaceOf x l => negb (isp x) && negb (isp l)
  | NewSurface l => negb (isp l)
  | SurfaceLoop x l => negb (isp x) && forallb kref l
  | VolumeOf x y => negb (isp x) && negb (isp y)
  | ExtrudeSurface a b x => negb (isp a) && negb (isp b) && negb (isp x)
  | ExtrudeLine a b x => negb (isp a) && negb (isp b) && negb (isp x)
  | SetAggregate x => negb (isp x) | SetOuter x => negb (isp x)
  | SetInterface k _ x => Nat.eqb k n && negb (isp x)
  end.

Variables (G : model) (A O I : list Z) (n : nat) (P : params).
Hypothesis HO : length O = length A.
Hypothesis HI : length I = (n * length A)%nat.
Notation E := (embed_state G A O I).

Lemma emb_assign_p s x t : isp x = true -> assign (E s) x (t + dp) = E (assign s x t).
Proof. intros H. unfold assign, embed_state. cbn. unfold sh_var at 2. cbn. rewrite H. reflexivity. Qed.
Lemma emb_assign_r s x t : isp x = false -> assign (E s) x (t + dr) = E (assign s x t).
Proof. intros H. unfold assign, embed_state. cbn. unfold sh_var at 2. cbn. rewrite H. reflexivity. Qed.
Ltac m3 := unfold embed_state, with_point, with_object, embed; cbn; rewrite ?map_app, ?app_assoc; f_equal; try lia.
Lemma emb_point s t c : add_point (E s) (t + dp) c = E (add_point s t c).
Proof. unfold add_point. m3. Qed.
Lemma emb_curve s t c : add_curve (E s) (t + dr) (sh_curve c) = E (add_curve s t c).
Proof. unfold add_curve. m3. Qed.
Lemma emb_loop s t c : add_loop (E s) (t + dr) (map sh_signed c) = E (add_loop s t c).
Proof. unfold add_loop. m3. Qed.
Lemma emb_surface s t c : add_surface (E s) (t + dr) (sh_surface c) = E (add_surface s t c).
Proof. unfold add_surface. m3. Qed.
Lemma emb_shell s t c : add_shell (E s) (t + dr) (sh_list c) = E (add_shell s t c).
Proof. unfold add_shell. m3. Qed.
Lemma emb_volume s t c : add_volume (E s) (t + dr) (sh_volume c) = E (add_volume s t c).
Proof. unfold add_volume. m3. Qed.
Lemma vars_E s : vars (E s) = map sh_var (vars s). Proof. reflexivity. Qed.
Lemma nextr_E s : nextr (E s) = nextr s + dr. Proof. reflexivity. Qed.

Lemma omapM_refs vs l : forallb kref l = true -> omapM (eval (map sh_var vs)) l = omap sh_list (omapM (eval vs) l).
Proof.
  induction l as [|r l IH]; [reflexivity|]. cbn [forallb omapM]. intros H. apply andb_prop in H. destruct H as [H1 H2]. rewrite (IH H2).
  destruct r as [x|x]; cbn [kref] in H1; apply negb_true_iff in H1; cbn [eval]; rewrite lookup_sh, H1; destruct (lookup x vs); cbn [omap obind];
    try reflexivity; destruct (omapM (eval vs) l); cbn; try reflexivity.
  do 2 f_equal. lia.
Qed.
Lemma omapM_signed vs (l : list (bool * string)) : forallb (fun '(_, y) => negb (isp y)) l = true ->
  omapM (fun '(b, y) => omap (pair b) (lookup y (map sh_var vs))) l
  = omap (map sh_signed) (omapM (fun '(b, y) => omap (pair b) (lookup y vs)) l).
Proof.
  induction l as [|[b y] l IH]; [reflexivity|]. cbn [forallb omapM]. intros H. apply andb_prop in H. destruct H as [H1 H2]. rewrite (IH H2).
  apply negb_true_iff in H1. rewrite lookup_sh, H1. destruct (lookup y vs); cbn [omap obind]; try reflexivity.
  destruct (omapM (fun '(b0, y0) => omap (pair b0) (lookup y0 vs)) l); cbn; reflexivity.
Qed.

Ltac look x s :=
  rewrite (lookup_sh x (vars s));
  match goal with H : isp x = _ |- _ => rewrite H end; destruct (lookup x (vars s)) as [?t| |]; cbn [omap obind]; try reflexivity.
Lemma exec_embed s c : kinded n c = true -> exec P (length A) (E s) c = omap E (exec P 0 s c).
Proof.
  intros K. destruct c as [x|x|x c|x a b|x a c b|x l|x l|l|x l|x y|e0 e1 x|e0 e1 x|x|x|k j x]; cbn [kinded] in K;
    repeat (apply andb_prop in K; let K' := fresh "K" in destruct K as [K K']); repeat (match goal with H : negb _ = true |- _ => apply negb_true_iff in H end);
    unfold exec; rewrite ?vars_E, ?nextr_E.
  - cbn [omap obind]. rewrite <- emb_assign_p by assumption. reflexivity.
  - cbn [omap obind]. rewrite <- emb_assign_r by assumption. reflexivity.
  - look x s. f_equal. apply emb_point.
  - look x s. look a s. look b s. f_equal. apply (emb_curve s _ (CLine _ _)).
  - look x s. look a s. look c s. look b s. f_equal. apply (emb_curve s _ (CCircle _ _ _)).
  - look x s. rewrite omapM_signed by assumption. destruct (omapM _ l); cbn [omap obind]; try reflexivity. f_equal. apply emb_loop.
  - look x s. look l s. f_equal. apply (emb_surface s _ (SLoops [_])).
  - look l s. f_equal. apply (emb_surface s _ (SLoops [_])).
  - look x s. rewrite omapM_refs by assumption. destruct (omapM _ l); cbn [omap obind]; try reflexivity. f_equal. apply emb_shell.
  - look x s. look y s. f_equal. apply (emb_volume s _ (VShells [_])).
  - look x s. f_equal. cbv zeta. rewrite emb_assign_r by assumption.
    change (SOffset (t + dr)) with (sh_surface (SOffset t)). rewrite emb_surface, nextr_E, emb_assign_r by assumption.
    apply (emb_volume _ _ (VLayer _)).
  - look x s. f_equal. cbv zeta. rewrite emb_assign_r by assumption.
    change (COffset (t + dr)) with (sh_curve (COffset t)). rewrite emb_curve, nextr_E, emb_assign_r by assumption.
    apply (emb_surface _ _ (SStrip _)).
  - cbn [embed_state theAggregates]. unfold sh_list at 1. rewrite app_length, map_length.
    replace (Nat.eqb (length A + length (theAggregates s)) (length A)) with (Nat.eqb (length (theAggregates s)) 0)
      by (destruct (theAggregates s); cbn; symmetry; [apply Nat.eqb_eq; lia|apply Nat.eqb_neq; lia]).
    destruct (Nat.eqb (length (theAggregates s)) 0); [|reflexivity]. look x s. f_equal.
    unfold with_arrays, embed_state, sh_list. cbn. rewrite map_app, app_assoc. reflexivity.
  - cbn [embed_state theOuter]. unfold sh_list at 1. rewrite app_length, map_length, HO.
    replace (Nat.eqb (length A + length (theOuter s)) (length A)) with (Nat.eqb (length (theOuter s)) 0)
      by (destruct (theOuter s); cbn; symmetry; [apply Nat.eqb_eq; lia|apply Nat.eqb_neq; lia]).
    destruct (Nat.eqb (length (theOuter s)) 0); [|reflexivity]. look x s. f_equal.
    unfold with_arrays, embed_state, sh_list. cbn. rewrite map_app, app_assoc. reflexivity.
  - apply Nat.eqb_eq in K. subst k. cbn [embed_state theInterfaces]. unfold sh_list at 1. rewrite app_length, map_length, HI.
    replace (Nat.eqb (n * length A + length (theInterfaces s)) (n * length A + j)) with (Nat.eqb (length (theInterfaces s)) (n * 0 + j)).
    2:{ destruct (Nat.eqb_spec (length (theInterfaces s)) (n * 0 + j)) as [e|e]; symmetry; [apply Nat.eqb_eq|apply Nat.eqb_neq]; lia. }
    destruct (Nat.eqb (length (theInterfaces s)) (n * 0 + j)); [|reflexivity]. look x s. f_equal.
    unfold with_arrays, embed_state, sh_list. cbn. rewrite map_app, app_assoc. reflexivity.
Qed.
Lemma exec_all_embed l : forall s, forallb (kinded n) l = true -> exec_all P (length A) (E s) l = omap E (exec_all P 0 s l).
Proof.
  induction l as [|c l IH]; intros s K; [reflexivity|]. cbn [forallb] in K. apply andb_prop in K. destruct K as [K1 K2].
  cbn [exec_all]. rewrite (exec_embed s c K1). destruct (exec P 0 s c) as [s'| |]; cbn [omap obind]; try reflexivity. apply IH, K2.
Qed.
End Shift.

Definition zero : state := mkState [] 0 0 no_model [] [] [].
Lemma call_embed n f P s : forallb (kinded n) f = true ->
  length (theOuter s) = length (theAggregates s) -> length (theInterfaces s) = (n * length (theAggregates s))%nat ->
  call P (length (theAggregates s)) s f
  = omap (embed_state (nextp s) (nextr s) (geo s) (theAggregates s) (theOuter s) (theInterfaces s)) (exec_all P 0 zero f).
Proof.
  intros K HO HI. unfold call.
  replace (mkState [] (nextp s) (nextr s) (geo s) (theAggregates s) (theOuter s) (theInterfaces s))
    with (embed_state (nextp s) (nextr s) (geo s) (theAggregates s) (theOuter s) (theInterfaces s) zero).
  - exact (exec_all_embed (nextp s) (nextr s) (geo s) (theAggregates s) (theOuter s) (theInterfaces s) n P HO HI f zero K).
  - unfold embed_state, embed. cbn. rewrite !app_nil_r. destruct (geo s). reflexivity.
Qed.

(** ** Consistency *)
Definition definedb {A} (t : Z) (l : list (Z * A)) : bool := existsb (Z.eqb t) (map fst l).
Lemma definedb_ok {A} t (l : list (Z * A)) : definedb t l = true -> defined t l.
Proof. unfold definedb. rewrite existsb_exists. intros (u & H & E). apply Z.eqb_eq in E. subst u. exact H. Qed.
Fixpoint nodupb (l : list Z) : bool := match l with [] => true | t :: l' => negb (existsb (Z.eqb t) l') && nodupb l' end.
Lemma nodupb_ok l : nodupb l = true -> NoDup l.
Proof.
  induction l as [|t l IH]; [constructor|]. cbn. rewrite andb_true_iff, negb_true_iff. intros [H1 H2]. constructor; [|exact (IH H2)].
  intros H. assert (X : existsb (Z.eqb t) l = true) by (apply existsb_exists; exists t; split; [exact H|apply Z.eqb_refl]). congruence.
Qed.
Definition checkb (m : model) : bool :=
  nodupb (map fst (points m)) && nodupb (map fst (curves m)) && nodupb (map fst (loops m)) && nodupb (map fst (surfaces m))
  && nodupb (map fst (shells m)) && nodupb (map fst (volumes m))
  && forallb (fun x => match snd x with CLine a b => definedb a (points m) && definedb b (points m)
               | CCircle a z b => definedb a (points m) && definedb z (points m) && definedb b (points m) | COffset c => definedb c (curves m) end) (curves m)
  && forallb (fun x => forallb (fun e => definedb (snd e) (curves m)) (snd x)) (loops m)
  && forallb (fun x => match snd x with SLoops ls => forallb (fun l => definedb l (loops m)) ls | SOffset s => definedb s (surfaces m) | SStrip c => definedb c (curves m) end) (surfaces m)
  && forallb (fun x => forallb (fun e => definedb e (surfaces m)) (snd x)) (shells m)
  && forallb (fun x => match snd x with VShells ls => forallb (fun l => definedb l (shells m)) ls | VLayer s => definedb s (surfaces m) end) (volumes m).
Lemma checkb_ok m : checkb m = true -> consistent m.
Proof.
  unfold checkb. rewrite !andb_true_iff, !forallb_forall. intros H.
  repeat match goal with X : _ /\ _ |- _ => destruct X end.
  constructor; try (apply nodupb_ok; assumption).
  - intros t c Hc. match goal with X : forall x, In x (curves m) -> _ |- _ => specialize (X _ Hc); cbn in X end.
    destruct c; rewrite ?andb_true_iff in *; intuition auto using definedb_ok.
  - intros t l e Hl He. match goal with X : forall x, In x (loops m) -> _ |- _ => specialize (X _ Hl); cbn in X; rewrite forallb_forall in X; specialize (X _ He) end.
    auto using definedb_ok.
  - intros t f Hf. match goal with X : forall x, In x (surfaces m) -> _ |- _ => specialize (X _ Hf); cbn in X end.
    destruct f; rewrite ?forallb_forall in *; intuition auto using definedb_ok.
  - intros t l e Hl He. match goal with X : forall x, In x (shells m) -> _ |- _ => specialize (X _ Hl); cbn in X; rewrite forallb_forall in X; specialize (X _ He) end.
    auto using definedb_ok.
  - intros t f Hf. match goal with X : forall x, In x (volumes m) -> _ |- _ => specialize (X _ Hf); cbn in X end.
    destruct f; rewrite ?forallb_forall in *; intuition auto using definedb_ok.
Qed.
Definition below {A} (k : Z) (l : list (Z * A)) : Prop := Forall (fun t => t < k) (map fst l).
Definition bounded (s : state) : Prop :=
  let m := geo s in below (nextp s) (points m) /\ below (nextr s) (curves m) /\ below (nextr s) (loops m) /\ below (nextr s) (surfaces m)
  /\ below (nextr s) (shells m) /\ below (nextr s) (volumes m).
Definition rangeb {A} (k : Z) (l : list (Z * A)) : bool := forallb (fun t => (0 <=? t) && (t <? k)) (map fst l).
Definition rangesb (s : state) : bool :=
  let m := geo s in rangeb (nextp s) (points m) && rangeb (nextr s) (curves m) && rangeb (nextr s) (loops m) && rangeb (nextr s) (surfaces m)
  && rangeb (nextr s) (shells m) && rangeb (nextr s) (volumes m).
Definition invariant (s : state) : Prop := consistent (geo s) /\ bounded s.

Lemma map_fst_shp {A B} (f : A -> B) d l : map fst (map (shp f d) l) = map (fun t => t + d) (map fst l).
Proof. rewrite !map_map. reflexivity. Qed.
Lemma nodup_embed {A B} (f : A -> B) d k l (G : list (Z * B)) : NoDup (map fst G) -> below d G -> NoDup (map fst l) -> rangeb k l = true ->
  NoDup (map fst (G ++ map (shp f d) l)).
Proof.
  intros HG HB Hl Hr. rewrite map_app, map_fst_shp.
  unfold rangeb in Hr. rewrite forallb_forall in Hr. unfold below in HB. rewrite Forall_forall in HB.
  induction (map fst G) as [|g gs IH]; cbn.
  - apply FinFun.Injective_map_NoDup; [intros x y E; lia|exact Hl].
  - inversion HG; subst. constructor.
    + rewrite in_app_iff. intros [H|H]; [auto|]. apply in_map_iff in H. destruct H as (t & <- & H).
      specialize (Hr _ H). rewrite andb_true_iff, Z.leb_le in Hr. pose proof (HB _ (or_introl eq_refl)). lia.
    + apply IH; [assumption|]. intros x Hx. apply HB. right. exact Hx.
Qed.
Lemma below_embed {A B} (f : A -> B) d k l (G : list (Z * B)) : 0 <= k -> below d G -> rangeb k l = true -> below (k + d) (G ++ map (shp f d) l).
Proof.
  intros Hk HB Hr. unfold below in *. rewrite map_app, map_fst_shp. apply Forall_app. split.
  - eapply Forall_impl; [|exact HB]. cbn. intros. lia.
  - apply Forall_forall. intros x Hx. apply in_map_iff in Hx. destruct Hx as (t & <- & H).
    unfold rangeb in Hr. rewrite forallb_forall in Hr. specialize (Hr _ H). rewrite andb_true_iff, Z.ltb_lt in Hr. lia.
Qed.
Lemma defined_app_l {A} t (l l' : list (Z * A)) : defined t l -> defined t (l ++ l').
Proof. unfold defined. rewrite map_app, in_app_iff. auto. Qed.
Lemma defined_sh {A B} (f : A -> B) d t l (G : list (Z * B)) : defined t l -> defined (t + d) (G ++ map (shp f d) l).
Proof. unfold defined. rewrite map_app, map_fst_shp, in_app_iff. intros H. right. apply in_map_iff. exists t. auto. Qed.
Lemma invariant_embed s T A O I : invariant s -> checkb (geo T) = true -> rangesb T = true -> 0 <= nextp T -> 0 <= nextr T ->
  invariant (embed_state (nextp s) (nextr s) (geo s) A O I T).
Proof.
  intros [HC HB] HT HR Hp Hr. apply checkb_ok in HT. unfold rangesb in HR. rewrite !andb_true_iff in HR.
  unfold bounded in HB. cbv zeta in HB. destruct HR as [[[[[R1 R2] R3] R4] R5] R6], HB as (B1 & B2 & B3 & B4 & B5 & B6).
  destruct HC as [c1 c2 c3 c4 c5 c6 d1 d2 d3 d4 d5], HT as [t1 t2 t3 t4 t5 t6 u1 u2 u3 u4 u5].
  split; [|unfold bounded; cbv zeta; cbn [geo embed_state embed points curves loops surfaces shells volumes nextp nextr];
           repeat split; apply below_embed; assumption].
  constructor; cbn [geo embed_state embed points curves loops surfaces shells volumes]; try (eapply nodup_embed; eassumption).
  - intros t c H. apply in_app_iff in H. destruct H as [H|H].
    + specialize (d1 _ _ H). destruct c; intuition auto using defined_app_l.
    + apply in_map_iff in H. destruct H as ((t' & c') & E & H). inversion E; subst. specialize (u1 _ _ H).
      destruct c'; cbn; intuition auto using defined_sh.
  - intros t l e H He. apply in_app_iff in H. destruct H as [H|H].
    + eauto using defined_app_l.
    + apply in_map_iff in H. destruct H as ((t' & l') & E & H). inversion E; subst. apply in_map_iff in He. destruct He as (e' & <- & He).
      cbn. apply defined_sh. eapply u2; eassumption.
  - intros t f H. apply in_app_iff in H. destruct H as [H|H].
    + specialize (d3 _ _ H). destruct f; intuition auto using defined_app_l.
    + apply in_map_iff in H. destruct H as ((t' & f') & E & H). inversion E; subst. specialize (u3 _ _ H).
      destruct f'; cbn; intuition auto using defined_sh. apply in_map_iff in H0. destruct H0 as (l' & <- & H0). apply defined_sh; auto.
  - intros t l e H He. apply in_app_iff in H. destruct H as [H|H].
    + eauto using defined_app_l.
    + apply in_map_iff in H. destruct H as ((t' & l') & E & H). inversion E; subst. apply in_map_iff in He. destruct He as (e' & <- & He).
      cbn. apply defined_sh. eapply u4; eassumption.
  - intros t f H. apply in_app_iff in H. destruct H as [H|H].
    + specialize (d5 _ _ H). destruct f; intuition auto using defined_app_l.
    + apply in_map_iff in H. destruct H as ((t' & f') & E & H). inversion E; subst. specialize (u5 _ _ H).
      destruct f'; cbn; intuition auto using defined_sh. apply in_map_iff in H0. destruct H0 as (l' & <- & H0). apply defined_sh; auto.
Qed.

(** ** Containment *)
Record contains (dp dr : Z) (T m : model) : Prop := {
  in_points : forall t c, In (t, c) (points T) -> In (t + dp, c) (points m);
  in_curves : forall t c, In (t, c) (curves T) -> In (t + dr, sh_curve dp dr c) (curves m);
  in_loops : forall t c, In (t, c) (loops T) -> In (t + dr, map (sh_signed dr) c) (loops m);
  in_surfaces : forall t c, In (t, c) (surfaces T) -> In (t + dr, sh_surface dr c) (surfaces m);
  in_shells : forall t c, In (t, c) (shells T) -> In (t + dr, sh_list dr c) (shells m);
  in_volumes : forall t c, In (t, c) (volumes T) -> In (t + dr, sh_volume dr c) (volumes m) }.
Lemma contains_embed dp dr G T : contains dp dr T (embed dp dr G T).
Proof. constructor; intros t c H; cbn; apply in_app_iff; right; apply in_map_iff; exists (t, c); split; auto. Qed.
(** models only grow *)
Record grows (m m' : model) : Prop := {
  g_points : incl (points m) (points m'); g_curves : incl (curves m) (curves m'); g_loops : incl (loops m) (loops m');
  g_surfaces : incl (surfaces m) (surfaces m'); g_shells : incl (shells m) (shells m'); g_volumes : incl (volumes m) (volumes m') }.
Lemma grows_refl m : grows m m. Proof. constructor; apply incl_refl. Qed.
Lemma grows_trans a b c : grows a b -> grows b c -> grows a c.
Proof. intros [] []. constructor; eapply incl_tran; eassumption. Qed.
Lemma grows_embed dp dr G T : grows G (embed dp dr G T).
Proof. constructor; cbn; apply incl_appl, incl_refl. Qed.
Lemma contains_grows dp dr T m m' : contains dp dr T m -> grows m m' -> contains dp dr T m'.
Proof. intros [] []. constructor; intros; auto. Qed.

(** ** The templates *)
Definition template (f : list stmt) (P : params) : state := match exec_all P 0 zero f with Ok s => s | _ => zero end.
Definition T_plain := Eval cbv -[Rplus Rminus Ropp Rmult Rinv IZR xC yC zC Rad xS yS zS xE yE zE radius height] in (fun P => template aggregate P).
Definition T_coated := Eval cbv -[Rplus Rminus Ropp Rmult Rinv IZR xC yC zC Rad xS yS zS xE yE zE radius height] in (fun P => template aggregate_with_interface P).
Definition T_sphere := Eval cbv -[Rplus Rminus Ropp Rmult Rinv IZR xC yC zC Rad xS yS zS xE yE zE radius height] in (fun P => template sphere P).
Definition T_box := Eval cbv -[Rplus Rminus Ropp Rmult Rinv IZR xC yC zC Rad xS yS zS xE yE zE radius height] in (fun P => template box_3d P).
Definition T_cylinder := Eval cbv -[Rplus Rminus Ropp Rmult Rinv IZR xC yC zC Rad xS yS zS xE yE zE radius height] in (fun P => template cylinder_3d P).
Definition T_box2 := Eval cbv -[Rplus Rminus Ropp Rmult Rinv IZR xC yC zC Rad xS yS zS xE yE zE radius height] in (fun P => template box_2d P).
Definition T_plain2 := Eval cbv -[Rplus Rminus Ropp Rmult Rinv IZR xC yC zC Rad xS yS zS xE yE zE radius height] in (fun P => template aggregate_2d P).
Definition T_coated2 := Eval cbv -[Rplus Rminus Ropp Rmult Rinv IZR xC yC zC Rad xS yS zS xE yE zE radius height] in (fun P => template aggregate_2d_with_interface P).
Lemma run_plain P : exec_all P 0 zero aggregate = Ok (T_plain P). Proof. reflexivity. Qed.
Lemma run_coated P : exec_all P 0 zero aggregate_with_interface = Ok (T_coated P). Proof. reflexivity. Qed.
Lemma run_box P : exec_all P 0 zero box_3d = Ok (T_box P). Proof. reflexivity. Qed.
Lemma run_cylinder P : exec_all P 0 zero cylinder_3d = Ok (T_cylinder P). Proof. reflexivity. Qed.
Lemma run_box2 P : exec_all P 0 zero box_2d = Ok (T_box2 P). Proof. reflexivity. Qed.
Lemma run_plain2 P : exec_all P 0 zero aggregate_2d = Ok (T_plain2 P). Proof. reflexivity. Qed.
Lemma run_coated2 P : exec_all P 0 zero aggregate_2d_with_interface = Ok (T_coated2 P). Proof. reflexivity. Qed.

(** membership in a template *)
Ltac inT := cbn [In T_plain T_coated T_sphere T_box T_cylinder T_box2 T_plain2 T_coated2 geo points curves loops surfaces shells volumes];
            solve [repeat (first [left; reflexivity | right])].

(** ** Closed surfaces *)
Definition signed_eqb (a b : signed) : bool := Bool.eqb (fst a) (fst b) && Z.eqb (snd a) (snd b).
Lemma signed_eqb_ok a b : signed_eqb a b = true <-> a = b.
Proof.
  destruct a, b. unfold signed_eqb. cbn. rewrite andb_true_iff, eqb_true_iff, Z.eqb_eq. split; [intros [-> ->]; reflexivity|intros E; inversion E; auto].
Qed.
Fixpoint snodupb (l : list signed) : bool := match l with [] => true | t :: l' => negb (existsb (signed_eqb t) l') && snodupb l' end.
Lemma snodupb_ok l : snodupb l = true -> NoDup l.
Proof.
  induction l as [|t l IH]; [constructor|]. cbn. rewrite andb_true_iff, negb_true_iff. intros [H1 H2]. constructor; [|exact (IH H2)].
  intros H. assert (X : existsb (signed_eqb t) l = true) by (apply existsb_exists; exists t; split; [exact H|apply signed_eqb_ok; reflexivity]). congruence.
Qed.
Lemma closed_of m dr fs L : Forall2 (fun f l => bounded_by m (f + dr) (map (sh_signed dr) l)) fs L ->
  snodupb (concat L) = true -> forallb (fun e => existsb (signed_eqb (negb (fst e), snd e)) (concat L)) (concat L) = true ->
  closed_surface m (sh_list dr fs).
Proof.
  intros HF HN HO. exists (map (map (sh_signed dr)) L). rewrite <- concat_map. repeat split.
  - clear HN HO; induction HF; cbn; constructor; auto.
  - apply FinFun.Injective_map_NoDup; [|apply snodupb_ok; exact HN].
    intros [b t] [b' t'] E. unfold sh_signed in E. cbn in E. inversion E. f_equal. lia.
  - intros b c H. apply in_map_iff in H. destruct H as ([b' t] & E & H). unfold sh_signed in E. cbn in E. inversion E; subst.
    rewrite forallb_forall in HO. specialize (HO _ H). apply existsb_exists in HO. destruct HO as (e & He & Q). apply signed_eqb_ok in Q. subst e.
    apply in_map_iff. exists (negb b, t). split; [reflexivity|exact He].
Qed.
Lemma bounded_sh m dp dr T f t l : contains dp dr T m -> In (f, SLoops [t]) (surfaces T) -> In (t, l) (loops T) ->
  bounded_by m (f + dr) (map (sh_signed dr) l).
Proof.
  intros C H1 H2. exists (t + dr). split; [exact (in_surfaces _ _ _ _ C _ _ H1)|exact (in_loops _ _ _ _ C _ _ H2)].
Qed.
Lemma arc_sh m dp dr T e z p q : contains dp dr T m -> arc T e z p q -> arc m (sh_signed dr e) (z + dp) (p + dp) (q + dp).
Proof. intros C. unfold arc, sh_signed. destruct e as [[|] t]; cbn; intros H; exact (in_curves _ _ _ _ C _ _ H). Qed.
Lemma line_sh m dp dr T e p q : contains dp dr T m -> line T e p q -> line m (sh_signed dr e) (p + dp) (q + dp).
Proof. intros C. unfold line, sh_signed. destruct e as [[|] t]; cbn; intros H; exact (in_curves _ _ _ _ C _ _ H). Qed.

Section Perm.
Context {A : Type}.
Lemma perm3 (a b c : A) : Permutation [a; b; c] [a; b; c] /\ Permutation [a; b; c] [b; c; a] /\ Permutation [a; b; c] [c; a; b]
  /\ Permutation [a; b; c] [a; c; b] /\ Permutation [a; b; c] [b; a; c] /\ Permutation [a; b; c] [c; b; a].
Proof.
  repeat split; try reflexivity.
  - exact (Permutation_cons_append [b; c] a).
  - apply Permutation_sym. exact (Permutation_cons_append [a; b] c).
  - apply perm_skip, perm_swap.
  - apply perm_swap.
  - exact (Permutation_rev [a; b; c]).
Qed.
End Perm.

Lemma cx_t x y z r : corner_x (V3 x y z) r true = V3 (x + r) y z. Proof. cbv [corner_x corner_y corner_z sgn vx vy vz]. f_equal; ring. Qed.
Lemma cx_f x y z r : corner_x (V3 x y z) r false = V3 (x - r) y z. Proof. cbv [corner_x corner_y corner_z sgn vx vy vz]. f_equal; ring. Qed.
Lemma cy_t x y z r : corner_y (V3 x y z) r true = V3 x (y + r) z. Proof. cbv [corner_x corner_y corner_z sgn vx vy vz]. f_equal; ring. Qed.
Lemma cy_f x y z r : corner_y (V3 x y z) r false = V3 x (y - r) z. Proof. cbv [corner_x corner_y corner_z sgn vx vy vz]. f_equal; ring. Qed.
Lemma cz_t x y z r : corner_z (V3 x y z) r true = V3 x y (z + r). Proof. cbv [corner_x corner_y corner_z sgn vx vy vz]. f_equal; ring. Qed.
Lemma cz_f x y z r : corner_z (V3 x y z) r false = V3 x y (z - r). Proof. cbv [corner_x corner_y corner_z sgn vx vy vz]. f_equal; ring. Qed.

Lemma octant_sh m dp dr P l f tl o e1 e2 e3 p1 p2 p3 P2 P3 :
  let T := geo (T_sphere P) in let c := V3 (xC P) (yC P) (zC P) in
  contains dp dr T m -> In (f, SLoops [tl]) (surfaces T) -> In (tl, l) (loops T) -> Permutation l [e1; e2; e3] ->
  arc T e1 0 p1 p2 -> arc T e2 0 p2 p3 -> arc T e3 0 p3 p1 ->
  In (p1, corner_x c (Rad P) (fst (fst o))) (points T) -> In (p2, P2) (points T) -> In (p3, P3) (points T) ->
  ((P2 = corner_y c (Rad P) (snd (fst o)) /\ P3 = corner_z c (Rad P) (snd o)) \/ (P2 = corner_z c (Rad P) (snd o) /\ P3 = corner_y c (Rad P) (snd (fst o)))) ->
  (0 < triple c (corner_x c (Rad P) (fst (fst o))) P2 P3)%R ->
  octant m c (Rad P) o (f + dr).
Proof.
  intros T c C HF HL HP A1 A2 A3 I1 I2 I3 HC HT. destruct o as [[x y] z]. cbn [fst snd] in *.
  exists (map (sh_signed dr) l), (sh_signed dr e1), (sh_signed dr e2), (sh_signed dr e3), (0 + dp), (p1 + dp), (p2 + dp), (p3 + dp), P2, P3.
  repeat split; try (eapply arc_sh; eassumption); try (apply (in_points _ _ _ _ C); assumption); try assumption.
  - exact (bounded_sh m dp dr T f tl l C HF HL).
  - apply (Permutation_map (sh_signed dr)) in HP. exact HP.
  - apply (in_points _ _ _ _ C). unfold T, c. inT.
Qed.
Ltac perm := first [ exact (proj1 (perm3 _ _ _)) | exact (proj1 (proj2 (perm3 _ _ _))) | exact (proj1 (proj2 (proj2 (perm3 _ _ _))))
   | exact (proj1 (proj2 (proj2 (proj2 (perm3 _ _ _))))) | exact (proj1 (proj2 (proj2 (proj2 (proj2 (perm3 _ _ _))))))
   | exact (proj2 (proj2 (proj2 (proj2 (proj2 (perm3 _ _ _)))))) ].
Ltac octant_at f tl e1 e2 e3 p1 p2 p3 :=
  match goal with |- octant _ ?c ?r (?x, ?y, ?z) _ =>
    first
      [ eapply (octant_sh _ _ _ _ _ f tl (x, y, z) e1 e2 e3 p1 p2 p3 (corner_y c r y) (corner_z c r z));
        [ eassumption | inT | inT | perm | unfold arc; cbn [fst snd]; inT | unfold arc; cbn [fst snd]; inT | unfold arc; cbn [fst snd]; inT
        | cbn [fst snd]; rewrite ?cx_t, ?cx_f; inT | rewrite ?cy_t, ?cy_f; inT | rewrite ?cz_t, ?cz_f; inT | left; split; reflexivity | ]
      | eapply (octant_sh _ _ _ _ _ f tl (x, y, z) e1 e2 e3 p1 p2 p3 (corner_z c r z) (corner_y c r y));
        [ eassumption | inT | inT | perm | unfold arc; cbn [fst snd]; inT | unfold arc; cbn [fst snd]; inT | unfold arc; cbn [fst snd]; inT
        | cbn [fst snd]; rewrite ?cx_t, ?cx_f; inT | rewrite ?cz_t, ?cz_f; inT | rewrite ?cy_t, ?cy_f; inT | right; split; reflexivity | ] ]
  end.
Ltac outward :=
  match goal with H : (0 < ?r * ?r * ?r)%R |- (0 < ?e)%R => replace e with (r * r * r)%R; [exact H|] end;
  unfold triple, vsub, corner_x, corner_y, corner_z, sgn; cbn [vx vy vz fst snd]; ring.
Lemma sphere_ok m dp dr P : contains dp dr (geo (T_sphere P)) m -> (0 < Rad P)%R ->
  sphere_surface m (V3 (xC P) (yC P) (zC P)) (Rad P) (sh_list dr [20; 21; 22; 23; 24; 25; 26; 27]).
Proof.
  intros C HR. split.
  - eapply (closed_of m dr _ (map snd (loops (geo (T_sphere P))))); [|reflexivity|reflexivity].
    cbn [map snd T_sphere geo loops].
    repeat (apply Forall2_cons; [eapply bounded_sh; [eassumption|inT|inT]|]). constructor.
  - exists [(true, true, true); (true, true, false); (true, false, false); (true, false, true);
            (false, true, true); (false, false, true); (false, false, false); (false, true, false)].
    split.
    + unfold octants. do 2 apply perm_skip. eapply perm_trans; [apply perm_swap|]. do 3 apply perm_skip. perm.
    + assert (H3 : (0 < Rad P * Rad P * Rad P)%R) by (repeat apply Rmult_lt_0_compat; assumption).
      unfold sh_list. cbn [map]. repeat apply Forall2_cons; try constructor.
      * octant_at 20 12 (true, 4) (true, 9) (true, 3) 1 2 3. outward.
      * octant_at 21 13 (true, 0) (true, 8) (false, 4) 1 6 2. outward.
      * octant_at 22 14 (false, 7) (true, 11) (false, 0) 1 5 6. outward.
      * octant_at 23 15 (false, 3) (true, 10) (true, 7) 1 3 5. outward.
      * octant_at 24 16 (true, 2) (false, 9) (true, 5) 4 3 2. outward.
      * octant_at 25 17 (true, 6) (false, 10) (false, 2) 4 5 3. outward.
      * octant_at 26 18 (false, 1) (false, 11) (false, 6) 4 6 5. outward.
      * octant_at 27 19 (false, 5) (false, 8) (true, 1) 4 2 6. outward.
Qed.

(** ** The box *)
Ltac adj := first [ exists AX; split; [discriminate|intros [] N; first [reflexivity | exfalso; apply N; reflexivity]]
                  | exists AY; split; [discriminate|intros [] N; first [reflexivity | exfalso; apply N; reflexivity]]
                  | exists AZ; split; [discriminate|intros [] N; first [reflexivity | exfalso; apply N; reflexivity]] ].
Ltac rect f tl e1 e2 e3 e4 p1 p2 p3 p4 b1 b2 b3 b4 :=
  match goal with C : contains ?dp ?dr ?T ?m |- rectangle _ _ _ _ _ =>
    exists (sh_signed dr e1), (sh_signed dr e2), (sh_signed dr e3), (sh_signed dr e4), (p1 + dp), (p2 + dp), (p3 + dp), (p4 + dp), b1, b2, b3, b4,
      (map (sh_signed dr) [e1; e2; e3; e4]);
    repeat match goal with |- _ /\ _ => split end;
    [ eapply (bounded_sh m dp dr T f tl); [exact C|inT|inT] | reflexivity
    | eapply line_sh; [exact C|unfold line; cbn [fst snd]; inT] | eapply line_sh; [exact C|unfold line; cbn [fst snd]; inT]
    | eapply line_sh; [exact C|unfold line; cbn [fst snd]; inT] | eapply line_sh; [exact C|unfold line; cbn [fst snd]; inT]
    | repeat apply Forall2_cons; [split; [apply (in_points _ _ _ _ C); unfold corner; cbn [vx vy vz]; inT|reflexivity] ..|constructor]
    | repeat (constructor; [cbn [In]; intuition discriminate|]); constructor
    | adj | adj | adj | adj ]
  end.
Lemma box_ok m dp dr P : contains dp dr (geo (T_box P)) m ->
  box_surface m (V3 (xS P) (yS P) (zS P)) (V3 (xE P) (yE P) (zE P)) (sh_list dr [13; 17; 15; 19; 21; 23])
  /\ In (24 + dr, sh_list dr [13; 17; 15; 19; 21; 23]) (shells m).
Proof.
  intros C. split; [|apply (in_shells _ _ _ _ C); inT]. split.
  - eapply (closed_of m dr _ [_; _; _; _; _; _]).
    { apply Forall2_cons; [eapply (bounded_sh m dp dr _ 13 12 _ C); inT|].
    apply Forall2_cons; [eapply (bounded_sh m dp dr _ 17 16 _ C); inT|].
    apply Forall2_cons; [eapply (bounded_sh m dp dr _ 15 14 _ C); inT|].
    apply Forall2_cons; [eapply (bounded_sh m dp dr _ 19 18 _ C); inT|].
    apply Forall2_cons; [eapply (bounded_sh m dp dr _ 21 20 _ C); inT|].
    apply Forall2_cons; [eapply (bounded_sh m dp dr _ 23 22 _ C); inT|]. constructor. }
    { reflexivity. }
    { reflexivity. }
  - exists [(AY, false); (AX, false); (AY, true); (AX, true); (AZ, true); (AZ, false)]. split.
    + unfold sides. eapply perm_trans; [apply perm_swap|]. apply perm_skip.
      eapply perm_trans; [|apply perm_swap]. eapply perm_trans; [apply perm_skip, perm_swap|].
      eapply perm_trans; [apply perm_swap|]. eapply perm_trans; [|apply perm_swap].
      eapply perm_trans; [apply perm_swap|]. eapply perm_trans; [|apply perm_swap].
      do 3 apply perm_skip. apply perm_swap.
    + unfold sh_list. cbn [map]. repeat apply Forall2_cons; try constructor.
      * rect 13 12 (false, 3) (true, 11) (true, 7) (false, 8) 0 3 7 4 (false, false, true) (true, false, true) (true, false, false) (false, false, false).
      * rect 17 16 (false, 0) (true, 8) (true, 4) (false, 9) 1 0 4 5 (false, true, true) (false, false, true) (false, false, false) (false, true, false).
      * rect 15 14 (false, 1) (true, 9) (true, 5) (false, 10) 2 1 5 6 (true, true, true) (false, true, true) (false, true, false) (true, true, false).
      * rect 19 18 (false, 2) (true, 10) (true, 6) (false, 11) 3 2 6 7 (true, false, true) (true, true, true) (true, true, false) (true, false, false).
      * rect 21 20 (true, 0) (true, 1) (true, 2) (true, 3) 0 1 2 3 (false, false, true) (false, true, true) (true, true, true) (true, false, true).
      * rect 23 22 (false, 7) (false, 6) (false, 5) (false, 4) 4 7 6 5 (false, false, false) (true, false, false) (true, true, false) (false, true, false).
Qed.
