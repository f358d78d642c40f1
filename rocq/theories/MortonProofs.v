(** * Proofs for C31 *)
From Coq Require Import NArith ZArith Bool Lia List.
From Verif Require Import Outcome MortonModel.
Local Open Scope N_scope.

(** bit k of a word is a bit of x (with its index), or 0 *)
Definition src := N -> option N.
Definition bit_of (x : N) (o : option N) : bool := match o with Some j => N.testbit x j | None => false end.
Definition reads (w x : N) (f : src) : Prop := forall k, N.testbit w k = bit_of x (f k).

Definition land_src (f : src) (m : N) : src := fun k => if N.testbit m k then f k else None.
Definition shl_src (f : src) (s : N) : src := fun k => if k <? s then None else f (k - s).
Definition shr_src (f : src) (s : N) : src := fun k => f (k + s).
(** both bits present must not happen where it matters *)
Definition xor_src (f g : src) : src := fun k => match f k, g k with None, o => o | o, None => o | Some _, Some _ => None end.

Lemma reads_id x : reads x x Some.
Proof. intros k. reflexivity. Qed.
Lemma reads_land w x f m : reads w x f -> reads (N.land w m) x (land_src f m).
Proof. intros H k. rewrite N.land_spec, H. unfold land_src. destruct (N.testbit m k); [apply andb_true_r|apply andb_false_r]. Qed.
Lemma reads_shl w x f s : reads w x f -> reads (wshl w s) x (land_src (shl_src f s) mask32).
Proof.
  intros H. unfold wshl. apply reads_land. intros k. unfold shl_src. destruct (N.ltb_spec k s).
  - apply N.shiftl_spec_low. auto.
  - rewrite N.shiftl_spec_high' by auto. apply H.
Qed.
Lemma reads_shr w x f s : reads w x f -> reads (N.shiftr w s) x (shr_src f s).
Proof. intros H k. rewrite N.shiftr_spec'. apply H. Qed.

Definition bits32 : list N := map N.of_nat (seq 0 32).
Lemma in_bits32 k : k < 32 -> In k bits32.
Proof. intros H. unfold bits32. apply in_map_iff. exists (N.to_nat k). split; [apply N2Nat.id|]. apply in_seq. lia. Qed.

Definition oeqb (a b : option N) : bool := match a, b with Some x, Some y => N.eqb x y | None, None => true | _, _ => false end.
Lemma oeqb_eq a b : oeqb a b = true -> a = b.
Proof. destruct a, b; simpl; try discriminate; auto. intros H. apply N.eqb_eq in H. congruence. Qed.

(** one masking step (w ^ shifted w) & m with result description g, checked on the 32 bits *)
Definition step_ok (f h : src) (m : N) (g : src) : bool :=
  forallb (fun k => if N.testbit m k
                    then match f k, h k with Some _, Some _ => false | None, o => oeqb o (g k) | o, None => oeqb o (g k) end
                    else oeqb None (g k)) bits32.

Lemma testbit_high m k : m <= mask32 -> 32 <= k -> N.testbit m k = false.
Proof.
  intros Hm Hk. destruct (N.eq_dec m 0) as [->|Hn]; [apply N.bits_0|]. apply N.bits_above_log2.
  apply N.log2_lt_pow2; [lia|]. apply N.lt_le_trans with (2 ^ 32); [unfold mask32 in Hm; lia|]. apply N.pow_le_mono_r; lia.
Qed.

Lemma reads_step w w' x f h m g : reads w x f -> reads w' x h -> m <= mask32 -> step_ok f h m g = true ->
  (forall k, 32 <= k -> g k = None) -> reads (N.land (N.lxor w w') m) x g.
Proof.
  intros Hf Hh Hm Hok Hhi k. rewrite N.land_spec, N.lxor_spec, Hf, Hh.
  destruct (N.lt_ge_cases k 32) as [Hk|Hk].
  - unfold step_ok in Hok. rewrite forallb_forall in Hok. specialize (Hok k (in_bits32 k Hk)).
    destruct (N.testbit m k); [rewrite andb_true_r|rewrite andb_false_r; apply oeqb_eq in Hok; rewrite <- Hok; reflexivity].
    destruct (f k), (h k); try discriminate; apply oeqb_eq in Hok; rewrite <- Hok; cbn [bit_of];
      rewrite ?xorb_false_r, ?xorb_false_l; reflexivity.
  - rewrite (testbit_high m k Hm Hk), (Hhi k Hk), andb_false_r. reflexivity.
Qed.

(** tables as functions *)
Definition tab (l : list (option N)) : src := fun k => nth (N.to_nat k) l None.
Lemma tab_high l k : (length l <= 32)%nat -> 32 <= k -> tab l k = None.
Proof. intros Hl Hk. apply nth_overflow. lia. Qed.

Definition stage_l (f : src) (s m : N) : list (option N) := map (land_src (xor_src f (land_src (shl_src f s) mask32)) m) bits32.
Definition stage_r (f : src) (s m : N) : list (option N) := map (land_src (xor_src f (shr_src f s)) m) bits32.

Lemma reads_stage_l w x f s m : reads w x f -> m <= mask32 ->
  step_ok f (land_src (shl_src f s) mask32) m (tab (stage_l f s m)) = true ->
  reads (N.land (N.lxor w (wshl w s)) m) x (tab (stage_l f s m)).
Proof.
  intros Hf Hm Hok. eapply reads_step; [exact Hf|apply reads_shl; exact Hf|exact Hm|exact Hok|].
  intros k Hk. apply tab_high; [unfold stage_l, bits32; rewrite !map_length, seq_length; lia|exact Hk].
Qed.
Lemma reads_stage_r w x f s m : reads w x f -> m <= mask32 -> step_ok f (shr_src f s) m (tab (stage_r f s m)) = true ->
  reads (N.land (N.lxor w (N.shiftr w s)) m) x (tab (stage_r f s m)).
Proof.
  intros Hf Hm Hok. eapply reads_step; [exact Hf|apply reads_shr; exact Hf|exact Hm|exact Hok|].
  intros k Hk. apply tab_high; [unfold stage_r, bits32; rewrite !map_length, seq_length; lia|exact Hk].
Qed.
Lemma reads_first x m l : m <= mask32 -> l = map (land_src Some m) bits32 -> reads (N.land x m) x (tab l).
Proof.
  intros Hm -> k. rewrite N.land_spec. destruct (N.lt_ge_cases k 32) as [Hk|Hk].
  - unfold tab. assert (E : nth (N.to_nat k) (map (land_src Some m) bits32) None = land_src Some m k).
    { assert (G : nth_error (map (land_src Some m) bits32) (N.to_nat k) = Some (land_src Some m k)).
      { rewrite nth_error_map. unfold bits32. rewrite nth_error_map, (nth_error_nth' _ 0%nat) by (rewrite seq_length; lia).
        rewrite seq_nth by lia. simpl. rewrite N2Nat.id. reflexivity. }
      apply (nth_error_nth _ _ None) in G. exact G. }
    rewrite E. unfold land_src. destruct (N.testbit m k); [apply andb_true_r|apply andb_false_r].
  - rewrite tab_high, (testbit_high m k Hm Hk), andb_false_r; [reflexivity| |exact Hk].
    unfold bits32. rewrite !map_length, seq_length. lia.
Qed.
Lemma reads_conv w x l g : reads w x (tab l) -> (length l <= 32)%nat -> (forall k, 32 <= k -> g k = None) ->
  forallb (fun k => oeqb (tab l k) (g k)) bits32 = true -> reads w x g.
Proof.
  intros H Hl Hhi Hok k. rewrite H. f_equal. destruct (N.lt_ge_cases k 32) as [Hk|Hk].
  - rewrite forallb_forall in Hok. apply oeqb_eq, Hok, in_bits32, Hk.
  - rewrite tab_high, Hhi; auto.
Qed.

(** what the four functions compute *)
Definition spread (d n : N) : src := fun k => if (k mod d =? 0) && (k / d <? n) then Some (k / d) else None.
Definition gather (d n : N) : src := fun k => if k <? n then Some (d * k) else None.

Ltac stages tac :=
  first [eapply reads_first; [unfold mask32; lia|reflexivity] | eapply tac; [stages tac|unfold mask32; lia|vm_compute; reflexivity]].
Lemma spread_high d n k : 0 < d -> d * n <= 32 -> 32 <= k -> spread d n k = None.
Proof.
  intros Hd Hn Hk. unfold spread. destruct (N.ltb_spec (k / d) n) as [H|H]; [|rewrite andb_false_r; reflexivity].
  exfalso. pose proof (N.div_mod k d). pose proof (N.mod_lt k d). nia.
Qed.

Lemma part1by1_reads x : reads (part1by1 x) x (spread 2 16).
Proof.
  eapply reads_conv.
  - unfold part1by1. cbv zeta. stages reads_stage_l.
  - unfold stage_l, bits32. rewrite !map_length, seq_length. lia.
  - intros k Hk. apply spread_high; lia.
  - vm_compute. reflexivity.
Qed.
Lemma part1by2_reads x : reads (part1by2 x) x (spread 3 10).
Proof.
  eapply reads_conv.
  - unfold part1by2. cbv zeta. stages reads_stage_l.
  - unfold stage_l, bits32. rewrite !map_length, seq_length. lia.
  - intros k Hk. apply spread_high; lia.
  - vm_compute. reflexivity.
Qed.
Lemma compact1by1_reads x : reads (compact1by1 x) x (gather 2 16).
Proof.
  eapply reads_conv.
  - unfold compact1by1. cbv zeta. stages reads_stage_r.
  - unfold stage_r, bits32. rewrite !map_length, seq_length. lia.
  - intros k Hk. unfold gather. destruct (N.ltb_spec k 16); [lia|reflexivity].
  - vm_compute. reflexivity.
Qed.
Lemma compact1by2_reads x : reads (compact1by2 x) x (gather 3 10).
Proof.
  eapply reads_conv.
  - unfold compact1by2. cbv zeta. stages reads_stage_r.
  - unfold stage_r, bits32. rewrite !map_length, seq_length. lia.
  - intros k Hk. unfold gather. destruct (N.ltb_spec k 10); [lia|reflexivity].
  - vm_compute. reflexivity.
Qed.

(** ** encoding and decoding *)
Lemma divmod_unique d q r : r < d -> (d * q + r) mod d = r /\ (d * q + r) / d = q.
Proof.
  intros Hr. split; symmetry; [apply (N.mod_unique _ _ q); auto|apply (N.div_unique _ _ _ r); auto].
Qed.

Lemma spread_bits d n w x q r : 0 < d -> reads w x (spread d n) -> r < d ->
  N.testbit w (d * q + r) = (r =? 0) && (q <? n) && N.testbit x q.
Proof.
  intros Hd H Hr. rewrite H. unfold spread. destruct (divmod_unique d q r Hr) as (-> & ->).
  destruct (r =? 0), (q <? n); reflexivity.
Qed.

Lemma mask32_bit k : N.testbit mask32 k = (k <? 32).
Proof. change mask32 with (N.ones 32). destruct (N.ltb_spec k 32); [apply N.ones_spec_low; auto|apply N.ones_spec_high; auto]. Qed.

Lemma spread_shl_bits d n w x s q r : 0 < d -> d * n <= 32 -> reads w x (spread d n) -> r < d -> s < d ->
  N.testbit (wshl w s) (d * q + r) = (r =? s) && (q <? n) && N.testbit x q.
Proof.
  intros Hd Hn H Hr Hs. unfold wshl. rewrite N.land_spec, mask32_bit.
  destruct (N.lt_ge_cases (d * q + r) s) as [Hlt|Hge].
  - rewrite N.shiftl_spec_low by auto. simpl. destruct (N.eqb_spec r s); [lia|reflexivity].
  - rewrite N.shiftl_spec_high' by auto. destruct (N.lt_ge_cases r s) as [Hrs|Hrs].
    + assert (Hq : 1 <= q) by (destruct q; lia). replace (d * q + r - s) with (d * (q - 1) + (d + r - s)) by nia.
      rewrite (spread_bits d n w x) by (auto; lia). destruct (N.eqb_spec (d + r - s) 0); [lia|]. destruct (N.eqb_spec r s); [lia|]. reflexivity.
    + replace (d * q + r - s) with (d * q + (r - s)) by lia. rewrite (spread_bits d n w x) by (auto; lia).
      destruct (N.eqb_spec r s) as [Ers|Ers]; [|destruct (N.eqb_spec (r - s) 0); [lia|reflexivity]].
      destruct (N.eqb_spec (r - s) 0); [|lia].
      destruct (N.ltb_spec q n); simpl; [|reflexivity]. destruct (N.ltb_spec (d * q + r) 32); [apply andb_true_r|nia].
Qed.

Lemma decompose d k : 0 < d -> exists q r, r < d /\ k = d * q + r.
Proof. intros Hd. exists (k / d), (k mod d). split; [apply N.mod_lt; lia|apply N.div_mod; lia]. Qed.

Lemma wadd_disjoint a b : a <= mask32 -> b <= mask32 -> N.land a b = 0 -> wadd a b = N.lxor a b.
Proof.
  intros Ha Hb H. unfold wadd. rewrite N.add_nocarry_lxor by exact H. apply N.bits_inj. intros k.
  rewrite N.land_spec, mask32_bit. destruct (N.ltb_spec k 32); [apply andb_true_r|].
  rewrite N.lxor_spec, (testbit_high a k Ha), (testbit_high b k Hb) by auto. reflexivity.
Qed.

Lemma below_bits a n : (forall k, n <= k -> N.testbit a k = false) -> a < 2 ^ n.
Proof.
  intros H. destruct (N.lt_ge_cases a (2 ^ n)) as [|Hge]; auto. exfalso.
  assert (Ha : a <> 0) by (pose proof (N.pow_nonzero 2 n); lia).
  pose proof (N.bit_log2 a Ha) as Hb. rewrite H in Hb; [discriminate|]. apply N.log2_le_pow2; lia.
Qed.
Lemma bits_below a n k : a < 2 ^ n -> n <= k -> N.testbit a k = false.
Proof.
  intros Ha Hk. destruct (N.eq_dec a 0) as [->|Hn]; [apply N.bits_0|]. apply N.bits_above_log2.
  apply N.log2_lt_pow2; [lia|]. apply N.lt_le_trans with (2 ^ n); auto. apply N.pow_le_mono_r; lia.
Qed.
Lemma le_mask32 a : (forall k, 32 <= k -> N.testbit a k = false) -> a <= mask32.
Proof. intros H. apply below_bits in H. unfold mask32. lia. Qed.

Lemma spread_le_mask d n w x s : 0 < d -> d * n <= 32 -> reads w x (spread d n) -> s < d -> wshl w s <= mask32.
Proof.
  intros. apply le_mask32. intros k Hk. unfold wshl. rewrite N.land_spec, mask32_bit. destruct (N.ltb_spec k 32); [lia|apply andb_false_r].
Qed.
Lemma shl0 w : w <= mask32 -> wshl w 0 = w.
Proof.
  intros H. unfold wshl. rewrite N.shiftl_0_r. apply N.bits_inj. intros k. rewrite N.land_spec, mask32_bit.
  destruct (N.ltb_spec k 32); [apply andb_true_r|rewrite (testbit_high w k H) by auto; reflexivity].
Qed.
Lemma part_le_mask d n w x : 0 < d -> d * n <= 32 -> reads w x (spread d n) -> w <= mask32.
Proof. intros Hd Hn H. apply le_mask32. intros k Hk. rewrite H, spread_high; auto. Qed.

Lemma encode3_bits x y z q r : r < 3 ->
  N.testbit (encode3 x y z) (3 * q + r) = (q <? 10) && N.testbit (if r =? 0 then x else if r =? 1 then y else z) q.
Proof.
  intros Hr. unfold encode3. rewrite <- (shl0 (part1by2 x)) by (apply (part_le_mask 3 10 _ x); [lia|lia|apply part1by2_reads]).
  assert (B : forall s t q r, s < 3 -> r < 3 -> N.testbit (wshl (part1by2 t) s) (3 * q + r) = (r =? s) && (q <? 10) && N.testbit t q).
  { intros s t q' r' Hs Hr'. apply spread_shl_bits; [lia|lia|apply part1by2_reads|auto|auto]. }
  assert (M : forall s t, s < 3 -> wshl (part1by2 t) s <= mask32).
  { intros s t Hs. apply (spread_le_mask 3 10 _ t); [lia|lia|apply part1by2_reads|auto]. }
  assert (E1 : wadd (wshl (part1by2 z) 2) (wshl (part1by2 y) 1) = N.lxor (wshl (part1by2 z) 2) (wshl (part1by2 y) 1)).
  { apply wadd_disjoint; try (apply M; lia). apply N.bits_inj_0. intros k. destruct (decompose 3 k) as (q' & r' & Hr' & ->); [lia|].
    rewrite N.land_spec, !B by lia. destruct (N.eqb_spec r' 2), (N.eqb_spec r' 1); try lia; simpl; auto using andb_false_r. }
  rewrite E1, wadd_disjoint.
  - rewrite !N.lxor_spec, !B by lia.
    destruct (N.eqb_spec r 2), (N.eqb_spec r 1), (N.eqb_spec r 0); try lia; cbn [andb]; rewrite ?xorb_false_r, ?xorb_false_l; reflexivity.
  - apply le_mask32. intros k Hk. rewrite N.lxor_spec.
    rewrite (testbit_high (wshl (part1by2 z) 2) k), (testbit_high (wshl (part1by2 y) 1) k); auto; apply M; lia.
  - apply M; lia.
  - apply N.bits_inj_0. intros k. destruct (decompose 3 k) as (q' & r' & Hr' & ->); [lia|].
    rewrite N.land_spec, N.lxor_spec, !B by lia.
    destruct (N.eqb_spec r' 2), (N.eqb_spec r' 1), (N.eqb_spec r' 0); try lia; simpl; rewrite ?andb_false_r; reflexivity.
Qed.

Lemma encode2_bits x y q r : r < 2 ->
  N.testbit (encode2 x y) (2 * q + r) = (q <? 16) && N.testbit (if r =? 0 then x else y) q.
Proof.
  intros Hr. unfold encode2. rewrite <- (shl0 (part1by1 x)) by (apply (part_le_mask 2 16 _ x); [lia|lia|apply part1by1_reads]).
  assert (B : forall s t q r, s < 2 -> r < 2 -> N.testbit (wshl (part1by1 t) s) (2 * q + r) = (r =? s) && (q <? 16) && N.testbit t q).
  { intros s t q' r' Hs Hr'. apply spread_shl_bits; [lia|lia|apply part1by1_reads|auto|auto]. }
  assert (M : forall s t, s < 2 -> wshl (part1by1 t) s <= mask32).
  { intros s t Hs. apply (spread_le_mask 2 16 _ t); [lia|lia|apply part1by1_reads|auto]. }
  rewrite wadd_disjoint; try (apply M; lia).
  - rewrite !N.lxor_spec, !B by lia.
    destruct (N.eqb_spec r 1), (N.eqb_spec r 0); try lia; cbn [andb]; rewrite ?xorb_false_r, ?xorb_false_l; reflexivity.
  - apply N.bits_inj_0. intros k. destruct (decompose 2 k) as (q' & r' & Hr' & ->); [lia|].
    rewrite N.land_spec, !B by lia.
    destruct (N.eqb_spec r' 1), (N.eqb_spec r' 0); try lia; simpl; rewrite ?andb_false_r; reflexivity.
Qed.

Lemma encode3_below x y z : encode3 x y z < 2 ^ 30.
Proof.
  apply below_bits. intros k Hk. destruct (decompose 3 k) as (q & r & Hr & ->); [lia|]. rewrite encode3_bits by auto.
  destruct (N.ltb_spec q 10); [lia|reflexivity].
Qed.
Lemma encode2_below x y : encode2 x y < 2 ^ 32.
Proof.
  apply below_bits. intros k Hk. destruct (decompose 2 k) as (q & r & Hr & ->); [lia|]. rewrite encode2_bits by auto.
  destruct (N.ltb_spec q 16); [lia|reflexivity].
Qed.

Lemma compact3_bits w q : N.testbit (compact1by2 w) q = (q <? 10) && N.testbit w (3 * q).
Proof. rewrite compact1by2_reads. unfold gather. destruct (q <? 10); reflexivity. Qed.
Lemma compact2_bits w q : N.testbit (compact1by1 w) q = (q <? 16) && N.testbit w (2 * q).
Proof. rewrite compact1by1_reads. unfold gather. destruct (q <? 16); reflexivity. Qed.

Lemma decode3x_bits c q : N.testbit (decode3x c) q = (q <? 10) && N.testbit c (3 * q + 0).
Proof. unfold decode3x. rewrite compact3_bits, N.shiftr_spec'. reflexivity. Qed.
Lemma decode3y_bits c q : N.testbit (decode3y c) q = (q <? 10) && N.testbit c (3 * q + 1).
Proof. unfold decode3y. rewrite compact3_bits, N.shiftr_spec'. reflexivity. Qed.
Lemma decode3z_bits c q : N.testbit (decode3z c) q = (q <? 10) && N.testbit c (3 * q + 2).
Proof. unfold decode3z. rewrite compact3_bits, N.shiftr_spec'. reflexivity. Qed.
Lemma decode2x_bits c q : N.testbit (decode2x c) q = (q <? 16) && N.testbit c (2 * q + 0).
Proof. unfold decode2x. rewrite compact2_bits, N.shiftr_spec'. reflexivity. Qed.
Lemma decode2y_bits c q : N.testbit (decode2y c) q = (q <? 16) && N.testbit c (2 * q + 1).
Proof. unfold decode2y. rewrite compact2_bits, N.shiftr_spec'. reflexivity. Qed.

Lemma mod_bits x n q : N.testbit (x mod 2 ^ n) q = (q <? n) && N.testbit x q.
Proof. destruct (N.ltb_spec q n); [apply N.mod_pow2_bits_low; auto|apply N.mod_pow2_bits_high; auto]. Qed.

(** any words: the coordinates come back modulo 2^10 (2^16) *)
Lemma decode_encode3 x y z :
  decode3x (encode3 x y z) = x mod 2 ^ 10 /\ decode3y (encode3 x y z) = y mod 2 ^ 10 /\ decode3z (encode3 x y z) = z mod 2 ^ 10.
Proof.
  split; [|split]; apply N.bits_inj; intros q; rewrite ?decode3x_bits, ?decode3y_bits, ?decode3z_bits, encode3_bits, mod_bits by lia;
    simpl N.eqb; destruct (q <? 10); reflexivity.
Qed.
Lemma decode_encode2 x y : decode2x (encode2 x y) = x mod 2 ^ 16 /\ decode2y (encode2 x y) = y mod 2 ^ 16.
Proof.
  split; apply N.bits_inj; intros q; rewrite ?decode2x_bits, ?decode2y_bits, encode2_bits, mod_bits by lia;
    simpl N.eqb; destruct (q <? 16); reflexivity.
Qed.
Lemma encode_decode3 c : c < 2 ^ 30 -> encode3 (decode3x c) (decode3y c) (decode3z c) = c.
Proof.
  intros Hc. apply N.bits_inj. intros k. destruct (decompose 3 k) as (q & r & Hr & ->); [lia|]. rewrite encode3_bits by auto.
  destruct (N.ltb_spec q 10) as [Hq|Hq]; cbn [andb].
  - assert (r = 0 \/ r = 1 \/ r = 2) as [->|[->| ->]] by lia; simpl N.eqb; cbv iota;
      rewrite ?decode3x_bits, ?decode3y_bits, ?decode3z_bits; (destruct (N.ltb_spec q 10); [reflexivity|lia]).
  - symmetry. apply (bits_below c 30); [auto|lia].
Qed.
Lemma encode_decode2 c : c < 2 ^ 32 -> encode2 (decode2x c) (decode2y c) = c.
Proof.
  intros Hc. apply N.bits_inj. intros k. destruct (decompose 2 k) as (q & r & Hr & ->); [lia|]. rewrite encode2_bits by auto.
  destruct (N.ltb_spec q 16) as [Hq|Hq]; cbn [andb].
  - assert (r = 0 \/ r = 1) as [->| ->] by lia; simpl N.eqb; cbv iota;
      rewrite ?decode2x_bits, ?decode2y_bits; (destruct (N.ltb_spec q 16); [reflexivity|lia]).
  - symmetry. apply (bits_below c 32); [auto|lia].
Qed.

Lemma wadd_small a b : a + b <= mask32 -> wadd a b = a + b.
Proof.
  intros H. unfold wadd. change mask32 with (N.ones 32) in *. rewrite N.land_ones. apply N.mod_small. unfold N.ones in H. change (N.pred (N.shiftl 1 32)) with 4294967295 in H. lia.
Qed.
