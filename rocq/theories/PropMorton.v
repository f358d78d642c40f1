(** * C31: Morton codes *)
From Coq Require Import NArith ZArith Bool Lia.
From Verif Require Import Outcome MortonModel MortonSpec MortonProofs.
Local Open Scope N_scope.

(** the code interleaves the bits, for all 32 bit words *)
Theorem C31_interleave3 x y z : interleaves3 (encode3 x y z) x y z.
Proof.
  split; [apply encode3_below|]. intros q Hq. rewrite <- (N.add_0_r (3 * q)) at 1. rewrite !encode3_bits by lia.
  destruct (N.ltb_spec q 10); [repeat split|lia].
Qed.
Print Assumptions C31_interleave3.

Theorem C31_interleave2 x y : interleaves2 (encode2 x y) x y.
Proof.
  split; [apply encode2_below|]. intros q Hq. rewrite <- (N.add_0_r (2 * q)) at 1. rewrite !encode2_bits by lia.
  destruct (N.ltb_spec q 16); [repeat split|lia].
Qed.
Print Assumptions C31_interleave2.

(** decoding is the inverse of encoding and vice versa *)
Theorem C31_decode_encode3 x y z : x < 2 ^ 10 -> y < 2 ^ 10 -> z < 2 ^ 10 ->
  decode3x (encode3 x y z) = x /\ decode3y (encode3 x y z) = y /\ decode3z (encode3 x y z) = z.
Proof. intros Hx Hy Hz. destruct (decode_encode3 x y z) as (-> & -> & ->). rewrite !N.mod_small by auto. auto. Qed.
Print Assumptions C31_decode_encode3.

Theorem C31_encode_decode3 code : code < 2 ^ 30 -> encode3 (decode3x code) (decode3y code) (decode3z code) = code.
Proof. exact (encode_decode3 code). Qed.
Print Assumptions C31_encode_decode3.

Theorem C31_decode_encode2 x y : x < 2 ^ 16 -> y < 2 ^ 16 -> decode2x (encode2 x y) = x /\ decode2y (encode2 x y) = y.
Proof. intros Hx Hy. destruct (decode_encode2 x y) as (-> & ->). rewrite !N.mod_small by auto. auto. Qed.
Print Assumptions C31_decode_encode2.

Theorem C31_encode_decode2 code : code < 2 ^ 32 -> encode2 (decode2x code) (decode2y code) = code.
Proof. exact (encode_decode2 code). Qed.
Print Assumptions C31_encode_decode2.

(** different cells have different codes *)
Theorem C31_injective3 x y z x' y' z' : x < 2 ^ 10 -> y < 2 ^ 10 -> z < 2 ^ 10 -> x' < 2 ^ 10 -> y' < 2 ^ 10 -> z' < 2 ^ 10 ->
  encode3 x y z = encode3 x' y' z' -> x = x' /\ y = y' /\ z = z'.
Proof.
  intros Hx Hy Hz Hx' Hy' Hz' E. destruct (C31_decode_encode3 x y z Hx Hy Hz) as (A & B & C).
  destruct (C31_decode_encode3 x' y' z' Hx' Hy' Hz') as (A' & B' & C'). rewrite E in *. split; [congruence|]. split; congruence.
Qed.
Print Assumptions C31_injective3.

(** neighbours inside the range: exactly the requested shift *)
Theorem C31_neighbor_partial x y z dx dy dz : x + dx < 2 ^ 10 -> y + dy < 2 ^ 10 -> z + dz < 2 ^ 10 ->
  neighbor3 (encode3 x y z) dx dy dz = encode3 (x + dx) (y + dy) (z + dz).
Proof.
  intros Hx Hy Hz. unfold neighbor3. destruct (C31_decode_encode3 x y z) as (-> & -> & ->); try lia.
  assert (M : 2 ^ 10 <= mask32) by (vm_compute; discriminate). rewrite !wadd_small by lia. reflexivity.
Qed.
Print Assumptions C31_neighbor_partial.

Theorem C31_neg_neighbor_partial x y z dx dy dz : x < 2 ^ 10 -> y < 2 ^ 10 -> z < 2 ^ 10 ->
  (-1024 < dx < 1024 -> -1024 < dy < 1024 -> -1024 < dz < 1024 ->
   (0 <= Z.of_N x + dx < 1024 /\ 0 <= Z.of_N y + dy < 1024 /\ 0 <= Z.of_N z + dz < 1024 ->
      neg_neighbor3 (encode3 x y z) dx dy dz = Ok (encode3 (Z.to_N (Z.of_N x + dx)) (Z.to_N (Z.of_N y + dy)) (Z.to_N (Z.of_N z + dz)))) /\
   (Z.of_N x + dx < 0 \/ Z.of_N y + dy < 0 \/ Z.of_N z + dz < 0 ->
      neg_neighbor3 (encode3 x y z) dx dy dz = Ok (2 ^ 32 - 1)%N /\ forall x' y' z', encode3 x' y' z' <> (2 ^ 32 - 1)%N))%Z.
Proof.
  intros Hx Hy Hz Hdx Hdy Hdz. unfold neg_neighbor3. destruct (C31_decode_encode3 x y z Hx Hy Hz) as (-> & -> & ->).
  assert (A : forall a d, (0 <= a < 1024 -> -1024 < d < 1024 -> iadd a d = Ok (a + d))%Z).
  { intros a d Ha Hd. unfold iadd. change (- 2 ^ 31)%Z with (-2147483648)%Z. change (2 ^ 31)%Z with 2147483648%Z. destruct (Z.ltb_spec (a + d) (-2147483648)); [lia|]. destruct (Z.leb_spec 2147483648 (a + d)); [lia|]. reflexivity. }
  change (2 ^ 10) with 1024 in *. rewrite (A (Z.of_N x)), (A (Z.of_N y)), (A (Z.of_N z)) by lia. cbn [obind]. split.
  - intros (H1 & H2 & H3). destruct (Z.ltb_spec (Z.of_N x + dx) 0); [lia|]. destruct (Z.ltb_spec (Z.of_N y + dy) 0); [lia|].
    destruct (Z.ltb_spec (Z.of_N z + dz) 0); [lia|]. reflexivity.
  - intros H. split.
    + destruct (Z.ltb_spec (Z.of_N x + dx) 0); [reflexivity|]. destruct (Z.ltb_spec (Z.of_N y + dy) 0); [reflexivity|].
      destruct (Z.ltb_spec (Z.of_N z + dz) 0); [reflexivity|]. lia.
    + intros x' y' z' E. pose proof (encode3_below x' y' z') as Hb. rewrite E in Hb. vm_compute in Hb. discriminate.
Qed.
Print Assumptions C31_neg_neighbor_partial.

(** FINDING: at the upper limit the coordinate wraps around: the neighbour of cell (1023,y,z) in positive x
    is reported to be the existing cell (0,y,z) on the opposite side, by both functions *)
Theorem C31_wrap_refuted : forall y z, y < 2 ^ 10 -> z < 2 ^ 10 ->
  neighbor3 (encode3 1023 y z) 1 0 0 = encode3 0 y z /\ neg_neighbor3 (encode3 1023 y z) 1 0 0 = Ok (encode3 0 y z).
Proof.
  intros y z Hy Hz. destruct (C31_decode_encode3 1023 y z) as (A & B & C); auto; [reflexivity|].
  assert (E : encode3 1024 y z = encode3 0 y z).
  { apply N.bits_inj. intros k. destruct (decompose 3 k) as (q & r & Hr & ->); [lia|]. rewrite !encode3_bits by auto.
    destruct (N.ltb_spec q 10); cbn [andb]; [|reflexivity]. destruct (r =? 0); [|reflexivity].
    rewrite N.bits_0. change 1024 with (2 ^ 10). apply N.pow2_bits_false. lia. }
  change (2 ^ 10) with 1024 in *. split.
  - unfold neighbor3. rewrite A, B, C. unfold wadd at 2 3. rewrite !N.add_0_r.
    change mask32 with (N.ones 32). rewrite !N.land_ones, !N.mod_small by (change (2 ^ 32) with 4294967296; lia).
    change (wadd 1023 1) with 1024. exact E.
  - unfold neg_neighbor3. rewrite A, B, C. change (iadd (Z.of_N 1023) 1) with (@Ok Z 1024%Z). cbn [obind].
    assert (I : forall a, a < 1024 -> iadd (Z.of_N a) 0 = Ok (Z.of_N a)).
    { intros a Ha. unfold iadd. rewrite Z.add_0_r. change (- 2 ^ 31)%Z with (-2147483648)%Z. change (2 ^ 31)%Z with 2147483648%Z.
      destruct (Z.ltb_spec (Z.of_N a) (-2147483648)); [lia|]. destruct (Z.leb_spec 2147483648 (Z.of_N a)); [lia|]. reflexivity. }
    rewrite !I by auto. cbn [obind]. change (Z.ltb 1024%Z 0%Z) with false. destruct (Z.ltb_spec (Z.of_N y) 0); [lia|].
    destruct (Z.ltb_spec (Z.of_N z) 0); [lia|]. rewrite !N2Z.id. change (Z.to_N 1024%Z) with 1024. rewrite E. reflexivity.
Qed.
Print Assumptions C31_wrap_refuted.

(** x = 5 = 101b, y = 3 = 011b, z = 1 = 001b give 001 010 111b = 87 *)
Example C31_example : encode3 5 3 1 = 87 /\ encode3 (5 + 1) 3 1 = 94 /\ neighbor3 87 1 0 0 = 94 /\ encode2 5 3 = 27.
Proof. vm_compute. auto. Qed.
