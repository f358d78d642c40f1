(** * C51: names of groups are found in any spelling of their letters *)
From Coq Require Import String Ascii List ZArith Arith Bool Lia.
From Verif Require Import Outcome GmshModel GmshSpec.
Import ListNotations.
Local Open Scope nat_scope.

(** the small letter with code 97 + i and the capital letter with code 65 + i are the same letter *)
Definition same_letter (a b : ascii) : Prop :=
  a = b \/ exists i, i < 26 /\ ((nat_of_ascii a = 97 + i /\ nat_of_ascii b = 65 + i) \/ (nat_of_ascii a = 65 + i /\ nat_of_ascii b = 97 + i)).
Fixpoint same_name (v w : string) : Prop :=
  match v, w with
  | EmptyString, EmptyString => True
  | String a v', String b w' => same_letter a b /\ same_name v' w'
  | _, _ => False
  end.

Lemma code_inj a b : nat_of_ascii a = nat_of_ascii b -> a = b.
Proof. intros H. rewrite <- (ascii_nat_embedding a), <- (ascii_nat_embedding b), H. reflexivity. Qed.
Lemma upper_code a : nat_of_ascii (upper_ascii a) = if andb (Nat.leb 97 (nat_of_ascii a)) (Nat.leb (nat_of_ascii a) 122) then nat_of_ascii a - 32 else nat_of_ascii a.
Proof.
  unfold upper_ascii. destruct (andb _ _) eqn:E; [|reflexivity]. apply nat_ascii_embedding.
  pose proof (nat_ascii_bounded a). lia.
Qed.
Lemma upper_letter a b : upper_ascii a = upper_ascii b <-> same_letter a b.
Proof.
  split.
  - intros H. apply (f_equal nat_of_ascii) in H. rewrite !upper_code in H.
    destruct (Nat.leb_spec 97 (nat_of_ascii a)), (Nat.leb_spec (nat_of_ascii a) 122), (Nat.leb_spec 97 (nat_of_ascii b)), (Nat.leb_spec (nat_of_ascii b) 122);
      cbn [andb] in H; try (left; apply code_inj; lia).
    all: right.
    all: first [exists (nat_of_ascii a - 97); split; [lia|]; left; lia|exists (nat_of_ascii b - 97); split; [lia|]; right; lia].
  - intros [-> |(i & Hi & [(Ha & Hb)|(Ha & Hb)])]; [reflexivity| |]; apply code_inj; rewrite !upper_code, Ha, Hb;
      repeat match goal with |- context [Nat.leb ?x ?y] => destruct (Nat.leb_spec x y); try lia end; cbn [andb]; lia.
Qed.
Lemma upper_name : forall v w, upper v = upper w <-> same_name v w.
Proof.
  induction v as [|a v IH]; intros [|b w]; cbn [upper same_name]; [tauto|split; [discriminate|tauto]|split; [discriminate|tauto]|].
  rewrite <- IH, <- upper_letter. split; [intros H; injection H; auto|intros (-> & ->); reflexivity].
Qed.

(** GetPhysicalGroup(name) of a mesh does not depend on the spelling *)
Theorem C51_name_spelling : forall m v w, same_name v w -> group_by_name m v = group_by_name m w.
Proof. intros m v w H. unfold group_by_name. apply upper_name in H. rewrite H. reflexivity. Qed.
Print Assumptions C51_name_spelling.

(** the group of the first element with a named tag is found under every spelling of that name, and under no other name *)
Theorem C51_name_of_group : forall names m elem id, gm_groups m id = None -> (forall v, gm_named m v = None) ->
  group_name names id <> EmptyString ->
  exists m' g, add_to_group names m elem id = Ok m' /\ gm_groups m' id = Some g /\
    (forall w, same_name (group_name names id) w -> group_by_name m' w = Ok g) /\
    (forall w, ~ same_name (group_name names id) w -> group_by_name m' w = Throw).
Proof.
  intros names m elem id Hg Hn Hne. unfold add_to_group. rewrite Hg.
  destruct (GroupModel.group_add GroupModel.group_empty elem) as [g|] eqn:E; [|discriminate E].
  eexists _, g. split; [reflexivity|]. cbn [gm_groups gm_named]. rewrite Z.eqb_refl. split; [reflexivity|].
  assert (U : String.eqb (upper (group_name names id)) EmptyString = false) by (destruct (group_name names id); [congruence|reflexivity]).
  rewrite U. unfold group_by_name. cbn [gm_named gm_groups]. split; intros w Hw.
  - rewrite Hn. apply upper_name in Hw. rewrite Hw, String.eqb_refl, Z.eqb_refl. reflexivity.
  - rewrite Hn. destruct (String.eqb_spec (upper w) (upper (group_name names id))) as [X|X]; [|reflexivity].
    exfalso. apply Hw, upper_name. symmetry. exact X.
Qed.
Print Assumptions C51_name_of_group.

Example C51_spelling_case : same_name "Plate" "PLATE" /\ same_name "plate" "pLaTe" /\ ~ same_name "Plate" "Plane" /\ ~ same_name "a" "a ".
Proof.
  assert (L : forall a b i, i < 26 -> nat_of_ascii a = 97 + i -> nat_of_ascii b = 65 + i -> same_letter a b).
  { intros a b i H1 H2 H3. right. exists i. auto. }
  split; [|split; [|split]].
  - apply upper_name. reflexivity.
  - apply upper_name. reflexivity.
  - intros H. apply upper_name in H. discriminate.
  - intros H. apply upper_name in H. discriminate.
Qed.
