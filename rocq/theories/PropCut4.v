(** * C114: Gmsh files that end inside of the section of the physical names *)
From Coq Require Import String Ascii List ZArith Arith Reals Lra Lia.
From Verif Require Import Outcome AdaptiveModel AdaptiveProofs GmshModel GmshSpec GmshProofs GmshProofs2 PropCut2 PropCut3.
Import ListNotations.
Local Open Scope nat_scope.

Definition name_line (n : gname) : list token := [TInt (gp_dim n); TInt (gp_id n); TWord (quote (gp_name n)); TEol].

(** the names are not complete: an exception, or all of them are read and nothing is left *)
Lemma names_cut : forall names k, names_ok names ->
  read_n read_name (length names) (firstn k (flat_map name_line names)) = Throw \/
  read_n read_name (length names) (firstn k (flat_map name_line names)) = Ok (names, []).
Proof.
  induction names as [|n names IH]; intros k Hn; cbn [length read_n flat_map].
  - right. rewrite firstn_nil. reflexivity.
  - assert (Q : remove_quotes (quote (gp_name n)) = gp_name n) by (apply remove_quotes_quote; apply Hn; left; reflexivity).
    do 3 (destruct k as [|k]; [left; reflexivity|]).
    assert (Rn : forall r, read_name (TInt (gp_dim n) :: TInt (gp_id n) :: TWord (quote (gp_name n)) :: r) = Ok (n, snd (getline r))).
    { intros r. unfold read_name. cbn [read_int obind read_word]. rewrite Q. destruct n; reflexivity. }
    unfold name_line at 1 3. cbn [app firstn]. rewrite Rn. cbn [obind]. destruct k as [|k].
    + cbn [firstn getline snd]. destruct (IH 0 ltac:(intros m H; apply Hn; right; exact H)) as [H|H]; cbn [firstn] in H; rewrite H; [left|right]; reflexivity.
    + cbn [firstn getline snd]. destruct (IH k ltac:(intros m H; apply Hn; right; exact H)) as [H|H]; rewrite H; [left|right]; reflexivity.
Qed.

Lemma section_names fuel b rest k c : 0 < k ->
  process (S fuel) b (firstn k (TWord "$PhysicalNames" :: TEol :: rest)) c =
  obind (read_names (firstn (k - 2) rest)) (fun '(names, s) => process fuel b s (mkContent (cdim c) (cnodes c) (celems c) names)).
Proof.
  intros Hk. destruct (section_start "$PhysicalNames" rest k Hk) as (G & N). destruct (firstn k (TWord "$PhysicalNames" :: TEol :: rest)) as [|x y]; [congruence|].
  cbn [process]. rewrite G. cbv iota. change (prefix "$PhysicalNames" "$PhysicalNames") with true. reflexivity.
Qed.

(** A file, ASCII or binary, that ends inside of the section of the physical names is rejected with an exception; so no group can
    lose its name. *)
Theorem C114_gmsh_names_partial b names k : (forall n, In n names -> no_quotes (gp_name n)) -> 0 < k < length (names_text names) - 1 ->
  read_gmsh (header_text b ++ firstn k (names_text names)) = Throw.
Proof.
  intros Hn Hk. unfold read_gmsh, read_content. rewrite read_header_spec. cbn [obind].
  replace (length (header_text b ++ firstn k (names_text names))) with (S (length (tl (header_text b)) + length (firstn k (names_text names))))
    by (rewrite app_length; destruct b; reflexivity).
  change (names_text names) with (TWord "$PhysicalNames" :: TEol :: TInt (count names) :: TEol :: flat_map name_line names ++ [TWord "$EndPhysicalNames"; TEol]) in *.
  cbn [length] in Hk. rewrite app_length in Hk. cbn [length] in Hk.
  rewrite section_names by lia.
  assert (Z0 : Z.ltb (count names) 0 = false) by (apply Z.ltb_ge; unfold count; lia).
  assert (F : forall j, j <= length (flat_map name_line names) ->
    obind (read_vector read_name (count names) (firstn j (flat_map name_line names ++ [TWord "$EndPhysicalNames"; TEol])))
      (fun '(names, s) => obind (expect "$EndPhysicalNames" s) (fun s => Ok (names, s))) = Throw).
  { intros j Hj. unfold read_vector. rewrite Z0. unfold count. rewrite Nat2Z.id. rewrite firstn_app. replace (j - length (flat_map name_line names)) with 0 by lia.
    cbn [firstn]. rewrite app_nil_r. destruct (names_cut names j Hn) as [-> | ->]; reflexivity. }
  destruct (k - 2) as [|[|j]] eqn:Ek.
  - reflexivity.
  - cbn [firstn]. unfold read_names. cbn [getline stoi obind]. pose proof (F 0 ltac:(lia)) as F0. cbn [firstn] in F0. rewrite F0. reflexivity.
  - cbn [firstn]. unfold read_names. cbn [getline stoi obind]. rewrite (F j) by lia. reflexivity.
Qed.
Print Assumptions C114_gmsh_names_partial.

(** a file that ends after the first of two names *)
Example C114_gmsh_names_case : exists names k, length names = 2 /\ (forall n, In n names -> no_quotes (gp_name n)) /\ 4 < k < length (names_text names) - 1.
Proof.
  exists [mkGname 2 1 "domain"; mkGname 1 2 "left"], 9. split; [reflexivity|]. split; [|cbn; lia].
  intros n [<-|[<-|[]]]; cbn; repeat split; discriminate.
Qed.
