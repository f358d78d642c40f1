(** * C19: Resize after contributions *)
From Coq Require Import List ZArith Arith Bool Lia.
From Verif Require Import Algebra Outcome DofModel DofSpec AssemblerModel AssemblerSpec AssemblerProofs AssemblerProofs2 AssemblerProofs3 PropAssembler.
Import ListNotations.

(** Resize of a MatrixAssembler that is not finished keeps all contributions added so far: they are still to be assembled, whatever
    the new sizes are *)
Theorem C19_resize_keeps_contributions : forall (F : CRing) sizes ops s, ma_run (F := F) ma_empty ops = Ok s -> existsb is_finish ops = false ->
  exists s', ma_step s (MaResize sizes) = Ok s' /\ ma_trip s' = ma_trip s /\ ma_fin s' = false.
Proof.
  intros F sizes ops s E H.
  assert (G : forall ops s0 s, ma_run (F := F) s0 ops = Ok s -> existsb is_finish ops = false -> ma_fin s0 = false -> ma_fin s = false).
  { clear. induction ops as [|o ops IH]; intros s0 s E H H0; cbn [ma_run] in E; [congruence|]. cbn [existsb] in H. apply orb_false_iff in H. destruct H as (Ho & H).
    destruct (ma_step s0 o) as [s1| |] eqn:E1; try discriminate. cbn [obind] in E. apply (IH s1 s E H).
    destruct o; cbn [ma_step] in E1; rewrite ?H0 in E1.
    - injection E1 as <-. reflexivity.
    - destruct (matrix_rows _ _ _ _ _) as [t| |]; try discriminate. injection E1 as <-. reflexivity.
    - injection E1 as <-. reflexivity.
    - discriminate. }
  specialize (G ops ma_empty s E H eq_refl). cbn [ma_step]. rewrite G. eexists. split; [reflexivity|]. split; reflexivity.
Qed.
Print Assumptions C19_resize_keeps_contributions.
(** Finding: hence a MatrixAssembler that is resized to fewer dofs writes out of bounds in Finish, although nothing was added since the
    Resize; the VectorAssembler in the same situation holds zeros of the new size *)
Theorem C19_resize_smaller_refuted :
  exists (m : dofdense Z_cring) (v : dofvec Z_cring) numbering, ma_fits [(7%Z, 2)] (MaAdd m numbering []) /\
    ma_run ma_empty [MaResize [(7%Z, 2)]; MaAdd m numbering []; MaResize [(7%Z, 1)]; MaFinish] = UB /\
    va_run (F := Z_cring) [] [VaResize [(7%Z, 2)]; VaAdd v numbering []; VaResize [(7%Z, 1)]] = Ok [(7%Z, [0%Z])].
Proof.
  exists (match ex_add 1 with MaAdd m _ _ => m | _ => [] end), [(7%Z, [1; 1]%Z)], (match ex_add 1 with MaAdd _ n _ => n | _ => [] end).
  split; [exact (ex_add_fits 1)|]. split; vm_compute; reflexivity.
Qed.
Print Assumptions C19_resize_smaller_refuted.
Example C19_resize_case : exists s, ma_run (F := Z_cring) ma_empty [MaResize [(7%Z, 2)]; ex_add 1] = Ok s /\
  existsb is_finish [MaResize [(7%Z, 2)]; ex_add 1] = false /\ ma_trip s 7%Z 7%Z <> [].
Proof. eexists. split; [vm_compute; reflexivity|]. split; [reflexivity|]. vm_compute. discriminate. Qed.
