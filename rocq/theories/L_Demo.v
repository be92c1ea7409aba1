From Coq Require Import ZArith List Bool.
From Verif Require Import M_Outcome M_Ints M_Value M_Types M_Qualifier M_Search M_Stat M_StatMap S_StatMap S_Demo L_StatMap.
Import ListNotations.
Local Open Scope Z_scope.

Lemma demo_distinct : distinct_vtables demo.
Proof. intros [] [] H; cbn in H; congruence. Qed.
Lemma intQ_ord : lawful_ord (q_cmp intQ).
Proof. exact Z_ord. Qed.
Lemma unsorted_ub : exists m : map_t demo intQ, m_query bs_new m (@Aggregate intQ 0) atk = UB.
Proof.
  exists [Entry alive none (@Buf demo VBool true); Entry atk none (@Buf demo VNum (num 1))].
  vm_compute. reflexivity.
Qed.
Lemma i_norm_not_ub oc T x : i_norm oc T x <> UB.
Proof. unfold i_norm, chk. destruct (i_flav T); try destruct (in_range _ _); try destruct oc; discriminate. Qed.
Lemma demo_sound : sound_prog (P := demo).
Proof.
  split.
  - intros [] a b; cbn [VT demo] in *; cbn [sv_join statInt boolV]; [|discriminate].
    unfold i_add, i_mul. pose proof (i_norm_not_ub true i32 (addend a + addend b)). destruct (i_norm true i32 (addend a + addend b)); cbn [obind]; try congruence.
    pose proof (i_norm_not_ub true i32 (mult a * mult b)). destruct (i_norm true i32 (mult a * mult b)); cbn [obind]; congruence.
  - intros [] a; cbn [VT demo] in *; cbn [sv_eval statInt boolV]; [|discriminate].
    unfold i_mul. pose proof (i_norm_not_ub true i32 (addend a * mult a)). destruct (i_norm true i32 (addend a * mult a)); cbn [obind]; congruence.
Qed.
Lemma demo_hypotheses :
  distinct_vtables demo /\ lawful_ord (q_cmp intQ) /\ sound_prog (P := demo) /\
  Forall total_mop [put_hp fire 3; put_alive none true; @MModify demo intQ none hp (@OMin (VT demo VNum) 0);
                    @MIterMut demo intQ alive (fun _ b => Done (negb b))].
Proof.
  split; [exact demo_distinct|]. split; [exact intQ_ord|]. split; [exact demo_sound|].
  constructor; [reflexivity|]. constructor; [reflexivity|].
  constructor; [split; [reflexivity|intros v; eexists; reflexivity]|].
  constructor; [intros q v; eexists; reflexivity|]. constructor.
Qed.
