(** The flag types the crate is used with have lawful orders; the order of keys is lexicographic (C04, C41). *)
From Coq Require Import ZArith Bool List Lia.
From Verif Require Import M_Outcome M_Value M_Qualifier M_Stat M_StatMap S_Qualifier S_StatMap S_Querier L_Qualifier L_StatMap.
Import ListNotations.
Local Open Scope Z_scope.

Lemma bool_compare_z a b : bool_compare a b = (Z.b2z a ?= Z.b2z b).
Proof. destruct a, b; reflexivity. Qed.
Lemma z_ord : lawful_ord Z.compare.
Proof. split; [apply Z.compare_eq_iff|apply Z.compare_antisym|intros a b c; rewrite !Z.compare_lt_iff; lia]. Qed.

Lemma C04_int_flags_proof : lawful_ord (q_cmp intQ) /\ flags_eq (Q := intQ) /\
  forall a b : Z, q_cmp intQ a b = Lt <-> a < b.
Proof. split; [exact z_ord|]. split; [exact Z.eqb_eq|exact Z.compare_lt_iff]. Qed.
Lemma C04_bool_flags_proof : lawful_ord (q_cmp boolQ) /\ flags_eq (Q := boolQ) /\
  forall a b : bool, q_cmp boolQ a b = Lt <-> a = false /\ b = true.
Proof.
  split; [|split; [exact eqb_true_iff|]].
  - split; intros a b; try intros c; destruct a, b; try destruct c; cbn; split || idtac; congruence.
  - intros [|] [|]; cbn; split; try discriminate; try (intros [? ?]; discriminate); auto.
Qed.

Lemma C41_lexicographic_proof : forall (P : Prog) (a b : inst P),
  inst_cmp a b = Lt <->
  vt_addr P (si_ty a) < vt_addr P (si_ty b) \/
  vt_addr P (si_ty a) = vt_addr P (si_ty b) /\ si_index a < si_index b.
Proof.
  intros P a b. unfold inst_cmp. destruct (Z.compare_spec (vt_addr P (si_ty a)) (vt_addr P (si_ty b))) as [E|E|E].
  - rewrite Z.compare_lt_iff. lia.
  - split; [auto|reflexivity].
  - split; [discriminate|lia].
Qed.

Lemma C04_key_order_proof : forall (P : Prog) (Q : QFlag), distinct_vtables P -> lawful_ord (q_cmp Q) ->
  forall (s s' : inst P) (q q' : qualifier Q),
  key_cmp s q s' q' = Lt <->
  inst_cmp s s' = Lt \/
  s = s' /\ (q_cmp Q (any_of q) (any_of q') = Lt \/
             any_of q = any_of q' /\ q_cmp Q (all_of q) (all_of q') = Lt).
Proof.
  intros P Q D OQ s s' q q'. unfold key_cmp.
  pose proof (lo_eq _ (inst_ord P D) s s') as E1.
  destruct (inst_cmp s s') eqn:C.
  - assert (s = s') by (apply E1; reflexivity). unfold qual_cmp.
    pose proof (lo_eq _ OQ (any_of q) (any_of q')) as E2.
    destruct (q_cmp Q (any_of q) (any_of q')) eqn:C2.
    + assert (any_of q = any_of q') by (apply E2; reflexivity).
      split; [auto|]. intros [H1|[_ [H1|[_ H1]]]]; try discriminate; exact H1.
    + split; auto.
    + split; [discriminate|]. intros [H1|[_ [H1|[H1 _]]]]; try discriminate. apply E2 in H1. discriminate.
  - split; auto.
  - split; [discriminate|]. intros [H1|[H1 _]]; try discriminate. apply E1 in H1. discriminate.
Qed.
