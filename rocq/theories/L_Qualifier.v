From Coq Require Import ZArith Bool Lia.
From Verif Require Import M_Qualifier S_Qualifier.
Local Open Scope Z_scope.

(** The blanket implementation is lawful for every type whose [&], [|] are intersection and union
    and whose equality is extensional. *)
Lemma blanket_lawful (A F : Type) bitor bitand dflt eqb cmp (mem : A -> F -> Prop) :
  (forall a b f, mem (bitor a b) f <-> mem a f \/ mem b f) ->
  (forall a b f, mem (bitand a b) f <-> mem a f /\ mem b f) ->
  (forall f, ~ mem dflt f) ->
  (forall a b, eqb a b = true <-> same (mem a) (mem b)) ->
  (forall a, eqb a dflt = false -> exists f, mem a f) ->
  lawful (blanketQ A bitor bitand dflt eqb cmp) F mem.
Proof.
  intros Hor Hand Hdef Heq Hne. split; cbn.
  - exact Hor.
  - intros a b. rewrite Heq. unfold same, subset. split.
    + intros H f Hb. apply H in Hb. apply Hand in Hb. tauto.
    + intros H f. rewrite Hand. specialize (H f). tauto.
  - intros a b. rewrite negb_true_iff. split.
    + intros H. apply Hne in H. destruct H as [f Hf]. exists f. apply Hand. exact Hf.
    + intros [f Hf]. destruct (eqb (bitand a b) dflt) eqn:E; [|reflexivity].
      apply Heq in E. apply Hand in Hf. apply E in Hf. destruct (Hdef _ Hf).
  - reflexivity.
  - exact Heq.
  - exact Hdef.
  - intros a. rewrite Heq. unfold same, empty. split.
    + intros H f Hf. apply H in Hf. destruct (Hdef _ Hf).
    + intros H f. specialize (H f). specialize (Hdef f). tauto.
  - exact Heq.
Qed.


Lemma zmem_ext a b : same (zmem a) (zmem b) -> a = b.
Proof.
  intros H. apply Z.bits_inj'. intros n Hn. specialize (H (Z.to_nat n)).
  unfold zmem in H. rewrite !Z2Nat.id in H by lia.
  destruct (Z.testbit a n), (Z.testbit b n); intuition congruence.
Qed.

Lemma nonzero_has_bit a : a <> 0 -> exists i, zmem a i.
Proof.
  intros H. destruct (Z_lt_le_dec a 0) as [Hneg|Hpos].
  - exists (Z.to_nat (Z.log2 (Z.pred (- a)) + 1)). unfold zmem.
    rewrite Z2Nat.id by (pose proof (Z.log2_nonneg (Z.pred (- a))); lia).
    apply Z.bits_above_log2_neg; lia.
  - exists (Z.to_nat (Z.log2 a)). unfold zmem.
    rewrite Z2Nat.id by apply Z.log2_nonneg.
    apply Z.bit_log2. lia.
Qed.

Lemma intQ_lawful : lawful intQ nat zmem.
Proof.
  apply blanket_lawful.
  - intros a b f. unfold zmem. rewrite Z.lor_spec, orb_true_iff. tauto.
  - intros a b f. unfold zmem. rewrite Z.land_spec, andb_true_iff. tauto.
  - intros f. unfold zmem. rewrite Z.testbit_0_l. discriminate.
  - intros a b. rewrite Z.eqb_eq. split; [intros ->; unfold same; tauto | apply zmem_ext].
  - intros a H. apply Z.eqb_neq in H. apply nonzero_has_bit. exact H.
Qed.

Lemma boolQ_lawful : lawful boolQ unit (fun b _ => b = true).
Proof.
  apply blanket_lawful.
  - intros [] [] []; cbn; intuition congruence.
  - intros [] [] []; cbn; intuition congruence.
  - discriminate.
  - intros a b. rewrite eqb_true_iff. unfold same. split; [intros ->; tauto|].
    intros H. specialize (H tt). destruct a, b; intuition congruence.
  - intros [] H; [exists tt; reflexivity | discriminate].
Qed.

Section Lawful.
  Context (Q : QFlag) (F : Type) (mem : qcar Q -> F -> Prop) (L : lawful Q F mem).
  Implicit Types x y : qualifier Q.

  Lemma aggregate_iff x s :
    qualifies_as x (Aggregate s) = true <-> applies_aggregate (mem (any_of x)) (mem (all_of x)) (mem s).
  Proof.
    cbn. rewrite andb_true_iff, (law_none_or _ _ _ L), orb_true_iff,
      (law_contains _ _ _ L), (law_is_none _ _ _ L), (law_intersects _ _ _ L).
    reflexivity.
  Qed.

  Lemma exact_iff x a b :
    qualifies_as x (Exact a b) = true <->
    applies_exact (mem (any_of x)) (mem (all_of x)) (mem a) (mem b).
  Proof.
    cbn. rewrite andb_true_iff, (law_contains _ _ _ L), (law_eqb _ _ _ L).
    unfold applies_exact. tauto.
  Qed.

  Lemma exact_denies_general a b :
    ~ empty (mem b) -> qualifies_as (qual_none Q) (Exact a b) = false.
  Proof.
    intros Hb. apply not_true_is_false. rewrite exact_iff. intros [H _]. apply Hb.
    intros f Hf. apply H in Hf. exact (law_none _ _ _ L f Hf).
  Qed.

  Lemma no_double_count x a b s :
    qualifies_as x (Exact a b) = true -> qualifies_as x (Aggregate s) = true ->
    subset (mem b) (mem s).
  Proof.
    rewrite exact_iff, aggregate_iff. intros [H _] [H2 _] f Hf. apply H2, H, Hf.
  Qed.

  Lemma aggregate_mono x s t :
    subset (mem s) (mem t) ->
    qualifies_as x (Aggregate s) = true -> qualifies_as x (Aggregate t) = true.
  Proof.
    rewrite !aggregate_iff. intros Hst [H1 H2]. split.
    - intros f Hf. apply Hst, H1, Hf.
    - destruct H2 as [H2|[f [H2 H3]]]; [left; exact H2|right; exists f; auto].
  Qed.

  Lemma none_qualifies s : qualifies_as (qual_none Q) (Aggregate s) = true.
  Proof.
    apply aggregate_iff. cbn. split; [|left]; intros f Hf; destruct (law_none _ _ _ L f Hf).
  Qed.

  Lemma only_none_qualifies_none x :
    qualifies_as x (Aggregate (q_none Q)) = true <-> qual_is_none x = true.
  Proof.
    rewrite aggregate_iff. unfold qual_is_none. rewrite andb_true_iff, !(law_is_none _ _ _ L).
    unfold applies_aggregate, subset, empty, meets. split.
    - intros [H1 H2]. split.
      + destruct H2 as [H2|[f [_ Hf]]]; [exact H2|destruct (law_none _ _ _ L f Hf)].
      + intros f Hf. exact (law_none _ _ _ L f (H1 f Hf)).
    - intros [H1 H2]. split; [intros f Hf; destruct (H2 f Hf)|left; exact H1].
  Qed.

  Lemma and_all_of_iff x g s :
    qualifies_as (and_all_of x g) (Aggregate s) = true <->
    qualifies_as x (Aggregate s) = true /\ subset (mem g) (mem s).
  Proof.
    rewrite !aggregate_iff. unfold applies_aggregate, subset. cbn. split.
    - intros [H1 H2]. repeat split; try assumption; intros f Hf; apply H1, (law_or _ _ _ L); auto.
    - intros [[H1 H2] H3]. split; [|exact H2]. intros f Hf. apply (law_or _ _ _ L) in Hf.
      destruct Hf; auto.
  Qed.

  Lemma and_any_of_widens x g s :
    ~ empty (mem (any_of x)) ->
    qualifies_as x (Aggregate s) = true -> qualifies_as (and_any_of x g) (Aggregate s) = true.
  Proof.
    rewrite !aggregate_iff. intros Hne [H1 [H2|[f [H2 H3]]]]; [contradiction|].
    split; [exact H1|]. right. exists f. split; [|exact H3]. cbn. apply (law_or _ _ _ L). auto.
  Qed.

  Lemma builders_commute x g h :
    and_all_of (and_any_of x g) h = and_any_of (and_all_of x h) g.
  Proof. reflexivity. Qed.

  Lemma and_all_of_order x g h q :
    qualifies_as (and_all_of (and_all_of x g) h) q = qualifies_as (and_all_of (and_all_of x h) g) q.
  Proof.
    apply eq_iff_eq_true. destruct q as [s|a b].
    - rewrite !and_all_of_iff. tauto.
    - rewrite !exact_iff. unfold applies_exact, same. cbn.
      split; intros [H1 H2]; (split; [|exact H2]); intros f; rewrite <- H1;
        rewrite !(law_or _ _ _ L); tauto.
  Qed.

  Lemma and_any_of_order x g h q :
    qualifies_as (and_any_of (and_any_of x g) h) q = qualifies_as (and_any_of (and_any_of x h) g) q.
  Proof.
    apply eq_iff_eq_true. destruct q as [s|a b].
    - rewrite !aggregate_iff. unfold applies_aggregate, empty, meets. cbn.
      split; (intros [H1 [H2|[f [H2 H3]]]]; (split; [exact H1|]);
        [left; intros f Hf; apply (H2 f); revert Hf|right; exists f; split; [|exact H3]; revert H2]);
        rewrite !(law_or _ _ _ L); tauto.
    - rewrite !exact_iff. unfold applies_exact, subset. cbn.
      split; intros [H1 H2]; (split; [exact H1|]); intros f Hf; apply H2 in Hf; revert Hf;
        rewrite !(law_or _ _ _ L); tauto.
  Qed.
End Lawful.

