From Coq Require Import ZArith Bool List Lia.
From Verif Require Import M_Qualifier S_Qualifier L_Qualifier.
Import ListNotations.
Local Open Scope Z_scope.

Lemma C01_aggregate_matches_exactly_int_proof :
  forall any all s : Z,
  @qualifies_as intQ (@Qual intQ any all) (@Aggregate intQ s) = true <->
  (forall i : nat, Z.testbit all (Z.of_nat i) = true -> Z.testbit s (Z.of_nat i) = true) /\
  ((forall i : nat, Z.testbit any (Z.of_nat i) <> true) \/
   exists i : nat, Z.testbit any (Z.of_nat i) = true /\ Z.testbit s (Z.of_nat i) = true).
Proof. exact (fun any all s => aggregate_iff intQ nat zmem intQ_lawful (@Qual intQ any all) s). Qed.

Lemma C02_set_equals_not_used_refuted_proof :
  ~ (forall (Q : QFlag) (x : qualifier Q) (a b : qcar Q),
      q_set_equals Q (all_of x) b = true -> q_contains Q (any_of x) a = true ->
      qualifies_as x (Exact a b) = true).
Proof.
  exact (fun H => match Bool.diff_false_true
    (H listQ (@Qual listQ [] [1%nat; 2%nat]) [] [2%nat; 1%nat] eq_refl eq_refl) with end).
Qed.
