(** C01-C03: qualifier matching. *)
From Coq Require Import ZArith Bool List Lia.
From Verif Require Import M_Qualifier S_Qualifier L_Qualifier L_QualifierProofs.
Import ListNotations.
Local Open Scope Z_scope.

(** ** C01 *)
Theorem C01_aggregate_matches_exactly :
  forall (Q : QFlag) (F : Type) (mem : qcar Q -> F -> Prop), lawful Q F mem ->
  forall (x : qualifier Q) (s : qcar Q),
  qualifies_as x (Aggregate s) = true <->
  applies_aggregate (mem (any_of x)) (mem (all_of x)) (mem s).
Proof. exact aggregate_iff. Qed.
Print Assumptions C01_aggregate_matches_exactly.

(** The same for integer flags with nothing assumed: [all_of], [any_of] and the query are bit sets. *)
Theorem C01_aggregate_matches_exactly_int :
  forall any all s : Z,
  @qualifies_as intQ (@Qual intQ any all) (@Aggregate intQ s) = true <->
  (forall i : nat, Z.testbit all (Z.of_nat i) = true -> Z.testbit s (Z.of_nat i) = true) /\
  ((forall i : nat, Z.testbit any (Z.of_nat i) <> true) \/
   exists i : nat, Z.testbit any (Z.of_nat i) = true /\ Z.testbit s (Z.of_nat i) = true).
Proof. exact C01_aggregate_matches_exactly_int_proof. Qed.
Print Assumptions C01_aggregate_matches_exactly_int.

(** The blanket implementation is lawful for every type with union, intersection and extensional
    equality, in particular all integer types and bool. *)
Theorem C01_blanket_lawful :
  forall (A F : Type) bitor bitand dflt eqb cmp (mem : A -> F -> Prop),
  (forall a b f, mem (bitor a b) f <-> mem a f \/ mem b f) ->
  (forall a b f, mem (bitand a b) f <-> mem a f /\ mem b f) ->
  (forall f, ~ mem dflt f) ->
  (forall a b, eqb a b = true <-> same (mem a) (mem b)) ->
  (forall a, eqb a dflt = false -> exists f, mem a f) ->
  lawful (blanketQ A bitor bitand dflt eqb cmp) F mem.
Proof. exact blanket_lawful. Qed.
Print Assumptions C01_blanket_lawful.

Theorem C01_int_lawful : lawful intQ nat zmem.
Proof. exact intQ_lawful. Qed.
Print Assumptions C01_int_lawful.

Theorem C01_bool_lawful : lawful boolQ unit (fun b _ => b = true).
Proof. exact boolQ_lawful. Qed.
Print Assumptions C01_bool_lawful.

(** src/lib.rs:43-50: Frost=1, Piercing=2, Magic=4, Sword=8, Fire=16, query Frost|Piercing|Magic. *)
Example C01_documented_cases :
  let query := @Aggregate intQ 7 in
  map (fun x => @qualifies_as intQ x query)
    [qual_none intQ; qual_all_of intQ 1; qual_all_of intQ 5; qual_all_of intQ 7;
     qual_any_of intQ 17; qual_all_of intQ 9; and_all_of (qual_any_of intQ 17) 8]
  = [true; true; true; true; true; false; false].
Proof. reflexivity. Qed.

(** ** C02 *)
Theorem C02_exact_matches_exactly :
  forall (Q : QFlag) (F : Type) (mem : qcar Q -> F -> Prop), lawful Q F mem ->
  forall (x : qualifier Q) (a b : qcar Q),
  qualifies_as x (Exact a b) = true <->
  applies_exact (mem (any_of x)) (mem (all_of x)) (mem a) (mem b).
Proof. exact exact_iff. Qed.
Print Assumptions C02_exact_matches_exactly.

Theorem C02_exact_denies_general :
  forall (Q : QFlag) (F : Type) (mem : qcar Q -> F -> Prop), lawful Q F mem ->
  forall a b : qcar Q,
  ~ empty (mem b) -> qualifies_as (qual_none Q) (Exact a b) = false.
Proof. exact exact_denies_general. Qed.
Print Assumptions C02_exact_denies_general.

Theorem C02_no_double_count :
  forall (Q : QFlag) (F : Type) (mem : qcar Q -> F -> Prop), lawful Q F mem ->
  forall (x : qualifier Q) (a b s : qcar Q),
  qualifies_as x (Exact a b) = true -> qualifies_as x (Aggregate s) = true ->
  subset (mem b) (mem s).
Proof. exact no_double_count. Qed.
Print Assumptions C02_no_double_count.

(** Magic = 4, Physical = 32: the exact query takes Magic but neither the unqualified nor the
    Magic|Fire modifier, and its matches are disjoint from those of Aggregate(Physical). *)
Example C02_recipe :
  map (fun x => (@qualifies_as intQ x (@Exact intQ 0 4), @qualifies_as intQ x (@Aggregate intQ 32)))
    [qual_all_of intQ 4; qual_none intQ; qual_all_of intQ 20; qual_all_of intQ 32]
  = [(true, false); (false, true); (false, false); (false, true)].
Proof. reflexivity. Qed.

(** For a flag type where [==] is finer than [set_equals] the second half of the [Exact] arm, which
    uses [==], misses a modifier with the same set of flags: the [lawful] premise is needed. *)
Theorem C02_set_equals_not_used_refuted :
  ~ (forall (Q : QFlag) (x : qualifier Q) (a b : qcar Q),
      q_set_equals Q (all_of x) b = true -> q_contains Q (any_of x) a = true ->
      qualifies_as x (Exact a b) = true).
Proof. exact C02_set_equals_not_used_refuted_proof. Qed.
Print Assumptions C02_set_equals_not_used_refuted.

(** ** C03 *)
Theorem C03_aggregate_monotone :
  forall (Q : QFlag) (F : Type) (mem : qcar Q -> F -> Prop), lawful Q F mem ->
  forall (x : qualifier Q) (s t : qcar Q),
  subset (mem s) (mem t) ->
  qualifies_as x (Aggregate s) = true -> qualifies_as x (Aggregate t) = true.
Proof. exact aggregate_mono. Qed.
Print Assumptions C03_aggregate_monotone.

Theorem C03_none_matches_all :
  forall (Q : QFlag) (F : Type) (mem : qcar Q -> F -> Prop), lawful Q F mem ->
  forall s : qcar Q, qualifies_as (qual_none Q) (Aggregate s) = true.
Proof. exact none_qualifies. Qed.
Print Assumptions C03_none_matches_all.

Theorem C03_only_none_matches_none :
  forall (Q : QFlag) (F : Type) (mem : qcar Q -> F -> Prop), lawful Q F mem ->
  forall x : qualifier Q,
  qualifies_as x (Aggregate (q_none Q)) = true <-> qual_is_none x = true.
Proof. exact only_none_qualifies_none. Qed.
Print Assumptions C03_only_none_matches_none.

Theorem C03_and_all_of_narrows :
  forall (Q : QFlag) (F : Type) (mem : qcar Q -> F -> Prop), lawful Q F mem ->
  forall (x : qualifier Q) (g s : qcar Q),
  qualifies_as (and_all_of x g) (Aggregate s) = true <->
  qualifies_as x (Aggregate s) = true /\ subset (mem g) (mem s).
Proof. exact and_all_of_iff. Qed.
Print Assumptions C03_and_all_of_narrows.

Theorem C03_and_any_of_widens :
  forall (Q : QFlag) (F : Type) (mem : qcar Q -> F -> Prop), lawful Q F mem ->
  forall (x : qualifier Q) (g s : qcar Q),
  ~ empty (mem (any_of x)) ->
  qualifies_as x (Aggregate s) = true -> qualifies_as (and_any_of x g) (Aggregate s) = true.
Proof. exact and_any_of_widens. Qed.
Print Assumptions C03_and_any_of_widens.

Theorem C03_builder_order_all :
  forall (Q : QFlag) (F : Type) (mem : qcar Q -> F -> Prop), lawful Q F mem ->
  forall (x : qualifier Q) (g h : qcar Q) (q : qquery Q),
  qualifies_as (and_all_of (and_all_of x g) h) q = qualifies_as (and_all_of (and_all_of x h) g) q.
Proof. exact and_all_of_order. Qed.
Print Assumptions C03_builder_order_all.

Theorem C03_builder_order_any :
  forall (Q : QFlag) (F : Type) (mem : qcar Q -> F -> Prop), lawful Q F mem ->
  forall (x : qualifier Q) (g h : qcar Q) (q : qquery Q),
  qualifies_as (and_any_of (and_any_of x g) h) q = qualifies_as (and_any_of (and_any_of x h) g) q.
Proof. exact and_any_of_order. Qed.
Print Assumptions C03_builder_order_any.

Theorem C03_builder_order_mixed :
  forall (Q : QFlag) (x : qualifier Q) (g h : qcar Q),
  and_all_of (and_any_of x g) h = and_any_of (and_all_of x h) g.
Proof. exact builders_commute. Qed.
Print Assumptions C03_builder_order_mixed.

(** On an empty any_of, and_any_of does narrow: the premise of [C03_and_any_of_widens] is needed. *)
Example C03_any_of_on_empty_narrows :
  @qualifies_as intQ (qual_none intQ) (@Aggregate intQ 1) = true /\
  @qualifies_as intQ (and_any_of (qual_none intQ) 2) (@Aggregate intQ 1) = false /\
  @qualifies_as intQ (and_any_of (qual_any_of intQ 1) 2) (@Aggregate intQ 1) = true.
Proof. repeat split. Qed.
