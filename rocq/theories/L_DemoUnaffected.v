(** Lemmas for the examples of rules about other stats. *)
From Coq Require Import ZArith List Bool Lia.
From Verif Require Import S_Types.
From Verif Require Import M_Outcome M_Ints M_Value M_Types M_Qualifier M_Search M_Stat M_StatMap M_HashMap M_Pair M_Defaults M_Querier
  S_Search S_StatMap S_Pair S_Defaults S_Querier S_Totals S_EndToEnd S_Rules S_Unaffected S_Demo S_DemoDefaults S_DemoQuery S_DemoGame S_DemoRules S_DemoRulesMono S_DemoUnaffected
  L_StatMap L_Demo L_DemoGame L_Rules L_DemoRules L_DemoRulesMono.
Import ListNotations.
Local Open Scope Z_scope.

Lemma alike_same {P : Prog} {Q : QFlag} x s (c : list (cause P Q)) : alike_for x s c c.
Proof. induction c as [|[m|r] c IH]; constructor; auto. Qed.
Lemma stuck_lawful : lawful_game solo_types bs_new (fun _ => 24) (fun _ => 8) (party hero_logs) stuck_laws.
Proof.
  split; [apply party_set_up; [repeat constructor|vm_compute; reflexivity]|]. split; [reflexivity|]. cbn [rules_in stuck_laws hero_laws flat_map app]. repeat constructor.
Qed.
Lemma stuck_unaffected : unaffected not_health (party hero_logs) hero_laws (party hero_logs) stuck_laws.
Proof.
  intros e x s Hs. split; [reflexivity|]. destruct (w_entities (j_world (g_querier (party hero_logs))) e) as [ch|]; [|exact Logic.I].
  apply af_rule_right; [intros E; rewrite <- E in Hs; apply Hs; reflexivity|]. apply alike_same.
Qed.
Lemma stuck_contained r : In (inr r) hero_laws \/ In (inr r) stuck_laws -> self_contained not_health r.
Proof.
  intros H. assert (K : r = tough \/ r = trained \/ r = vain).
  { destruct H as [[E|[E|[E|[]]]]|[E|[E|[E|[E|[]]]]]]; try discriminate; injection E as <-; auto. }
  destruct K as [->|[->| ->]]; intros e x N; [contradiction N; reflexivity| |contradiction N; reflexivity].
  cbn [trained follows r_code]. apply only_then; [apply only_eval; unfold looked_at, not_health; cbn; congruence|intros o; exact Logic.I].
Qed.
Lemma hot_lawful : lawful_game solo_types bs_new (fun _ => 24) (fun _ => 8) (party hot_logs) hero_laws.
Proof.
  split; [apply party_set_up; [repeat constructor|vm_compute; reflexivity]|]. split; [reflexivity|]. cbn [rules_in hero_laws flat_map app]. repeat constructor.
Qed.
Lemma not_burning (q : qualifier intQ) : qualifies_as q (@Aggregate intQ 0) = true -> qual_cmp fire q <> Eq.
Proof.
  intros H E. apply (lo_eq _ (qual_ord intQ intQ_ord)) in E. subst q. discriminate H.
Qed.
Lemma hot_unaffected : unaffected plainly (party hero_logs) hero_laws (party hot_logs) hero_laws.
Proof.
  intros e x s ->. split; [reflexivity|]. destruct e as [|e]; [|exact Logic.I].
  apply af_rule, af_map; [reflexivity|]. apply af_rule, af_map; [|apply alike_same].
  intros q Eq. unfold account. cbn [fold_left]. cbn [gets edited]. unfold set_entry at 1 5.
  destruct (stat_dec constitution s) as [E|]; [|reflexivity]. pose proof (not_burning q Eq) as N. destruct (qual_cmp fire q); [contradiction N; reflexivity|reflexivity..].
Qed.
Lemma hot_contained r : In (inr r) hero_laws \/ In (inr r) hero_laws -> self_contained plainly r.
Proof.
  intros H. assert (K : r = tough \/ r = trained) by (destruct H as [[E|[E|[E|[]]]]|[E|[E|[E|[]]]]]; try discriminate; injection E as <-; auto).
  destruct K as [->| ->]; intros e x ->; cbn [tough trained follows r_code]; (apply only_then; [apply only_eval; reflexivity|intros o; exact Logic.I]).
Qed.
