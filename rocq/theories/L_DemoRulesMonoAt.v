(** Lemmas for the examples of rules that ask for other entities. *)
From Coq Require Import ZArith List Bool Lia.
From Verif Require Import S_Types.
From Verif Require Import M_Outcome M_Ints M_Value M_Types M_Qualifier M_Search M_Stat M_StatMap M_HashMap M_Pair M_Defaults M_Querier
  S_Search S_StatMap S_Pair S_Defaults S_Querier S_Totals S_EndToEnd S_Monotone S_MonoQuery S_Rules S_RulesMono S_RulesMonoAt S_Demo S_DemoDefaults S_DemoQuery S_DemoGame S_DemoRules S_DemoRulesMono S_DemoRulesMonoAt
  L_Querier2 L_DemoQuery2 L_DemoGame L_Rules L_DemoRules L_DemoRulesMono.
Import ListNotations.
Local Open Scope Z_scope.

Lemma kin_lawful b : solo_ok SI (kin_logs b) = true -> lawful_game solo_types bs_new (fun _ => 24) (fun _ => 8) (kin b) kin_laws.
Proof.
  intros Ho. split.
  - pose proof (solo_set_up SI (kin_logs b) ltac:(repeat constructor) Ho) as U. constructor.
    + exact Logic.I.
    + reflexivity.
    + constructor; [|constructor]. split; [repeat constructor|]. split; [apply plain_unrepeated; reflexivity|]. exact birth_made.
    + reflexivity.
    + reflexivity.
    + reflexivity.
    + exact (u_logs _ _ _ _ U).
  - split; [reflexivity|]. cbn [rules_in kin_laws flat_map app]. repeat constructor.
Qed.
Lemma kin_fair r : In (inr r) kin_laws -> fair_at hero_merits hero_le (fun _ => True) kin_rank r.
Proof.
  intros [E|[E|[]]]; [|discriminate]. injection E as <-. intros _. exists health, health, before, (fun r : Z => [@OAdd SI r]).
  split; [reflexivity|]. split; [exact Logic.I|]. split.
  - intros [|e] x p E; [discriminate|]. injection E as <-. unfold kin_rank. cbn. lia.
  - intros a b H. apply oi_both; [exact H|apply oi_none].
Qed.
Lemma kin_better : better_off hero_merits (fun _ => True) (kin 7) kin_laws (kin 9) kin_laws.
Proof.
  split; [intros s _; apply im_default|]. intros e.
  assert (B : forall s q, entry_improved (hero_merits s) (account birth_log s q) (account birth_log s q)).
  { intros s q. refine (same_better [(health, none, 100, 100)] _ _ _ none_better s q). constructor; [|constructor]. cbn. unfold z_ok. cbn. lia. }
  destruct e as [|[|[|e]]]; [..|exact Logic.I]; intros x s _; apply (ci_rule hero_merits), ci_both; try (intros q _; apply B); [|apply ci_none..].
  apply ci_both; [|apply ci_none]. intros q _. refine (same_better [(health, none, 7, 9)] _ _ _ none_better s q). repeat constructor; cbn; unfold z_ok; cbn; lia.
Qed.
