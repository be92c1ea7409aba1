(** Lemmas for the examples of rules and more of something. *)
From Coq Require Import ZArith List Bool Lia.
From Verif Require Import S_Types.
From Verif Require Import M_Outcome M_Ints M_Value M_Types M_Qualifier M_Search M_Stat M_StatMap M_HashMap M_Pair M_Defaults M_Querier
  S_Search S_StatMap S_Pair S_Defaults S_Querier S_Totals S_EndToEnd S_Monotone S_MonoQuery S_Rules S_RulesMono S_Demo S_DemoDefaults S_DemoQuery S_DemoGame S_DemoRules S_DemoRulesMono
  L_Querier2 L_DemoQuery2 L_DemoGame L_Rules L_DemoRules.
Import ListNotations.
Local Open Scope Z_scope.

Lemma party_set_up logs : Forall (Forall honest) logs -> solo_ok SI logs = true -> set_up bs_new (fun _ => 24) (fun _ => 8) (party logs).
Proof.
  intros Hh Ho. pose proof (solo_set_up SI logs Hh Ho) as U. constructor.
  - exact Logic.I.
  - reflexivity.
  - constructor; [|constructor]. split; [repeat constructor|]. split; [apply plain_unrepeated; reflexivity|]. exact birth_made.
  - reflexivity.
  - reflexivity.
  - reflexivity.
  - exact (u_logs _ _ _ _ U).
Qed.
Lemma hero_party l : (l = hero_laws \/ l = frail_laws) -> lawful_game solo_types bs_new (fun _ => 24) (fun _ => 8) (party hero_logs) l.
Proof.
  intros Hl. split; [apply party_set_up; [repeat constructor|vm_compute; reflexivity]|]. destruct Hl as [->| ->]; (split; [reflexivity|]); cbn [rules_in hero_laws frail_laws flat_map app]; repeat constructor.
Qed.
Lemma veteran_party l : (l = hero_laws \/ l = frail_laws) -> lawful_game solo_types bs_new (fun _ => 24) (fun _ => 8) (party veteran_logs) l.
Proof.
  intros Hl. split; [apply party_set_up; [repeat constructor|vm_compute; reflexivity]|]. destruct Hl as [->| ->]; (split; [reflexivity|]); cbn [rules_in hero_laws frail_laws flat_map app]; repeat constructor.
Qed.
Lemma gets_better (L L' : S_EndToEnd.ledger (solo SI) intQ) s0 q0 b b' : z_ok (prim I32) b -> z_ok (prim I32) b' -> b <= b' ->
  (forall s q, entry_improved (hero_merits s) (L s q) (L' s q)) ->
  forall s q, entry_improved (hero_merits s) (edited L (gets s0 q0 b) s q) (edited L' (gets s0 q0 b') s q).
Proof.
  intros Hb Hb' Hl H s q. cbn [gets edited]. unfold set_entry. destruct (stat_dec s0 s) as [E|]; [|apply H]. destruct (qual_cmp q0 q); [|apply H..].
  subst s. cbn [eq_rect entry_improved]. apply im_base. split; [exact Hb|split; [exact Hb'|exact Hl]].
Qed.
Lemma same_better (l : list (inst (solo SI) * qualifier intQ * Z * Z)) (L L' : S_EndToEnd.ledger (solo SI) intQ) :
  Forall (fun i => z_ok (prim I32) (snd (fst i)) /\ z_ok (prim I32) (snd i) /\ snd (fst i) <= snd i) l ->
  (forall s q, entry_improved (hero_merits s) (L s q) (L' s q)) ->
  forall s q, entry_improved (hero_merits s)
    (fold_left edited (map (fun i => gets (fst (fst (fst i))) (snd (fst (fst i))) (snd (fst i))) l) L s q)
    (fold_left edited (map (fun i => gets (fst (fst (fst i))) (snd (fst (fst i))) (snd i)) l) L' s q).
Proof.
  revert L L'. induction l as [|i l IH]; intros L L' Hf H; [exact H|]. inversion Hf as [|x y (H1 & H2 & H3) Hf']; subst. cbn [map fold_left].
  apply IH; [exact Hf'|]. apply gets_better; assumption.
Qed.
Lemma none_better : forall (s : inst (solo SI)) (q : qualifier intQ), entry_improved (hero_merits s) None None.
Proof. intros s q. exact Logic.I. Qed.
Lemma veteran_better l : (l = hero_laws \/ l = frail_laws) -> better_off hero_merits (fun _ => True) (party hero_logs) l (party veteran_logs) l.
Proof.
  intros Hl. split.
  { intros s _. apply im_default. }
  intros [|e]; [|exact Logic.I]. intros x s _.
  assert (B : forall q, entry_improved (hero_merits s) (account birth_log s q) (account birth_log s q)).
  { intros q. refine (same_better [(health, none, 100, 100)] _ _ _ none_better s q). constructor; [|constructor]. cbn. unfold z_ok. cbn. lia. }
  assert (M : causes_improved hero_merits s x (map inl hero_logs) (map inl veteran_logs)).
  { apply ci_both.
    { intros q _. refine (same_better [(health, none, 7, 7); (constitution, none, 5, 6); (level_stat, none, 3, 4); (constitution, fire, 50, 50)] _ _ _ none_better s q).
      repeat constructor; cbn; unfold z_ok; cbn; lia. }
    apply ci_both; [|apply ci_none].
    intros q _. refine (same_better [(constitution, none, 2, 2)] _ _ _ none_better s q). repeat constructor; cbn; unfold z_ok; cbn; lia. }
  destruct Hl as [->| ->].
  - apply (ci_rule hero_merits), ci_both; [intros q _; apply B|]. apply (ci_rule hero_merits). exact M.
  - apply (ci_rule hero_merits), ci_both; [intros q _; apply B|]. exact M.
Qed.
Lemma hero_fair r : In (inr r) hero_laws -> fair hero_merits hero_le (fun _ => True) hero_rank r.
Proof.
  intros [E|[E|[E|[]]]]; try discriminate; injection E as <-; intros _.
  - exists health, constitution, same_asked, (fun r : Z => [@OAdd SI (10 * r)]). split; [reflexivity|]. split; [exact Logic.I|]. split; [cbn; lia|].
    intros a b H. apply oi_both; [|apply oi_none]. change (10 * (a : Z) <= 10 * (b : Z)). unfold hero_le in H. lia.
  - exists constitution, level_stat, same_asked, (fun r : Z => [@OAdd SI r]). split; [reflexivity|]. split; [exact Logic.I|]. split; [cbn; lia|].
    intros a b H. apply oi_both; [exact H|apply oi_none].
Qed.
Lemma C81_costs_refuted_proof :
  exists (g g' : game (solo SI) intQ) l, lawful_game solo_types bs_new (fun _ => 24) (fun _ => 8) g l /\ lawful_game solo_types bs_new (fun _ => 24) (fun _ => 8) g' l /\
  better_off hero_merits (fun _ => True) g l g' l /\
  fst (run (client (ruled solo_types bs_new g l) 3 (p_query_eval 0%nat (@Aggregate intQ 0) health)) []) = Done (Some (100 : outT SI)) /\
  fst (run (client (ruled solo_types bs_new g' l) 3 (p_query_eval 0%nat (@Aggregate intQ 0) health)) []) = Done (Some (99 : outT SI)).
Proof.
  exists (party hero_logs), (party veteran_logs), frail_laws. split; [apply hero_party; auto|]. split; [apply veteran_party; auto|]. split; [apply veteran_better; auto|].
  assert (H : party_eval hero_logs frail_laws health = Done (Some 100)) by (vm_compute; reflexivity).
  assert (H' : party_eval veteran_logs frail_laws health = Done (Some 99)) by (vm_compute; reflexivity).
  split; [exact H|exact H'].
Qed.
