(** Lemmas for the examples of rules in another order. *)
From Coq Require Import ZArith List Bool Permutation Lia.
From Verif Require Import S_Types.
From Verif Require Import M_Outcome M_Ints M_Value M_Types M_Qualifier M_Search M_Stat M_StatMap M_HashMap M_Pair M_Defaults M_Querier
  S_Search S_StatMap S_Pair S_Defaults S_Querier S_Totals S_EndToEnd S_Rules S_Reorder S_Demo S_DemoDefaults S_DemoQuery S_DemoGame S_DemoGame2 S_DemoMoved S_DemoRules S_DemoRulesMono S_DemoReorder
  L_DemoGame L_DemoMoved L_Rules L_DemoRules L_DemoRulesMono.
Import ListNotations.
Local Open Scope Z_scope.

Lemma laws_reordered {P : Prog} {Q : QFlag} (among : inst P -> Prop) (g : game P Q) l l' : Permutation l l' -> reordered among g l g l'.
Proof.
  intros H. split; [reflexivity|]. intros e. destruct (w_entities (j_world (g_querier g)) e); [|exact Logic.I]. unfold causes. apply Permutation_app_tail, Permutation_map, H.
Qed.
Lemma follows_plain {P : Prog} {Q : QFlag} (among : inst P -> Prop) (rank : inst P -> nat) to from at_ f : among from -> (rank from < rank to)%nat ->
  (forall r, Forall (fun o => match o with OBase _ => False | _ => True end) (f r)) -> plain_rule (P := P) (Q := Q) among rank (follows to from at_ f).
Proof.
  intros A L H _ e x. cbn [follows r_to r_code]. split.
  - apply only_then; [apply only_eval; eauto 7|intros o; exact Logic.I].
  - assert (G : forall A B (p : prog P Q A) (k : A -> prog P Q B) R, (forall a, returns R (k a)) -> returns R (pbind p k)).
    { clear. intros A B p k R H. induction p as [a|o|r c IH|c IH]; cbn [pbind returns]; auto. }
    apply G. intros [r|]; [apply H|constructor].
Qed.
Lemma hero_laws_turned : Permutation hero_laws hero_laws'.
Proof. eapply perm_trans; [apply perm_swap|]. eapply perm_trans; [apply perm_skip, perm_swap|]. eapply perm_trans; [apply perm_swap|]. apply Permutation_refl. Qed.
Lemma hero_plain r : In (inr r) hero_laws -> plain_rule (fun _ => True) hero_rank r.
Proof.
  intros [E|[E|[E|[]]]]; try discriminate; injection E as <-; apply follows_plain; try exact Logic.I; try (cbn; lia); intros r; repeat constructor.
Qed.
Lemma hero_turned : lawful_game solo_types bs_new (fun _ => 24) (fun _ => 8) (party hero_logs) hero_laws'.
Proof.
  split; [apply party_set_up; [repeat constructor|vm_compute; reflexivity]|]. split; [reflexivity|]. cbn [rules_in hero_laws' flat_map app]. repeat constructor.
Qed.
Lemma w_lawful (l : list (law (solo WI) intQ)) : (l = [inr w_times; inr w_plus] \/ l = [inr w_plus; inr w_times]) -> lawful_game w_types bs_new (fun _ => 24) (fun _ => 8) (solo_game WI (here WI 5 77 90)) l.
Proof.
  intros Hl. split; [apply here_set_up; vm_compute; reflexivity|]. destruct Hl as [->| ->]; (split; [reflexivity|]); cbn [rules_in flat_map app]; repeat constructor.
Qed.
Lemma w_plain r : r = w_times \/ r = w_plus -> plain_rule (fun _ => True) w_rank r.
Proof. intros [->| ->]; apply follows_plain; try exact Logic.I; try (cbn; lia); intros r; repeat constructor. Qed.

Lemma C82_base_refuted_proof :
  exists (g : game (solo SI) intQ) l l', lawful_game solo_types bs_new (fun _ => 24) (fun _ => 8) g l /\ lawful_game solo_types bs_new (fun _ => 24) (fun _ => 8) g l' /\
  Permutation l l' /\
  fst (run (client (ruled solo_types bs_new g l) 3 (p_query_eval 0%nat (@Aggregate intQ 0) health)) []) = Done (Some (110 : outT SI)) /\
  fst (run (client (ruled solo_types bs_new g l') 3 (p_query_eval 0%nat (@Aggregate intQ 0) health)) []) = Done (Some (10 : outT SI)).
Proof.
  exists (party hero_logs), [inr rebased; inl (birth_map, birth_log)], [inl (birth_map, birth_log); inr rebased].
  assert (U : set_up bs_new (fun _ => 24) (fun _ => 8) (party hero_logs)) by (apply party_set_up; [repeat constructor|vm_compute; reflexivity]).
  split; [split; [exact U|]; split; [reflexivity|]; cbn [rules_in flat_map app]; repeat constructor|].
  split; [split; [exact U|]; split; [reflexivity|]; cbn [rules_in flat_map app]; repeat constructor|].
  split; [apply perm_swap|].
  assert (H : party_eval hero_logs [inr rebased; inl (birth_map, birth_log)] health = Done (Some 110)) by (vm_compute; reflexivity).
  assert (H' : party_eval hero_logs [inl (birth_map, birth_log); inr rebased] health = Done (Some 10)) by (vm_compute; reflexivity).
  split; [exact H|exact H'].
Qed.
