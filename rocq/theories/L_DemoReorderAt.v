(** Lemmas for the examples of rules in two orders that ask for other entities. *)
From Coq Require Import ZArith List Bool Permutation Lia.
From Verif Require Import S_Types.
From Verif Require Import M_Outcome M_Ints M_Value M_Types M_Qualifier M_Search M_Stat M_StatMap M_HashMap M_Pair M_Defaults M_Querier
  S_Search S_StatMap S_Pair S_Defaults S_Querier S_Totals S_EndToEnd S_Rules S_Reorder S_ReorderAt S_RulesMonoAt S_Demo S_DemoDefaults S_DemoQuery S_DemoGame S_DemoRules S_DemoRulesMonoAt S_DemoReorderAt
  L_Querier2 L_DemoGame L_Rules L_DemoRules L_DemoRulesMonoAt L_DemoReorder.
Import ListNotations.
Local Open Scope Z_scope.

Lemma doubled_lawful l : (l = doubled_laws \/ l = doubled_laws') -> lawful_game solo_types bs_new (fun _ => 24) (fun _ => 8) (kin 7) l.
Proof.
  intros Hl. assert (U : lawful_game solo_types bs_new (fun _ => 24) (fun _ => 8) (kin 7) kin_laws) by (apply kin_lawful; vm_compute; reflexivity).
  split; [exact (proj1 U)|]. destruct Hl as [->| ->]; (split; [reflexivity|]); cbn [rules_in doubled_laws doubled_laws' flat_map app]; repeat constructor.
Qed.
Lemma doubled_reordered : reordered (fun _ => True) (kin 7) doubled_laws (kin 7) doubled_laws'.
Proof. apply laws_reordered. exact (Permutation_rev doubled_laws). Qed.
Lemma doubled_plain r : In (inr r) doubled_laws -> plain_at (fun _ => True) kin_rank r.
Proof.
  intros [E|[E|[E|[]]]]; try discriminate; injection E as <-; intros _ e x.
  - split; [exact Logic.I|]. cbn. repeat constructor.
  - unfold kin_rule, follows_if. cbn [r_to r_code]. destruct e as [|d]; cbn [before]; [split; [exact Logic.I|constructor]|]. split.
    + apply only_then; [apply only_eval|intros o; exact Logic.I]. exists d, x, health. split; [reflexivity|]. split; [exact Logic.I|unfold kin_rank; lia].
    + assert (G : forall A B (p : prog (solo SI) intQ A) (k : A -> prog (solo SI) intQ B) R, (forall a, returns R (k a)) -> returns R (pbind p k)).
      { clear. intros A B p k R H. induction p as [a|o|r c IH|c IH]; cbn [pbind returns]; auto. }
      apply G. intros [r|]; repeat constructor.
Qed.
