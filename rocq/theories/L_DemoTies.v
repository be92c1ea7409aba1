(** Lemmas for the examples of ties. *)
From Coq Require Import ZArith List Bool Lia.
From Verif Require Import M_Outcome M_Ints M_Value M_Types M_Qualifier M_Search M_Stat M_StatMap M_HashMap M_Pair M_Defaults M_Querier
  S_Search S_StatMap S_Pair S_Defaults S_Querier S_Totals S_EndToEnd S_Rules S_Ties S_Demo S_DemoDefaults S_DemoQuery S_DemoGame S_DemoRules S_DemoTies
  L_DemoGame L_DemoRules.
Import ListNotations.
Local Open Scope Z_scope.

Lemma fight_lawful : lawful_game solo_types bs_new (fun _ => 24) (fun _ => 8) fight_game hero_laws.
Proof.
  assert (U : set_up bs_new (fun _ => 24) (fun _ => 8) (solo_game SI hero_logs)) by (apply solo_set_up; [repeat constructor|vm_compute; reflexivity]).
  split; [|split; [reflexivity|exact (proj2 (proj2 hero_lawful))]]. constructor; try reflexivity.
  - exact (u_global_logs _ _ _ _ hero_set_up).
  - pose proof (u_logs _ _ _ _ U) as H. inversion H as [|? ? H1 _]; subst. constructor; [exact H1|constructor].
Qed.
Lemma fight_tied : tied_game solo_types fight_game [strike].
Proof. split; [constructor; [intros m m' x; reflexivity|constructor]|]. constructor; [reflexivity|constructor]. Qed.
