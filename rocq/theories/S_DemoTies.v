(** A game with a tie for the examples. *)
From Coq Require Import ZArith List Bool.
From Verif Require Import M_Outcome M_Ints M_Value M_Types M_Qualifier M_Search M_Stat M_StatMap M_HashMap M_Pair M_Defaults M_Querier
  S_Querier S_Totals S_EndToEnd S_Rules S_Ties S_Demo S_DemoDefaults S_DemoQuery S_DemoGame S_DemoRules.
Import ListNotations.
Local Open Scope Z_scope.

(** How much health the one takes from the other: the level of the one, less the constitution of the other. *)
Definition strike : tie (solo SI) intQ := {|
  t_to := health;
  t_code := fun m m' x =>
    pbind (of_outcome (m_eval bs_new m x level_stat)) (fun a =>
    pbind (of_outcome (m_eval bs_new m' x constitution)) (fun b => Ret [@OAdd SI a; @OAdd SI (- b)]))
|}.
Definition fighters : holder (solo SI) intQ := {|
  k_map := k_map (solo_keeper SI hero_logs); k_log := k_log (solo_keeper SI hero_logs); k_attr := fun _ _ _ => Ret false;
  k_rel := fun m m' x => rule_stream solo_types (tie_rule strike m m') 0%nat x
|}.
Definition fight_game : game (solo SI) intQ := {|
  g_defaults := None; g_global := [(birth_map, birth_log)]; g_comp := []; g_rel := [fighters]; g_child := [];
  g_querier := sq_with_relation {| w_defaults := None; w_relations := Some [everywhere bs_new birth_map];
    w_entities := fun e => match e with 0%nat => Some (Some [1%nat]) | 1%nat => Some None | 5%nat => Some None | _ => None end; w_placeholder := 77%nat |}
    true (holding bs_new fighters)
|}.
Definition fight : joined (solo SI) intQ := ruled solo_types bs_new fight_game hero_laws.
Definition fight_eval (n : nat) (e f : entity) (q : Z) (s : inst (solo SI)) : outcome (option Z) :=
  fst (run (client fight n (p_relation_eval e f (@Aggregate intQ q) s)) []).
