(** A better hero for the examples. *)
From Coq Require Import ZArith List Bool.
From Verif Require Import M_Outcome M_Ints M_Value M_Types M_Qualifier M_Search M_Stat M_StatMap M_HashMap M_Pair M_Defaults M_Querier
  S_Querier S_Totals S_EndToEnd S_Monotone S_Rules S_RulesMono S_Demo S_DemoDefaults S_DemoQuery S_DemoGame S_DemoRules.
Import ListNotations.
Local Open Scope Z_scope.

(** As in [hero_game], with other maps on the entities. *)
Definition party (logs : list (list (edit (solo SI) intQ))) : game (solo SI) intQ := {|
  g_defaults := None; g_global := [(birth_map, birth_log)]; g_comp := [solo_keeper SI logs]; g_rel := []; g_child := [solo_keeper SI logs];
  g_querier := with_children (sq_with_component {| w_defaults := None; w_relations := Some [everywhere bs_new birth_map];
    w_entities := fun e => match e with 0%nat => Some (Some [1%nat]) | _ => None end; w_placeholder := 77%nat |}
    true (holding bs_new (solo_keeper SI logs))) (holding bs_new (solo_keeper SI logs))
|}.
(** One more point of constitution and one more level. *)
Definition veteran_logs : list (list (edit (solo SI) intQ)) :=
  [[gets health none 7; gets constitution none 6; gets level_stat none 4; gets constitution fire 50]; [gets constitution none 2]].
Definition party_eval (logs : list (list (edit (solo SI) intQ))) (l : list (law (solo SI) intQ)) (s : inst (solo SI)) : outcome (option Z) :=
  fst (run (client (ruled solo_types bs_new (party logs) l) 3 (p_query_eval 0%nat (@Aggregate intQ 0) s)) []).
(** Constitution that costs health. *)
Definition frail : rule (solo SI) intQ := follows health constitution same_asked (fun r : Z => [@OAdd SI (- r)]).
Definition frail_laws : list (law (solo SI) intQ) := [inr frail; inl (birth_map, birth_log)].
Definition hero_merits (s : inst (solo SI)) : merits (VT (solo SI) (vt_value (solo SI) (si_ty s))) := merits_as eq_refl (int_merits false true (prim I32)).
Definition hero_le (s : inst (solo SI)) (r r' : outT (VT (solo SI) (vt_value (solo SI) (si_ty s)))) : Prop := (r : Z) <= (r' : Z).
