(** A game for the examples of rules that ask for other entities. *)
From Coq Require Import ZArith List Bool.
From Verif Require Import M_Outcome M_Ints M_Value M_Types M_Qualifier M_Search M_Stat M_StatMap M_HashMap M_Pair M_Defaults M_Querier
  S_Querier S_Totals S_EndToEnd S_Rules S_RulesMonoAt S_Demo S_DemoDefaults S_DemoQuery S_DemoGame S_DemoRules.
Import ListNotations.
Local Open Scope Z_scope.

(** Entities in a line: each has 100 health and that of the one before it; the first has [b] of its own. *)
Definition before (e : entity) (x : qquery intQ) : option (entity * qquery intQ) := match e with O => None | S d => Some (d, x) end.
Definition kin_rule : rule (solo SI) intQ := follows_if health health before (fun r : Z => [@OAdd SI r]).
Definition kin_laws : list (law (solo SI) intQ) := [inr kin_rule; inl (birth_map, birth_log)].
Definition kin_logs (b : Z) : list (list (edit (solo SI) intQ)) := [[gets health none b]].
Definition kin (b : Z) : game (solo SI) intQ := {|
  g_defaults := None; g_global := [(birth_map, birth_log)]; g_comp := [solo_keeper SI (kin_logs b)]; g_rel := []; g_child := [solo_keeper SI (kin_logs b)];
  g_querier := with_children (sq_with_component {| w_defaults := None; w_relations := Some [everywhere bs_new birth_map];
    w_entities := fun e => match e with 0%nat | 1%nat | 2%nat => Some None | _ => None end; w_placeholder := 77%nat |}
    true (holding bs_new (solo_keeper SI (kin_logs b)))) (holding bs_new (solo_keeper SI (kin_logs b)))
|}.
Definition kin_rank (e : entity) (x : qquery intQ) (s : inst (solo SI)) : nat := e.
Definition kin_eval (b : Z) (e : entity) : outcome (option Z) :=
  fst (run (client (ruled solo_types bs_new (kin b) kin_laws) 3 (p_query_eval e (@Aggregate intQ 0) health)) []).
