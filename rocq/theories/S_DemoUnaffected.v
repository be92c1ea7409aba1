(** A rule that breaks one stat, for the examples. *)
From Coq Require Import ZArith List Bool.
From Verif Require Import M_Outcome M_Ints M_Value M_Types M_Qualifier M_Search M_Stat M_StatMap M_HashMap M_Pair M_Defaults M_Querier
  S_Querier S_Totals S_EndToEnd S_Rules S_Demo S_DemoDefaults S_DemoQuery S_DemoGame S_DemoRules S_DemoRulesMono.
Import ListNotations.
Local Open Scope Z_scope.

(** Questions about anything but health, and questions without a qualifier. *)
Definition not_health (e : entity) (x : qquery intQ) (s : inst (solo SI)) : Prop := si_index s <> 0.
Definition plainly (e : entity) (x : qquery intQ) (s : inst (solo SI)) : Prop := x = @Aggregate intQ 0.
(** Health that follows from itself. *)
Definition stuck_laws : list (law (solo SI) intQ) := inr vain :: hero_laws.
(** Ten times as much constitution while burning. *)
Definition hot_logs : list (list (edit (solo SI) intQ)) :=
  [[gets health none 7; gets constitution none 5; gets level_stat none 3; gets constitution fire 500]; [gets constitution none 2]].
Definition burning_eval (logs : list (list (edit (solo SI) intQ))) : outcome (option Z) :=
  fst (run (client (ruled solo_types bs_new (party logs) hero_laws) 3 (p_query_eval 0%nat (@Aggregate intQ 1) health)) []).
