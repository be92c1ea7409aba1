(** Rules in two orders for the examples of rules that ask for other entities. *)
From Coq Require Import ZArith List Bool.
From Verif Require Import M_Outcome M_Ints M_Value M_Types M_Qualifier M_Search M_Stat M_StatMap M_HashMap M_Pair M_Defaults M_Querier
  S_Querier S_Totals S_EndToEnd S_Rules S_RulesMonoAt S_Demo S_DemoDefaults S_DemoQuery S_DemoGame S_DemoRules S_DemoRulesMonoAt.
Import ListNotations.
Local Open Scope Z_scope.

(** Twice the health, for everyone. *)
Definition doubled : rule (solo SI) intQ := {| r_to := health; r_code := fun _ _ => Ret [@OMul SI 2] |}.
Definition doubled_laws : list (law (solo SI) intQ) := [inr doubled; inr kin_rule; inl (birth_map, birth_log)].
Definition doubled_laws' : list (law (solo SI) intQ) := [inl (birth_map, birth_log); inr kin_rule; inr doubled].
Definition doubled_eval (l : list (law (solo SI) intQ)) (e : entity) : outcome (option Z) :=
  fst (run (client (ruled solo_types bs_new (kin 7) l) 3 (p_query_eval e (@Aggregate intQ 0) health)) []).
