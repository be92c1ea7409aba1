(** Rules in another order, for the examples. *)
From Coq Require Import ZArith List Bool.
From Verif Require Import M_Outcome M_Ints M_Value M_Types M_Qualifier M_Search M_Stat M_StatMap M_HashMap M_Pair M_Defaults M_Querier
  S_Querier S_Totals S_EndToEnd S_Rules S_Demo S_DemoDefaults S_DemoQuery S_DemoGame S_DemoGame2 S_DemoMoved S_DemoRules S_DemoRulesMono.
Import ListNotations.
Local Open Scope Z_scope.

(** The rules of the hero, the other way round. *)
Definition hero_laws' : list (law (solo SI) intQ) := [inr trained; inl (birth_map, birth_log); inr tough].
(** Wrapping around at 8 bits: for another stat that is 0, the product with it plus 2, and 100 more than it. *)
Definition w_other : inst (solo WI) := @Inst (solo WI) tt 1.
Definition w_types : StatTypes (solo WI) := {| s_size := fun _ => 0; s_align := fun _ => 1; s_from_index := fun _ i => Done i |}.
Definition w_times : rule (solo WI) intQ := follows (the_stat WI) w_other same_asked (fun r : Z => [@OMul WI (r + 2)]).
Definition w_plus : rule (solo WI) intQ := follows (the_stat WI) w_other same_asked (fun r : Z => [@OAdd WI (r + 100)]).
Definition w_rank (s : inst (solo WI)) : nat := if si_index s =? 0 then 1%nat else 0%nat.
Definition w_eval (l : list (law (solo WI) intQ)) : outcome (option Z) :=
  fst (run (client (ruled w_types bs_new (solo_game WI (here WI 5 77 90)) l) 3 (p_query_eval 0%nat (@Aggregate intQ 0) (the_stat WI))) []).
(** A rule that sets a base. *)
Definition rebased : rule (solo SI) intQ := follows health level_stat same_asked (fun r : Z => [@OBase SI r]).
