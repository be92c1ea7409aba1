(** A game with rules for the examples. *)
From Coq Require Import ZArith List Bool.
From Verif Require Import M_Outcome M_Ints M_Value M_Types M_Qualifier M_Search M_Stat M_StatMap M_HashMap M_Pair M_Defaults M_Querier
  S_Querier S_Totals S_EndToEnd S_Rules S_Demo S_DemoDefaults S_DemoQuery S_DemoGame.
Import ListNotations.
Local Open Scope Z_scope.

(** Health, constitution and level. *)
Definition health : inst (solo SI) := the_stat SI.
Definition constitution : inst (solo SI) := @Inst (solo SI) tt 1.
Definition level_stat : inst (solo SI) := @Inst (solo SI) tt 2.
Definition gets (s : inst (solo SI)) (q : qualifier intQ) (x : Z) : edit (solo SI) intQ := @EBase (solo SI) intQ q s x.
(** 100 health for everyone; the entity has some of everything, its child 2 constitution. *)
Definition birth_log : list (edit (solo SI) intQ) := [gets health none 100].
Definition hero_logs : list (list (edit (solo SI) intQ)) :=
  [[gets health none 7; gets constitution none 5; gets level_stat none 3; gets constitution fire 50]; [gets constitution none 2]].
Definition birth_map : map_t (solo SI) intQ := match solo_run SI birth_log with Some m => m | None => [] end.
Definition solo_types : StatTypes (solo SI) := {| s_size := fun _ => 0; s_align := fun _ => 1; s_from_index := fun _ i => Done i |}.
(** 10 health for each point of constitution, one point of constitution for each level. *)
Definition same_asked (e : entity) (x : qquery intQ) : entity * qquery intQ := (e, x).
Definition tough : rule (solo SI) intQ := follows health constitution same_asked (fun r : Z => [@OAdd SI (10 * r)]).
Definition trained : rule (solo SI) intQ := follows constitution level_stat same_asked (fun r : Z => [@OAdd SI r]).
Definition hero_laws : list (law (solo SI) intQ) := [inr tough; inl (birth_map, birth_log); inr trained].
Definition hero_game : game (solo SI) intQ := {|
  g_defaults := None; g_global := [(birth_map, birth_log)]; g_comp := [solo_keeper SI hero_logs]; g_rel := []; g_child := [solo_keeper SI hero_logs];
  g_querier := with_children (sq_with_component {| w_defaults := None; w_relations := Some [everywhere bs_new birth_map];
    w_entities := fun e => match e with 0%nat => Some (Some [1%nat]) | _ => None end; w_placeholder := 77%nat |}
    true (holding bs_new (solo_keeper SI hero_logs))) (holding bs_new (solo_keeper SI hero_logs))
|}.
Definition hero : joined (solo SI) intQ := ruled solo_types bs_new hero_game hero_laws.
Definition hero_rank (s : inst (solo SI)) : nat := if si_index s =? 0 then 2%nat else if si_index s =? 1 then 1%nat else 0%nat.
Definition hero_eval (n : nat) (q : Z) (s : inst (solo SI)) : outcome (option Z) :=
  fst (run (client hero n (p_query_eval 0%nat (@Aggregate intQ q) s)) []).
(** A rule that asks for what it is about. *)
Definition vain : rule (solo SI) intQ := follows health health same_asked (fun r : Z => [@OAdd SI r]).
(** What a rule wants to be added. *)
Definition additions (o : outcome (list (stat_op SI))) : option (list Z) :=
  match o with Done l => Some (flat_map (fun op : stat_op SI => match op with OAdd z => [z : Z] | _ => [] end) l) | _ => None end.
