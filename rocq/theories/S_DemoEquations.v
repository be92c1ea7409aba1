(** A game for the examples of equations. *)
From Coq Require Import ZArith List Bool.
From Verif Require Import M_Outcome M_Ints M_Value M_Types M_Qualifier M_Search M_Stat M_StatMap M_HashMap M_Pair M_Defaults M_Querier
  S_Querier S_Totals S_EndToEnd S_Rules S_Demo S_DemoDefaults S_DemoQuery S_DemoGame S_DemoRules.
Import ListNotations.
Local Open Scope Z_scope.

(** Entities in a line: each has its own health and that of the one before it. *)
Definition heir : rule (solo SI) intQ := {|
  r_to := health;
  r_code := fun e x => match e with
    | O => Ret []
    | S d => pbind (p_query_eval d x health) (fun o : option Z => Ret (match o with Some r => [@OAdd SI r] | None => [] end))
    end |}.
Definition heir_laws : list (law (solo SI) intQ) := [inr heir; inl (birth_map, birth_log)].
Definition heir_game : game (solo SI) intQ := {|
  g_defaults := None; g_global := [(birth_map, birth_log)]; g_comp := [solo_keeper SI hero_logs]; g_rel := []; g_child := [solo_keeper SI hero_logs];
  g_querier := with_children (sq_with_component {| w_defaults := None; w_relations := Some [everywhere bs_new birth_map];
    w_entities := fun e => if (e <? 3)%nat then Some None else None; w_placeholder := 77%nat |}
    true (holding bs_new (solo_keeper SI hero_logs))) (holding bs_new (solo_keeper SI hero_logs))
|}.
Definition heirs : joined (solo SI) intQ := ruled solo_types bs_new heir_game heir_laws.
(** Questions are ranked by the place of the entity in the line. *)
Definition in_line (e : entity) (x : qquery intQ) (s : inst (solo SI)) : nat := e.
Definition heir_eval (n : nat) (e : entity) : outcome (option Z) := fst (run (client heirs n (p_query_eval e (@Aggregate intQ 0) health)) []).

(** A game of one entity without any map, where health is at least as great as it is. *)
Definition idle : rule (solo SI) intQ := follows health health same_asked (fun r : Z => [@OMin SI r]).
Definition idle_game : game (solo SI) intQ := {|
  g_defaults := None; g_global := []; g_comp := [solo_keeper SI []]; g_rel := []; g_child := [solo_keeper SI []];
  g_querier := with_children (sq_with_component {| w_defaults := None; w_relations := Some [];
    w_entities := fun e => match e with 0%nat => Some None | _ => None end; w_placeholder := 77%nat |}
    true (holding bs_new (solo_keeper SI []))) (holding bs_new (solo_keeper SI []))
|}.
Definition idle_book (z : Z) (e : entity) (x : qquery intQ) (s : inst (solo SI)) : outcome (option (val SI)) :=
  match e with
  | O => Done (Some (if si_index s =? 0 then Quad 0 z 2147483647 1 else Quad 0 (-2147483648) 2147483647 1))
  | S _ => Done None
  end.
