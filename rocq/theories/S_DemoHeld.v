(** A game with registered bounds and a rule for the examples. *)
From Coq Require Import ZArith List Bool.
From Verif Require Import M_Outcome M_Ints M_Value M_Types M_Qualifier M_Search M_Stat M_StatMap M_HashMap M_Pair M_Defaults M_Querier
  S_Querier S_Totals S_EndToEnd S_Rules S_Held S_Demo S_DemoDefaults S_DemoQuery S_DemoGame.
Import ListNotations.
Local Open Scope Z_scope.

(** At least -5 and at most 700. *)
Definition held_dlog : list (dedit demo) := demo_dlog ++ [@EPatch demo hp (@OMax SI 700)].
Definition held_world : world demo intQ := {|
  w_defaults := Some (demo_defaults (map dmethod held_dlog)); w_relations := w_relations game_world; w_entities := w_entities game_world; w_placeholder := 77%nat
|}.
Definition held_game : game demo intQ := {|
  g_defaults := Some held_dlog; g_global := g_global (demo_game true); g_comp := [keeper own_logs]; g_rel := []; g_child := [keeper child_logs];
  g_querier := with_children (sq_with_component held_world true (holding bs_new (keeper own_logs))) (holding bs_new (keeper child_logs))
|}.
(** Some health more or less for everyone who is not burning. *)
Definition curse (n : Z) : rule demo intQ := @Build_rule demo intQ hp (fun _ x =>
  Ret (match x with Aggregate q => if (q : Z) =? 0 then [@OAdd SI n] else [] | _ => [] end)).
Definition held_laws (n : Z) : list (law demo intQ) := map inl (g_global (demo_game true)) ++ [inr (curse n)].
Definition held (n : Z) : joined demo intQ := ruled demoT bs_new held_game (held_laws n).
