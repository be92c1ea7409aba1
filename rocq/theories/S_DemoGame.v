(** A small game for the examples: defaults, a global map, and maps on an entity and its children. *)
From Coq Require Import ZArith List Bool String.
From Verif Require Import M_Outcome M_Ints M_Ratio M_Float M_Value M_Types M_Qualifier M_Search M_Stat M_StatMap M_HashMap M_Pair M_Defaults M_Querier
  S_StatMap S_Defaults S_Querier S_Totals S_EndToEnd S_Demo S_DemoDefaults S_DemoQuery.
Import ListNotations.
Local Open Scope Z_scope.

Definition SI : StatValue := statInt true (prim I32).
Definition gedit : Type := edit demo intQ.
Definition set_hp (q : qualifier intQ) (x : Z) : gedit := @EBase demo intQ q hp x.
Definition add_hp (q : qualifier intQ) (x : Z) : gedit := @EModify demo intQ q hp (@OAdd SI x).
Definition mul_hp (q : qualifier intQ) (x : Z) : gedit := @EModify demo intQ q hp (@OMul SI x).
Definition cap_hp (q : qualifier intQ) (x : Z) : gedit := @EGetMut demo intQ q hp [@OMax SI x].
Definition made_hp (q : qualifier intQ) (x y : Z) : gedit := @EInsert demo intQ q hp (Applied (@FromBase SI x) (@OMin SI y)) (Quad x y 2147483647 1).
Definition cut_hp (q : qualifier intQ) : gedit := @ERemove demo intQ q hp.
Definition set_atk (q : qualifier intQ) (x : Z) : gedit := @EBase demo intQ q atk x.

Definition demo_dlog : list (dedit demo) := [@EDefault demo hp (@FromBase SI 100) (Quad 100 (-2147483648) 2147483647 1); @EPatch demo hp (@OMin SI (-5))].
Definition bulk_hp (l : list (qualifier intQ * Z)) : gedit :=
  @EExtend demo intQ Hp (map (fun p => (fst p, 0, (@FromBase SI (snd p), Quad (snd p) (-2147483648) 2147483647 1))) l).
Definition global_log : list gedit := [bulk_hp [(none, 7); (fire, 50)]; mul_hp fire 10].
Definition own_logs : list (entity * list gedit) :=
  [(0%nat, [set_hp none 1; mul_hp none 3; add_hp ice 4; cut_hp ice; set_atk none 9]); (5%nat, [set_hp none 19])].
Definition child_logs : list (entity * list gedit) :=
  [(1%nat, [made_hp none 20 11; mul_hp none 2; cap_hp none 5000]); (3%nat, [add_hp fire 6; set_hp none 30; set_hp none 40]); (4%nat, [set_hp none 10000])].
(** No bulk insertion. *)
Definition plain_log {P Q} (l : list (edit P Q)) : bool := forallb (fun e => match e with EExtend _ _ => false | _ => true end) l.
Definition keeper (l : list (entity * list gedit)) : holder demo intQ := {|
  k_map := fun d => match tab l d with Some l => Some (demo_run (map method l)) | None => None end;
  k_log := tab l;
  k_attr := fun _ _ _ => Ret false;
  k_rel := fun _ _ _ p => Ret p
|}.
Definition game_world : world demo intQ := {|
  w_defaults := Some (demo_defaults (map dmethod demo_dlog));
  w_relations := Some [everywhere bs_new (demo_run (map method global_log))];
  w_entities := w_entities demo_world;
  w_placeholder := 77%nat
|}.
Definition game_querier (cached : bool) : joined demo intQ :=
  with_children (sq_with_component game_world cached (holding bs_new (keeper own_logs))) (holding bs_new (keeper child_logs)).
Definition demo_game (cached : bool) : game demo intQ := {|
  g_defaults := Some demo_dlog;
  g_global := [(demo_run (map method global_log), global_log)];
  g_comp := [keeper own_logs];
  g_rel := [];
  g_child := [keeper child_logs];
  g_querier := game_querier cached
|}.
Definition burning : dquery := @Aggregate intQ 1.
(** The stories of hp in the logs of a list of maps, selected by hand. *)
Definition story_hp (l : list gedit) (q : qualifier intQ) : option (history SI) := @account demo intQ l hp q.
Definition start_hp : history SI := @start demo demo_dlog hp.

(** A program with a single stat, of any value type, and an entity with one map and one child with another. *)
Definition solo (V : StatValue) : Prog := {|
  vty := unit; vty_dec := ltac:(decide equality); VT := fun _ => V; v_size := fun _ => 24; v_align := fun _ => 8;
  sty := unit; sty_dec := ltac:(decide equality); vt_value := fun _ => tt; vt_addr := fun _ => 64
|}.
Definition the_stat (V : StatValue) : inst (solo V) := @Inst (solo V) tt 0.
Definition grant (V : StatValue) (b : baseT V) : edit (solo V) intQ := @EBase (solo V) intQ none (the_stat V) b.
Definition alter (V : StatValue) (o : stat_op V) : edit (solo V) intQ := @EModify (solo V) intQ none (the_stat V) o.
Definition solo_run (V : StatValue) (l : list (edit (solo V) intQ)) : option (map_t (solo V) intQ) :=
  match mops_run bs_new [] (map method l) with Done m => Some m | _ => None end.
Definition solo_keeper (V : StatValue) (l : list (list (edit (solo V) intQ))) : holder (solo V) intQ := {|
  k_map := fun d => match nth_error l d with Some l => solo_run V l | None => None end;
  k_log := nth_error l;
  k_attr := fun _ _ _ => Ret false;
  k_rel := fun _ _ _ p => Ret p
|}.
Definition solo_game (V : StatValue) (l : list (list (edit (solo V) intQ))) : game (solo V) intQ := {|
  g_defaults := None; g_global := []; g_comp := [solo_keeper V l]; g_rel := []; g_child := [solo_keeper V l];
  g_querier := with_children (sq_with_component {| w_defaults := None; w_relations := None; w_entities := fun e => match e with 0%nat => Some (Some [1%nat]) | _ => None end; w_placeholder := 77%nat |}
    true (holding bs_new (solo_keeper V l))) (holding bs_new (solo_keeper V l))
|}.
Definition solo_ok (V : StatValue) (l : list (list (edit (solo V) intQ))) : bool :=
  forallb (fun l => match solo_run V l with Some _ => plain_log l | None => false end) l.
Definition solo_eval (V : StatValue) (l : list (list (edit (solo V) intQ))) : outcome (option (outT V)) :=
  fst (run (client (g_querier (solo_game V l)) 1 (p_query_eval 0%nat (@Aggregate intQ 0) (the_stat V))) []).
Definition PA : StatValue := statPctAdd true (prim I32) Round 100.
Definition FR : StatValue := statIntFraction true (prim I32) Truncate.
Definition pa_logs : list (list (edit (solo PA) intQ)) :=
  [[grant PA 35; alter PA (@OMul PA 30)]; [alter PA (@OAdd PA 10); alter PA (@OMul PA (-5)); alter PA (@OMax PA 60)]].
Definition fr_logs : list (list (edit (solo FR) intQ)) :=
  [[grant FR 7; alter FR (@OMul FR (Frac 2 3))]; [alter FR (@OAdd FR (-2)); alter FR (@OMul FR (Frac 7 2))]].
