(** More small games for the examples: one stat of various types. *)
From Coq Require Import ZArith List Bool.
From Flocq Require Import BinarySingleNaN.
From Coq Require Import SpecFloat.
From Verif Require Import M_Outcome M_Ints M_Ratio M_Float M_Value M_Types M_Qualifier M_Search M_Stat M_StatMap M_HashMap M_Pair M_Defaults M_Querier
  S_Totals S_FloatTotals S_EndToEnd S_Demo S_DemoDefaults S_DemoQuery S_DemoGame.
Import ListNotations.
Local Open Scope Z_scope.

Definition WI : StatValue := statInt true {| i_ty := I8; i_flav := FWrapping |}.
Definition wi_logs : list (list (edit (solo WI) intQ)) := [[grant WI 100; alter WI (@OMul WI 3)]; [alter WI (@OAdd WI 7)]].
(** 40 and 150%, then 5 and 50% without a base. *)
Definition PM : StatValue := statPct true (prim I32) Round 100.
Definition pm_logs : list (list (edit (solo PM) intQ)) :=
  [[grant PM 40; alter PM (@OMul PM 150)]; [alter PM (@OAdd PM 5); alter PM (@OMul PM 50); alter PM (@OMax PM 200)]].
Definition FL : StatValue := statFloat f32F.
Definition fl_logs : list (list (edit (solo FL) intQ)) := [[grant FL (f32_int 10); alter FL (@OAdd FL (f32_int 5))]; [alter FL (@OMul FL (f32_half 3)); alter FL (@OMax FL (f32_int 22))]].
Definition FA : StatValue := statFloatAdditive f32F.
Definition fa_logs : list (list (edit (solo FA) intQ)) := [[grant FA (f32_int 10); alter FA (@OMul FA (f32_half 1))]; [alter FA (@OMul FA (f32_int (-1))); alter FA (@OMin FA (f32_int 3))]].
Definition SM : StatValue := statMult f32F.
Definition sm_logs : list (list (edit (solo SM) intQ)) := [[grant SM (f32_half 3)]; [alter SM (@OMul SM (f32_int 7)); alter SM (@OMul SM (f32_int 2))]].
Definition IM : StatValue := statIntFloatMul 24 128 prec24 emax128 true I16 Ceil.
Definition im_logs : list (list (edit (solo IM) intQ)) := [[grant IM 10; alter IM (@OMul IM (f32_half 3))]; [alter IM (@OAdd IM (-3))]].
(** What is seen of a float. *)
Definition seen_float (o : outcome (option f32)) : option spec_float := match o with Done (Some r) => Some (B2SF r) | _ => None end.
Definition fl_seen : option spec_float := seen_float (solo_eval FL fl_logs).
Definition fa_seen : option spec_float := seen_float (solo_eval FA fa_logs).
Definition sm_seen : option spec_float := seen_float (solo_eval SM sm_logs).
(** The stories of the two maps. *)
Definition solo_all (V : StatValue) (l : list (list (edit (solo V) intQ))) : list (history V) :=
  @FromDefault V :: flat_map (fun l => match @account (solo V) intQ l (the_stat V) none with Some h => [h] | None => [] end) l.
(** The entities of [demo_game], where hp was only ever given a lower bound. *)
Definition orphan_querier : joined demo intQ :=
  sq_with_component {| w_defaults := Some (demo_defaults [dmin_hp (-5)]); w_relations := None; w_entities := w_entities demo_world; w_placeholder := 77%nat |}
    true (holding bs_new (keeper own_logs)).
