(** Data for the examples of monotonicity. *)
From Coq Require Import ZArith List Bool.
From Flocq Require Import BinarySingleNaN.
From Verif Require Import M_Outcome M_Ints M_Ratio M_Float M_Value M_Types M_Qualifier M_StatMap M_Querier
  S_Types S_Totals S_FloatTotals S_EndToEnd S_Demo S_DemoQuery S_DemoGame S_DemoGame2 S_Monotone S_MonoQuery.
Import ListNotations.
Local Open Scope Z_scope.

(** 10 times 3 of an entity, its child allows no more than 25; then 12 times 3 and 2 more, and the child at most 37 but at least 1. *)
Definition si_poor : list (list (edit (solo SI) intQ)) := [[grant SI 10; alter SI (@OMul SI 3)]; [alter SI (@OMax SI 25)]].
Definition si_rich : list (list (edit (solo SI) intQ)) :=
  [[grant SI 12; alter SI (@OMul SI 3); alter SI (@OAdd SI 2)]; [alter SI (@OMax SI 37); alter SI (@OMin SI 1)]].
(** Whether both are numbers and the first is no greater. *)
Definition worth_fle (a b : outcome f32) : bool := match a, b with Done x, Done y => Bleb x y | _, _ => false end.
Definition worth_flt (a b : outcome f32) : bool := match a, b with Done x, Done y => Bltb x y | _, _ => false end.
