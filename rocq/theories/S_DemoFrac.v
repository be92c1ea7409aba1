(** Small games for the examples: one stat over fractions. *)
From Coq Require Import ZArith List Bool.
From Verif Require Import M_Outcome M_Ints M_Ratio M_Float M_Value M_Types M_Qualifier M_Search M_Stat M_StatMap M_HashMap M_Pair M_Defaults M_Querier
  S_Totals S_EndToEnd S_Demo S_DemoDefaults S_DemoQuery S_DemoGame.
Import ListNotations.
Local Open Scope Z_scope.

(** (3/2 - 1/6) * 5/4 *)
Definition XF : StatValue := statFloat (fracF true I16).
Definition xf_logs : list (list (edit (solo XF) intQ)) := [[grant XF (Frac 3 2); alter XF (@OMul XF (Frac 5 4))]; [alter XF (@OAdd XF (Frac (-1) 6)); alter XF (@OMin XF (Frac 1 1))]].
Definition xf_hist : history XF :=
  Joined (Applied (@FromBase XF (Frac 3 2)) (@OMul XF (Frac 5 4))) (Applied (Applied (@FromDefault XF) (@OAdd XF (Frac (-1) 6))) (@OMin XF (Frac 1 1))).
(** 10/3 * (1 + 1/4 - 1/2), at most 9/4 *)
Definition XA : StatValue := statFloatAdditive (fracF true I16).
Definition xa_logs : list (list (edit (solo XA) intQ)) := [[grant XA (Frac 10 3); alter XA (@OMul XA (Frac 1 4))]; [alter XA (@OMul XA (Frac (-1) 2)); alter XA (@OMax XA (Frac 9 4))]].
Definition xa_hist : history XA :=
  Joined (Applied (@FromBase XA (Frac 10 3)) (@OMul XA (Frac 1 4))) (Applied (Applied (@FromDefault XA) (@OMul XA (Frac (-1) 2))) (@OMax XA (Frac 9 4))).
(** 3/2 * 7/6 * 2 *)
Definition XM : StatValue := statMult (fracF true I16).
Definition xm_logs : list (list (edit (solo XM) intQ)) := [[grant XM (Frac 3 2)]; [alter XM (@OMul XM (Frac 7 6)); alter XM (@OMul XM (Frac 2 1))]].
Definition xm_hist : history XM :=
  Joined (@FromBase XM (Frac 3 2)) (Applied (Applied (@FromDefault XM) (@OMul XM (Frac 7 6))) (@OMul XM (Frac 2 1))).
