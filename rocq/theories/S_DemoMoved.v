(** Data for the examples of grants made elsewhere. *)
From Coq Require Import ZArith List Bool.
From Verif Require Import S_Types.
From Verif Require Import M_Outcome M_Ints M_Float M_Value M_Types M_Qualifier M_Search M_Stat M_StatMap M_HashMap M_Pair M_Defaults M_Querier
  S_Totals S_FloatTotals S_EndToEnd S_Moved S_Demo S_DemoDefaults S_DemoQuery S_DemoGame S_DemoGame2.
Import ListNotations.
Local Open Scope Z_scope.

(** One entry for everything; one for everything and one for fire. *)
Definition single (V : StatValue) (a : baseT V) : list (edit (solo V) intQ) := [grant V a].
Definition double (V : StatValue) (a b : baseT V) : list (edit (solo V) intQ) := [grant V a; @EBase (solo V) intQ fire (the_stat V) b].
Definition solo_burn (V : StatValue) (l : list (list (edit (solo V) intQ))) : outcome (option (outT V)) :=
  @asked_eval (solo V) intQ (solo_game V l) 0%nat (@Aggregate intQ 1) (the_stat V) [] 0.
(** An entity has the first entry, its child the others; and the other way round. *)
Definition here (V : StatValue) (a b c : baseT V) : list (list (edit (solo V) intQ)) := [single V a; double V b c].
Definition there (V : StatValue) (a b c : baseT V) : list (list (edit (solo V) intQ)) := [double V b c; single V a].
(** 8 bit integers that saturate. *)
Definition SS : StatValue := statInt false {| i_ty := I8; i_flav := FSaturating |}.
Definition burn_int (o : outcome (option f32)) : option Z := match o with Done (Some r) => Some (b_to_int 24 128 I64 r) | _ => None end.
Definition S8 : StatValue := statInt true (prim I8).
Definition PZ : StatValue := prioritized Z 0 false.
