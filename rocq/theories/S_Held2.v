(** How the five types of stats with integer bounds are bounded: the greatest minimum that was
    contributed to a value, a result and a bound, as integers. *)
From Coq Require Import ZArith.
From Verif Require Import M_Outcome M_Value M_Types.

Inductive bounded_by : forall V : StatValue, (val V -> Z) -> (outT V -> Z) -> (boundsT V -> Z) -> Prop :=
  | by_StatInt oc T : bounded_by (statInt oc T) vmin (fun r => r) (fun b => b)
  | by_StatIntPercentAdditive oc T R scale : bounded_by (statPctAdd oc T R scale) vmin (fun r => r) (fun b => b)
  | by_StatIntPercent oc T R scale : bounded_by (statPct oc T R scale) vmin (fun r => r) (fun b => b)
  | by_StatIntFraction oc T R : bounded_by (statIntFraction oc T R) vmin (fun r => r) (fun b => b)
  | by_StatIntFloatMul prec emax Hp He oc t R : bounded_by (statIntFloatMul prec emax Hp He oc t R) vmin (fun r => r) (fun b => b).
