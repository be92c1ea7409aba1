(** C76: what the operands of operations are compared as, type by type. *)
From Coq Require Import ZArith QArith List Bool.
From Flocq Require Import Core BinarySingleNaN.
From Verif Require Import M_Outcome M_Ints M_Ratio M_Float M_Value M_Types M_Compare S_Ratio S_Totals S_CompareAs L_CompareAs.
Local Open Scope Z_scope.

(** The operations of the integer types: integers as integers, multipliers as what they are. *)
Theorem C76_int_operands :
  (forall oc T, let K := cmp_StatInt oc T in as_ints (k_add K) /\ as_ints (k_mul K) /\ as_ints (k_bound K) /\ as_ints (k_base K)) /\
  (forall oc T R s, let K := cmp_StatIntPercentAdditive oc T R s in as_ints (k_add K) /\ as_ints (k_mul K) /\ as_ints (k_bound K) /\ as_ints (k_base K)) /\
  (forall oc T R s, let K := cmp_StatIntPercent oc T R s in as_ints (k_add K) /\ as_ints (k_mul K) /\ as_ints (k_bound K) /\ as_ints (k_base K)) /\
  (forall oc T R, let K := cmp_StatIntFraction oc T R in as_ints (k_add K) /\ as_rationals (k_mul K) /\ as_ints (k_bound K) /\ as_ints (k_base K)) /\
  (forall prec emax Hp He oc t R, let K := cmp_StatIntFloatMul prec emax Hp He oc t R in as_ints (k_add K) /\ as_floats (k_mul K) /\ as_ints (k_bound K) /\ as_ints (k_base K)).
Proof. exact C76_int_operands_proof. Qed.
Print Assumptions C76_int_operands.
(** Those of the float types, over floats and over fractions. *)
Theorem C76_float_operands :
  (forall prec emax Hp He, let K := cmp_StatFloat prec emax Hp He in as_floats (k_add K) /\ as_floats (k_mul K) /\ as_floats (k_bound K) /\ as_floats (k_base K)) /\
  (forall prec emax Hp He, let K := cmp_StatFloatAdditive prec emax Hp He in as_floats (k_add K) /\ as_floats (k_mul K) /\ as_floats (k_bound K) /\ as_floats (k_base K)) /\
  (forall prec emax Hp He, let K := cmp_StatMult prec emax Hp He in as_floats (k_mul K) /\ as_floats (k_bound K) /\ as_floats (k_base K)) /\
  (forall oc t, let K := cmp_StatFloat_Fraction oc t in as_rationals (k_add K) /\ as_rationals (k_mul K) /\ as_rationals (k_bound K) /\ as_rationals (k_base K)) /\
  (forall oc t, let K := cmp_StatFloatAdditive_Fraction oc t in as_rationals (k_add K) /\ as_rationals (k_mul K) /\ as_rationals (k_bound K) /\ as_rationals (k_base K)) /\
  (forall oc t, let K := cmp_StatMult_Fraction oc t in as_rationals (k_mul K) /\ as_rationals (k_bound K) /\ as_rationals (k_base K)).
Proof. exact C76_float_operands_proof. Qed.
Print Assumptions C76_float_operands.
Example C76_operand_types_case :
  op_partial_cmp (cmp_StatIntFraction true (prim I32) Round) (@OMul (statIntFraction true (prim I32) Round) (Frac 2 6)) (@OMul (statIntFraction true (prim I32) Round) (Frac 1 2)) = Some Lt /\
  op_eq (cmp_StatMult_Fraction true I32) (@OBase (statMult (fracF true I32)) (Frac 2 4)) (@OBase (statMult (fracF true I32)) (Frac 1 2)) = true /\
  op_partial_cmp (cmp_StatMult_Fraction true I32) (@OMin (statMult (fracF true I32)) (Frac 3 4)) (@OMin (statMult (fracF true I32)) (Frac (-1) 1)) = Some Gt /\
  (toQ (Frac 2 4) == toQ (Frac 1 2))%Q.
Proof. repeat split. Qed.
