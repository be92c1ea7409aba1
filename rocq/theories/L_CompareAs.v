(** Proofs: what operands are compared as. *)
From Coq Require Import ZArith QArith List Bool.
From Flocq Require Import Core BinarySingleNaN.
From Verif Require Import M_Outcome M_Ints M_Ratio M_Float M_Value M_Types M_Compare S_Ratio S_CompareAs L_Compare.
Local Open Scope Z_scope.

Lemma ints_as : as_ints int_cmp.
Proof. intros x y. split; [apply Z.eqb_eq|reflexivity]. Qed.
Lemma rationals_as : as_rationals fraction_cmp.
Proof. intros x y A B. split; [apply fraction_eq_Q; assumption|]. cbn. rewrite r_cmp_Q by assumption. reflexivity. Qed.
Lemma floats_as prec emax : as_floats (float_cmp prec emax).
Proof. intros x y. split; [|reflexivity]. cbn. unfold Beqb, SpecFloat.SFeqb, Bcompare. destruct (SpecFloat.SFcompare _ _) as [[]|]; split; congruence. Qed.
Lemma C76_int_operands_proof :
  (forall oc T, let K := cmp_StatInt oc T in as_ints (k_add K) /\ as_ints (k_mul K) /\ as_ints (k_bound K) /\ as_ints (k_base K)) /\
  (forall oc T R s, let K := cmp_StatIntPercentAdditive oc T R s in as_ints (k_add K) /\ as_ints (k_mul K) /\ as_ints (k_bound K) /\ as_ints (k_base K)) /\
  (forall oc T R s, let K := cmp_StatIntPercent oc T R s in as_ints (k_add K) /\ as_ints (k_mul K) /\ as_ints (k_bound K) /\ as_ints (k_base K)) /\
  (forall oc T R, let K := cmp_StatIntFraction oc T R in as_ints (k_add K) /\ as_rationals (k_mul K) /\ as_ints (k_bound K) /\ as_ints (k_base K)) /\
  (forall prec emax Hp He oc t R, let K := cmp_StatIntFloatMul prec emax Hp He oc t R in as_ints (k_add K) /\ as_floats (k_mul K) /\ as_ints (k_bound K) /\ as_ints (k_base K)).
Proof. split; [|split; [|split; [|split]]]; intros; cbv zeta; (split; [|split; [|split]]); apply ints_as || apply rationals_as || apply floats_as. Qed.
Lemma C76_float_operands_proof :
  (forall prec emax Hp He, let K := cmp_StatFloat prec emax Hp He in as_floats (k_add K) /\ as_floats (k_mul K) /\ as_floats (k_bound K) /\ as_floats (k_base K)) /\
  (forall prec emax Hp He, let K := cmp_StatFloatAdditive prec emax Hp He in as_floats (k_add K) /\ as_floats (k_mul K) /\ as_floats (k_bound K) /\ as_floats (k_base K)) /\
  (forall prec emax Hp He, let K := cmp_StatMult prec emax Hp He in as_floats (k_mul K) /\ as_floats (k_bound K) /\ as_floats (k_base K)) /\
  (forall oc t, let K := cmp_StatFloat_Fraction oc t in as_rationals (k_add K) /\ as_rationals (k_mul K) /\ as_rationals (k_bound K) /\ as_rationals (k_base K)) /\
  (forall oc t, let K := cmp_StatFloatAdditive_Fraction oc t in as_rationals (k_add K) /\ as_rationals (k_mul K) /\ as_rationals (k_bound K) /\ as_rationals (k_base K)) /\
  (forall oc t, let K := cmp_StatMult_Fraction oc t in as_rationals (k_mul K) /\ as_rationals (k_bound K) /\ as_rationals (k_base K)).
Proof. repeat (match goal with |- _ /\ _ => split end); intros; cbv zeta; repeat (match goal with |- _ /\ _ => split end); apply rationals_as || apply floats_as. Qed.
