(** C76: the derived comparisons. Operations are ordered by kind, then by operand, as std requires; values that
    compare equal behave alike from then on. *)
From Coq Require Import ZArith List Bool.
From Flocq Require Import Core BinarySingleNaN.
From Verif Require Import M_Outcome M_Ints M_Ratio M_Float M_Value M_Types M_Compare S_Ratio S_Totals S_Zeros S_Compare S_CompareTypes S_DemoCompare L_Ratio L_Compare L_CompareTypes.
Import ListNotations.
Local Open Scope Z_scope.

(** What is compared in an operation keeps std's contract; a NaN compares with nothing. *)
Theorem C76_operands :
  (contract (anything Z) int_cmp /\ reflexive (anything Z) int_cmp /\ total (anything Z) int_cmp) /\
  (contract (anything bool) bool_cmp /\ reflexive (anything bool) bool_cmp /\ total (anything bool) bool_cmp) /\
  (contract (anything Empty_set) never_cmp /\ reflexive (anything Empty_set) never_cmp /\ total (anything Empty_set) never_cmp) /\
  (contract (fun x => 0 < denom x) fraction_cmp /\ reflexive (fun _ => True) fraction_cmp /\ total (fun _ => True) fraction_cmp) /\
  forall prec emax (Hp : Prec_gt_0 prec) (He : Prec_lt_emax prec emax),
    contract (anything _) (float_cmp prec emax) /\ reflexive (fun x => is_nan x = false) (float_cmp prec emax) /\
    total (fun x => is_nan x = false) (float_cmp prec emax) /\
    forall x y : binary_float prec emax, is_nan x = true ->
      c_eq (float_cmp prec emax) x y = false /\ c_eq (float_cmp prec emax) y x = false /\
      c_cmp (float_cmp prec emax) x y = None /\ c_cmp (float_cmp prec emax) y x = None.
Proof. exact C76_operands_proof. Qed.
Print Assumptions C76_operands.
Example C76_operands_case :
  c_cmp fraction_cmp (Frac (-1) 2) (Frac 1 3) = Some Lt /\ c_eq fraction_cmp (Frac 2 4) (Frac 1 2) = true /\
  c_eq (float_cmp 24 128) (B754_zero false) (B754_zero true) = true /\ c_cmp (float_cmp 24 128) (B754_infinity true) (B754_zero true) = Some Lt.
Proof. repeat split. Qed.

(** Whatever the operands keep, operations keep. *)
Theorem C76_operations : forall (S : StatValue) (K : operands S) (D : allowed S), operand_wise (@contract) D K -> contract (op_in D) (op_cmp K).
Proof. exact @C76_operations_proof. Qed.
Print Assumptions C76_operations.
Theorem C76_operations_reflexive : forall (S : StatValue) (K : operands S) (D : allowed S), operand_wise (@reflexive) D K -> reflexive (op_in D) (op_cmp K).
Proof. exact @C76_operations_reflexive_proof. Qed.
Print Assumptions C76_operations_reflexive.
Theorem C76_operations_total : forall (S : StatValue) (K : operands S) (D : allowed S), operand_wise (@total) D K -> total (op_in D) (op_cmp K).
Proof. exact @C76_operations_total_proof. Qed.
Print Assumptions C76_operations_total.
Example C76_operations_case : let K := cmp_StatInt true (prim I32) in
  operand_wise (@contract) (all_ops _) K /\ operand_wise (@reflexive) (all_ops _) K /\ operand_wise (@total) (all_ops _) K.
Proof.
  destruct C76_operands as ((A & B & C) & _ & (A' & B' & C') & _).
  cbv zeta. split; [exact (conj A (conj A (conj A' (conj A A))))|]. split; [exact (conj B (conj B (conj B' (conj B B))))|exact (conj C (conj C (conj C' (conj C C))))].
Qed.

(** Different kinds are never equal, and always ordered: as they are declared. *)
Theorem C76_kinds : forall (S : StatValue) (K : operands S) (o o' : stat_op S),
  (kind_of o <> kind_of o' -> op_eq K o o' = false) /\
  (before (kind_of o) (kind_of o') -> op_partial_cmp K o o' = Some Lt) /\
  (before (kind_of o') (kind_of o) -> op_partial_cmp K o o' = Some Gt) /\
  (kind_of o = kind_of o' \/ before (kind_of o) (kind_of o') \/ before (kind_of o') (kind_of o)).
Proof. exact C76_kinds_proof. Qed.
Print Assumptions C76_kinds.
(** Of one kind, the operands decide. *)
Theorem C76_same_kind : forall (S : StatValue) (K : operands S),
  (forall x y, op_eq K (OAdd x) (OAdd y) = c_eq (k_add K) x y /\ op_partial_cmp K (OAdd x) (OAdd y) = c_cmp (k_add K) x y) /\
  (forall x y, op_eq K (OMul x) (OMul y) = c_eq (k_mul K) x y /\ op_partial_cmp K (OMul x) (OMul y) = c_cmp (k_mul K) x y) /\
  (forall x y, op_eq K (OOr x) (OOr y) = c_eq (k_bit K) x y /\ op_partial_cmp K (OOr x) (OOr y) = c_cmp (k_bit K) x y) /\
  (forall x y, op_eq K (ONot x) (ONot y) = c_eq (k_bit K) x y /\ op_partial_cmp K (ONot x) (ONot y) = c_cmp (k_bit K) x y) /\
  (forall x y, op_eq K (OMin x) (OMin y) = c_eq (k_bound K) x y /\ op_partial_cmp K (OMin x) (OMin y) = c_cmp (k_bound K) x y) /\
  (forall x y, op_eq K (OMax x) (OMax y) = c_eq (k_bound K) x y /\ op_partial_cmp K (OMax x) (OMax y) = c_cmp (k_bound K) x y) /\
  (forall x y, op_eq K (OBase x) (OBase y) = c_eq (k_base K) x y /\ op_partial_cmp K (OBase x) (OBase y) = c_cmp (k_base K) x y).
Proof. exact C76_same_kind_proof. Qed.
Print Assumptions C76_same_kind.
(** [Add(9) < Mul(3) < Mul(4) < Base(-1)]. *)
Example C76_kinds_case : let S := statInt true (prim I32) in let K := cmp_StatInt true (prim I32) in
  before Adds Bases /\ op_partial_cmp K (@OAdd S 9) (@OMul S 3) = Some Lt /\ op_partial_cmp K (@OMul S 3) (@OMul S 4) = Some Lt /\
  op_partial_cmp K (@OBase S (-1)) (@OMul S 4) = Some Gt /\ op_eq K (@OMin S 2) (@OMax S 2) = false.
Proof. cbv zeta. split; [exists [], [Muls; Ors; Nots; Mins; Maxs], []; reflexivity|]. repeat split. Qed.

(** False: an operation equals itself. *)
Theorem C76_nan_refuted : forall prec emax Hp He, exists o : stat_op (statFloat (binF prec emax Hp He)),
  op_eq (cmp_StatFloat prec emax Hp He) o o = false /\ op_partial_cmp (cmp_StatFloat prec emax Hp He) o o = None.
Proof. exact C76_nan_refuted_proof. Qed.
Print Assumptions C76_nan_refuted.

(** Equal values after equal operations and joins with equal values are worth the same, and panic alike. *)
Theorem C76_StatInt : forall oc T, interchangeable (cmp_StatInt oc T) (quad_eq Z.eqb Z.eqb) (all_ops _) (fun _ => True) Logic.eq.
Proof. exact C76_StatInt_proof. Qed.
Print Assumptions C76_StatInt.
Theorem C76_StatIntPercentAdditive : forall oc T R s,
  interchangeable (cmp_StatIntPercentAdditive oc T R s) (quad_eq Z.eqb Z.eqb) (all_ops _) (fun _ => True) Logic.eq.
Proof. exact C76_StatIntPercentAdditive_proof. Qed.
Print Assumptions C76_StatIntPercentAdditive.
Theorem C76_StatIntPercent : forall oc T R s,
  interchangeable (cmp_StatIntPercent oc T R s) (quad_eq Z.eqb (c_eq fraction_cmp)) (all_ops _) (fun v => reduced (i_ty T) (mult v)) Logic.eq.
Proof. exact C76_StatIntPercent_proof. Qed.
Print Assumptions C76_StatIntPercent.
Theorem C76_StatIntFraction : forall oc T R,
  interchangeable (cmp_StatIntFraction oc T R) (quad_eq Z.eqb (c_eq fraction_cmp)) (frac_ops oc T R) (fun v => reduced (i_ty T) (mult v)) Logic.eq.
Proof. exact C76_StatIntFraction_proof. Qed.
Print Assumptions C76_StatIntFraction.
(** For floats: the same but for the sign of a zero. *)
Theorem C76_StatFloat : forall prec emax Hp He,
  interchangeable (cmp_StatFloat prec emax Hp He) (quad_eq Beqb Beqb) (all_ops _) (fun _ => True) same.
Proof. exact C76_StatFloat_proof. Qed.
Print Assumptions C76_StatFloat.
Theorem C76_StatFloatAdditive : forall prec emax Hp He,
  interchangeable (cmp_StatFloatAdditive prec emax Hp He) (quad_eq Beqb Beqb) (all_ops _) (fun _ => True) same.
Proof. exact C76_StatFloatAdditive_proof. Qed.
Print Assumptions C76_StatFloatAdditive.
Theorem C76_StatMult : forall prec emax Hp He,
  interchangeable (cmp_StatMult prec emax Hp He) (tri_eq (F := binF prec emax Hp He) Beqb) (all_ops _) (fun _ => True) same.
Proof. exact C76_StatMult_proof. Qed.
Print Assumptions C76_StatMult.
(** Not even that once it is rounded to an integer. *)
Theorem C76_StatIntFloatMul : forall prec emax Hp He oc t R,
  interchangeable (cmp_StatIntFloatMul prec emax Hp He oc t R) (quad_eq Z.eqb Beqb) (all_ops _) (fun _ => True) Logic.eq.
Proof. exact C76_StatIntFloatMul_proof. Qed.
Print Assumptions C76_StatIntFloatMul.
Theorem C76_Fraction_StatFloat : forall oc t,
  interchangeable (cmp_StatFloat_Fraction oc t) (quad_eq (c_eq fraction_cmp) (c_eq fraction_cmp)) (float_frac_ops oc t) (quad_reduced t) Logic.eq.
Proof. exact C76_Fraction_StatFloat_proof. Qed.
Print Assumptions C76_Fraction_StatFloat.
Theorem C76_Fraction_StatFloatAdditive : forall oc t,
  interchangeable (cmp_StatFloatAdditive_Fraction oc t) (quad_eq (c_eq fraction_cmp) (c_eq fraction_cmp)) (additive_frac_ops oc t) (quad_reduced t) Logic.eq.
Proof. exact C76_Fraction_StatFloatAdditive_proof. Qed.
Print Assumptions C76_Fraction_StatFloatAdditive.
Theorem C76_Fraction_StatMult : forall oc t,
  interchangeable (cmp_StatMult_Fraction oc t) (tri_eq (F := fracF oc t) (c_eq fraction_cmp)) (mult_frac_ops oc t) (tri_reduced oc t) Logic.eq.
Proof. exact C76_Fraction_StatMult_proof. Qed.
Print Assumptions C76_Fraction_StatMult.
(** [3 * 0.0 + ...]: a zero of the other sign in the value, in an operation and in a join. *)
Example C76_values_case :
  quad_eq (A := f32) Beqb Beqb (zero_stat false) (zero_stat true) = true /\
  Forall2 (step_equal (cmp_StatFloat 24 128 prec24 emax128) (quad_eq Beqb Beqb)) (zero_steps false) (zero_steps true) /\
  zero_worth false = Done (Some false) /\ zero_worth true = Done (Some true).
Proof. split; [reflexivity|]. split; [repeat constructor|]. split; reflexivity. Qed.
Example C76_fraction_case :
  quad_eq Z.eqb (c_eq fraction_cmp) (Quad 10 (-128) 127 (Frac 2 3)) (Quad 10 (-128) 127 (Frac 2 3)) = true /\ reduced I8 (Frac 2 3) /\
  (let! v := steps (S := statIntFraction true (prim I8) Round) (Quad 10 (-128) 127 (Frac 2 3)) [Write (@OMul (statIntFraction true (prim I8) Round) (Frac 1 4))] in
   sv_eval (statIntFraction true (prim I8) Round) v) = Done 2.
Proof. split; [reflexivity|]. split; [repeat split; cbn; intros; discriminate|reflexivity]. Qed.

(** False of fractions that are not in lowest terms, which documents may hold (C62_fraction_refuted) and [DerefMut] may assign: 100/50 and 2/1
    are equal, and adding 1/3 overflows for one of them. *)
Theorem C76_unreduced_refuted : exists v w : quad ratio ratio,
  quad_eq (c_eq fraction_cmp) (c_eq fraction_cmp) v w = true /\
  (let! x := steps (S := statFloat (fracF true I8)) v [Write (@OAdd (statFloat (fracF true I8)) (Frac 1 3))] in sv_eval (statFloat (fracF true I8)) x) = Panics POverflow /\
  (let! x := steps (S := statFloat (fracF true I8)) w [Write (@OAdd (statFloat (fracF true I8)) (Frac 1 3))] in sv_eval (statFloat (fracF true I8)) x) = Done (Frac 7 3).
Proof. exact C76_unreduced_refuted_proof. Qed.
Print Assumptions C76_unreduced_refuted.
