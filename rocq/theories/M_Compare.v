(** The derived comparisons of operations and values: [PartialEq] and [PartialOrd] of [StatOperation]
    (src/operations.rs:5), [PartialEq] of [Fraction] (src/num_traits.rs:286-288), [StatInt], [StatIntFraction],
    [StatIntFloatMul] (src/types/int_ratio.rs:13, 81, 158), [StatIntPercentAdditive], [StatIntPercent]
    (src/types/int_pct.rs:13, 89), [StatFloat], [StatFloatAdditive] and [StatMult] (src/types/float.rs:7, 75, 145). *)
From Coq Require Import ZArith List Bool.
From Flocq Require Import Core BinarySingleNaN.
From Verif Require Import M_Outcome M_Ints M_Ratio M_Float M_Value M_Types M_Qualifier.
Local Open Scope Z_scope.

(** [PartialEq::eq] and [PartialOrd::partial_cmp] of a type. *)
Record comparing (A : Type) : Type := Comparing { c_eq : A -> A -> bool; c_cmp : A -> A -> option comparison }.
Arguments Comparing {A}.
Arguments c_eq {A}.
Arguments c_cmp {A}.

(** Integers, [bool], floats, and [Unsupported], which has no values (src/operations.rs:41-42). *)
Definition int_cmp : comparing Z := Comparing Z.eqb (fun x y => Some (Z.compare x y)).
Definition bool_cmp : comparing bool := Comparing Bool.eqb (fun x y => Some (bool_compare x y)).
Definition float_cmp (prec emax : Z) : comparing (binary_float prec emax) := Comparing Beqb Bcompare.
Definition never_cmp : comparing Empty_set := Comparing (fun x _ : Empty_set => match x with end) (fun x _ : Empty_set => match x with end).
(** [Fraction] compares as [num_rational::Ratio]: [eq] is [cmp == Equal]. *)
Definition fraction_cmp : comparing ratio :=
  Comparing (fun x y => match r_cmp x y with Eq => true | _ => false end) (fun x y => Some (r_cmp x y)).

Section Operations.
  Context {S : StatValue}.
  (** The comparisons of the operands. *)
  Record operands : Type := Operands {
    k_add : comparing (addT S); k_mul : comparing (mulT S); k_bit : comparing (bitT S);
    k_bound : comparing (boundsT S); k_base : comparing (baseT S)
  }.
  (** The discriminant: the position in the declaration (6-14). *)
  Definition discriminant (o : stat_op S) : Z :=
    match o with OAdd _ => 0 | OMul _ => 1 | OOr _ => 2 | ONot _ => 3 | OMin _ => 4 | OMax _ => 5 | OBase _ => 6 end.
  Variable K : operands.
  (** Derived [PartialEq]: same variant and equal operands. *)
  Definition op_eq (o o' : stat_op S) : bool :=
    match o, o' with
    | OAdd x, OAdd y => c_eq (k_add K) x y
    | OMul x, OMul y => c_eq (k_mul K) x y
    | OOr x, OOr y => c_eq (k_bit K) x y
    | ONot x, ONot y => c_eq (k_bit K) x y
    | OMin x, OMin y => c_eq (k_bound K) x y
    | OMax x, OMax y => c_eq (k_bound K) x y
    | OBase x, OBase y => c_eq (k_base K) x y
    | _, _ => false
    end.
  (** Derived [PartialOrd]: operands of the same variant, else the discriminants. *)
  Definition op_partial_cmp (o o' : stat_op S) : option comparison :=
    match o, o' with
    | OAdd x, OAdd y => c_cmp (k_add K) x y
    | OMul x, OMul y => c_cmp (k_mul K) x y
    | OOr x, OOr y => c_cmp (k_bit K) x y
    | ONot x, ONot y => c_cmp (k_bit K) x y
    | OMin x, OMin y => c_cmp (k_bound K) x y
    | OMax x, OMax y => c_cmp (k_bound K) x y
    | OBase x, OBase y => c_cmp (k_base K) x y
    | _, _ => Some (Z.compare (discriminant o) (discriminant o'))
    end.
  Definition op_cmp : comparing (stat_op S) := Comparing op_eq op_partial_cmp.
End Operations.
Arguments operands : clear implicits.
Arguments Operands {S}.

(** Derived [PartialEq] of the values: every field. *)
Definition quad_eq {A M} (eq_a : A -> A -> bool) (eq_m : M -> M -> bool) (v w : quad A M) : bool :=
  eq_a (addend v) (addend w) && eq_a (vmin v) (vmin w) && eq_a (vmax v) (vmax w) && eq_m (mult v) (mult w).
Definition tri_eq {F : FloatT} (eq_f : fcar F -> fcar F -> bool) (v w : tri F) : bool :=
  eq_f (t_min v) (t_min w) && eq_f (t_max v) (t_max w) && eq_f (t_mult v) (t_mult w).

(** The comparisons of the provided types and of their operations. *)
Definition cmp_StatInt oc T : operands (statInt oc T) := @Operands (statInt oc T) int_cmp int_cmp never_cmp int_cmp int_cmp.
Definition cmp_StatIntPercentAdditive oc T R s : operands (statPctAdd oc T R s) := @Operands (statPctAdd oc T R s) int_cmp int_cmp never_cmp int_cmp int_cmp.
Definition cmp_StatIntPercent oc T R s : operands (statPct oc T R s) := @Operands (statPct oc T R s) int_cmp int_cmp never_cmp int_cmp int_cmp.
Definition cmp_StatIntFraction oc T R : operands (statIntFraction oc T R) := @Operands (statIntFraction oc T R) int_cmp fraction_cmp never_cmp int_cmp int_cmp.
Section Floats.
  Variables prec emax : Z.
  Context (Hp : Prec_gt_0 prec) (He : Prec_lt_emax prec emax).
  Let F := binF prec emax Hp He.
  Definition cmp_StatIntFloatMul oc t R : operands (statIntFloatMul prec emax Hp He oc t R) :=
    @Operands (statIntFloatMul prec emax Hp He oc t R) int_cmp (float_cmp prec emax) never_cmp int_cmp int_cmp.
  Definition cmp_StatFloat : operands (statFloat F) :=
    @Operands (statFloat F) (float_cmp prec emax) (float_cmp prec emax) never_cmp (float_cmp prec emax) (float_cmp prec emax).
  Definition cmp_StatFloatAdditive : operands (statFloatAdditive F) :=
    @Operands (statFloatAdditive F) (float_cmp prec emax) (float_cmp prec emax) never_cmp (float_cmp prec emax) (float_cmp prec emax).
  Definition cmp_StatMult : operands (statMult F) :=
    @Operands (statMult F) never_cmp (float_cmp prec emax) never_cmp (float_cmp prec emax) (float_cmp prec emax).
End Floats.
Section Fractions.
  Variables (oc : bool) (t : ity).
  Let F := fracF oc t.
  Definition cmp_StatFloat_Fraction : operands (statFloat F) := @Operands (statFloat F) fraction_cmp fraction_cmp never_cmp fraction_cmp fraction_cmp.
  Definition cmp_StatFloatAdditive_Fraction : operands (statFloatAdditive F) :=
    @Operands (statFloatAdditive F) fraction_cmp fraction_cmp never_cmp fraction_cmp fraction_cmp.
  Definition cmp_StatMult_Fraction : operands (statMult F) := @Operands (statMult F) never_cmp fraction_cmp never_cmp fraction_cmp fraction_cmp.
End Fractions.
