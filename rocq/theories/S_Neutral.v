(** Which values of the float stats the default leaves alone. *)
From Coq Require Import ZArith List Bool.
From Flocq Require Import Core BinarySingleNaN.
From Verif Require Import M_Outcome M_Ints M_Ratio M_Float M_Value M_Types S_Ratio S_Types.
Local Open Scope Z_scope.

Section Settled.
  Context {prec emax : Z}.
  Let bf := binary_float prec emax.

  (** Not [-0.0]: [-0.0 + 0.0] is [0.0]. *)
  Definition unsigned_zero (x : bf) : Prop := x <> B754_zero true.
  (** A lower bound that counts: neither NaN nor below every number; an upper bound likewise. *)
  Definition lower_counts (x : bf) : Prop := x <> B754_nan /\ x <> B754_infinity true.
  Definition upper_counts (x : bf) : Prop := x <> B754_nan /\ x <> B754_infinity false.
End Settled.

Definition settled_float {prec emax} (v : quad (binary_float prec emax) (binary_float prec emax)) : Prop :=
  unsigned_zero (addend v) /\ lower_counts (vmin v) /\ upper_counts (vmax v).
Definition settled_additive {prec emax} (v : quad (binary_float prec emax) (binary_float prec emax)) : Prop :=
  settled_float v /\ unsigned_zero (mult v).
Definition settled_mult {prec emax Hp He} (v : tri (binF prec emax Hp He)) : Prop :=
  lower_counts (prec := prec) (emax := emax) (t_min v) /\ upper_counts (prec := prec) (emax := emax) (t_max v).
