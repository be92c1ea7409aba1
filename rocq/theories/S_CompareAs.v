(** What the operands of the provided types are compared as. *)
From Coq Require Import ZArith QArith List Bool.
From Flocq Require Import Core BinarySingleNaN.
From Verif Require Import M_Outcome M_Ints M_Ratio M_Float M_Value M_Types M_Compare S_Ratio.
Local Open Scope Z_scope.

(** As integers, as the rationals that fractions stand for, as IEEE 754 tells of floats. *)
Definition as_ints (c : comparing Z) : Prop := forall x y, (c_eq c x y = true <-> x = y) /\ c_cmp c x y = Some (x ?= y).
Definition as_rationals (c : comparing ratio) : Prop := forall x y, 0 < denom x -> 0 < denom y ->
  (c_eq c x y = true <-> (toQ x == toQ y)%Q) /\ c_cmp c x y = Some (toQ x ?= toQ y)%Q.
Definition as_floats {prec emax} (c : comparing (binary_float prec emax)) : Prop := forall x y,
  (c_eq c x y = true <-> Bcompare x y = Some Eq) /\ c_cmp c x y = Bcompare x y.
