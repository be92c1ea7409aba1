(** Of the provided types: operands and values whose fractions are in lowest terms. *)
From Coq Require Import ZArith List Bool.
From Verif Require Import M_Outcome M_Ints M_Ratio M_Float M_Value M_Types M_Compare S_Ratio S_Compare.
Local Open Scope Z_scope.

Definition frac_ops oc T R : allowed (statIntFraction oc T R) :=
  @Allowed (statIntFraction oc T R) (anything _) (reduced (i_ty T)) (anything _) (anything _) (anything _).
Definition quad_reduced (t : ity) (v : quad ratio ratio) : Prop :=
  reduced t (addend v) /\ reduced t (vmin v) /\ reduced t (vmax v) /\ reduced t (mult v).
Definition tri_reduced oc (t : ity) (v : tri (fracF oc t)) : Prop := reduced t (t_min v) /\ reduced t (t_max v) /\ reduced t (t_mult v).
Definition float_frac_ops oc t : allowed (statFloat (fracF oc t)) :=
  @Allowed (statFloat (fracF oc t)) (reduced t) (reduced t) (anything _) (reduced t) (reduced t).
Definition additive_frac_ops oc t : allowed (statFloatAdditive (fracF oc t)) :=
  @Allowed (statFloatAdditive (fracF oc t)) (reduced t) (reduced t) (anything _) (reduced t) (reduced t).
Definition mult_frac_ops oc t : allowed (statMult (fracF oc t)) :=
  @Allowed (statMult (fracF oc t)) (anything _) (reduced t) (anything _) (reduced t) (reduced t).
