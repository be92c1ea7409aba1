(** More granted: float stats over fractions. *)
From Coq Require Import ZArith QArith List.
From Verif Require Import M_Outcome M_Ints M_Ratio M_Float M_Value M_Types S_Ratio S_Types S_Totals S_Monotone.
Import ListNotations.
Local Open Scope Z_scope.

(** Of every operation that took part, also those that were discarded by a later base. *)
Fixpoint every {S : StatValue} (ok : stat_op S -> Prop) (h : history S) : Prop :=
  match h with
  | FromDefault => True
  | FromBase b => ok (OBase b)
  | Applied h o => every ok h /\ ok o
  | Joined h k => every ok h /\ every ok k
  end.

Section Fractions.
  Variables (oc : bool) (t : ity).
  Let F := fracF oc t.
  (** The operand is a fraction in lowest terms. *)
  Definition float_op_ok (o : stat_op (statFloat F)) : Prop :=
    match o with OAdd x | OMul x | OMin x | OMax x | OBase x => reduced t x | OOr _ | ONot _ => True end.
  Definition floatadd_op_ok (o : stat_op (statFloatAdditive F)) : Prop :=
    match o with OAdd x | OMul x | OMin x | OMax x | OBase x => reduced t x | OOr _ | ONot _ => True end.
  Definition mult_op_ok (o : stat_op (statMult F)) : Prop :=
    match o with OMul x | OMin x | OMax x | OBase x => reduced t x | OAdd _ | OOr _ | ONot _ => True end.

  Definition fracfloat_merits (raise : bool) : merits (statFloat F) := {|
    better_add := frac_le : addT (statFloat F) -> _ -> Prop;
    better_mul := fun x y : ratio => 0 <= numer x /\ upto raise frac_le x y;
    better_bound := frac_le : boundsT (statFloat F) -> _ -> Prop;
    better_base := frac_le : baseT (statFloat F) -> _ -> Prop;
    gain_add := fun x : ratio => 0 <= numer x; loss_add := fun x : ratio => numer x <= 0;
    gain_mul := fun x : ratio => upto raise frac_le (Frac 1 1) x; loss_mul := fun x : ratio => 0 <= numer x /\ upto raise frac_le x (Frac 1 1);
    gain_base := fun x : ratio => 0 <= numer x; loss_base := fun x : ratio => numer x <= 0
  |}.
  Definition fracadd_merits (raise : bool) : merits (statFloatAdditive F) := {|
    better_add := frac_le : addT (statFloatAdditive F) -> _ -> Prop;
    better_mul := upto raise frac_le : mulT (statFloatAdditive F) -> _ -> Prop;
    better_bound := frac_le : boundsT (statFloatAdditive F) -> _ -> Prop;
    better_base := frac_le : baseT (statFloatAdditive F) -> _ -> Prop;
    gain_add := fun x : ratio => 0 <= numer x; loss_add := fun x : ratio => numer x <= 0;
    gain_mul := fun x : ratio => upto raise frac_le (Frac 0 1) x; loss_mul := fun x : ratio => upto raise frac_le x (Frac 0 1);
    gain_base := fun x : ratio => 0 <= numer x; loss_base := fun x : ratio => numer x <= 0
  |}.
  Definition fracmult_merits : merits (statMult F) := {|
    better_add := (fun _ _ => False) : addT (statMult F) -> addT (statMult F) -> Prop;
    better_mul := fun x y : ratio => 0 <= numer x /\ frac_le x y;
    better_bound := frac_le : boundsT (statMult F) -> _ -> Prop;
    better_base := fun x y : ratio => 0 <= numer x /\ frac_le x y;
    gain_add := fun _ => False; loss_add := fun _ => False;
    gain_mul := fun x : ratio => frac_le (Frac 1 1) x; loss_mul := fun x : ratio => 0 <= numer x /\ frac_le x (Frac 1 1);
    gain_base := fun x : ratio => frac_le (Frac 1 1) x; loss_base := fun x : ratio => 0 <= numer x /\ frac_le x (Frac 1 1)
  |}.
End Fractions.
