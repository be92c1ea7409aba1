(** What it means that more was granted to one value than to another. *)
From Coq Require Import ZArith QArith List.
From Flocq Require Import Core BinarySingleNaN.
From Verif Require Import M_Outcome M_Ints M_Ratio M_Float M_Value M_Types S_Ratio S_Types S_Totals.
Import ListNotations.
Local Open Scope Z_scope.

(** When an operand is as good as another, and when granting one is no loss or no gain. *)
Record merits (S : StatValue) : Type := {
  better_add : addT S -> addT S -> Prop;
  better_mul : mulT S -> mulT S -> Prop;
  better_bound : boundsT S -> boundsT S -> Prop;
  better_base : baseT S -> baseT S -> Prop;
  gain_add : addT S -> Prop; loss_add : addT S -> Prop;
  gain_mul : mulT S -> Prop; loss_mul : mulT S -> Prop;
  gain_base : baseT S -> Prop; loss_base : baseT S -> Prop
}.
Arguments better_add {S}. Arguments better_mul {S}. Arguments better_bound {S}. Arguments better_base {S}.
Arguments gain_add {S}. Arguments loss_add {S}. Arguments gain_mul {S}. Arguments loss_mul {S}.
Arguments gain_base {S}. Arguments loss_base {S}.

Section Improved.
  Context {S : StatValue} (O : merits S).
  Definition better_op (o o' : stat_op S) : Prop :=
    match o, o' with
    | OAdd x, OAdd y => better_add O x y
    | OMul x, OMul y => better_mul O x y
    | OMin x, OMin y => better_bound O x y
    | OMax x, OMax y => better_bound O x y
    | OBase x, OBase y => better_base O x y
    | _, _ => False
    end.
  (** A lower bound is never a loss, an upper bound never a gain. *)
  Definition gain (o : stat_op S) : Prop :=
    match o with OAdd x => gain_add O x | OMul x => gain_mul O x | OMin _ => True | _ => False end.
  Definition loss (o : stat_op S) : Prop :=
    match o with OAdd x => loss_add O x | OMul x => loss_mul O x | OMax _ => True | _ => False end.

  (** [improved h k]: [k] is [h] with operands replaced by better ones, with gains put in and losses left out
      anywhere. *)
  Inductive improved : history S -> history S -> Prop :=
  | im_default : improved FromDefault FromDefault
  | im_base b b' : better_base O b b' -> improved (FromBase b) (FromBase b')
  | im_based b : gain_base O b -> improved FromDefault (FromBase b)
  | im_unbased b : loss_base O b -> improved (FromBase b) FromDefault
  | im_op h k o o' : improved h k -> better_op o o' -> improved (Applied h o) (Applied k o')
  | im_rebase h k b b' : better_base O b b' -> improved (Applied h (OBase b)) (Applied k (OBase b'))
  | im_gain h k o : improved h k -> gain o -> improved h (Applied k o)
  | im_loss h k o : improved h k -> loss o -> improved (Applied h o) k
  | im_join h k i j : improved h k -> improved i j -> improved (Joined h i) (Joined k j)
  | im_joined h k j : improved h k -> improved FromDefault j -> improved h (Joined k j)
  | im_unjoined h k i : improved h k -> improved i FromDefault -> improved (Joined h i) k.
End Improved.

(** Arithmetic that overflows loudly or saturates. *)
Definition keeps_order (oc : bool) (T : intp) : Prop :=
  i_flav T = FSaturating \/ i_flav T = FPrim /\ oc = true.

(** With [raise] multipliers may be improved too, else they stay as they are. *)
Definition upto {A : Type} (raise : bool) (le : A -> A -> Prop) (x y : A) : Prop :=
  if raise then le x y else x = y.

(** Multipliers of [StatInt] are not negative; 1 is neutral. *)
Definition int_merits (raise : bool) (oc : bool) (T : intp) : merits (statInt oc T) := {|
  better_add := Z.le : addT (statInt oc T) -> _ -> Prop;
  better_mul := fun x y : Z => 0 <= x /\ upto raise Z.le x y;
  better_bound := Z.le : boundsT (statInt oc T) -> _ -> Prop;
  better_base := fun x y : Z => z_ok T x /\ z_ok T y /\ x <= y;
  gain_add := fun x : Z => 0 <= x; loss_add := fun x : Z => x <= 0;
  gain_mul := fun x : Z => upto raise Z.le 1 x; loss_mul := fun x : Z => 0 <= x /\ upto raise Z.le x 1;
  gain_base := fun x : Z => z_ok T x /\ 0 <= x; loss_base := fun x : Z => z_ok T x /\ x <= 0
|}.
(** Percentages that are added; 0 is neutral. *)
Definition pct_merits (raise : bool) (oc : bool) (T : intp) R scale : merits (statPctAdd oc T R scale) := {|
  better_add := Z.le : addT (statPctAdd oc T R scale) -> _ -> Prop;
  better_mul := upto raise Z.le : mulT (statPctAdd oc T R scale) -> _ -> Prop;
  better_bound := Z.le : boundsT (statPctAdd oc T R scale) -> _ -> Prop;
  better_base := fun x y : Z => z_ok T x /\ z_ok T y /\ x <= y;
  gain_add := fun x : Z => 0 <= x; loss_add := fun x : Z => x <= 0;
  gain_mul := fun x : Z => upto raise Z.le 0 x; loss_mul := fun x : Z => upto raise Z.le x 0;
  gain_base := fun x : Z => z_ok T x /\ 0 <= x; loss_base := fun x : Z => z_ok T x /\ x <= 0
|}.
(** Fractions; not negative. *)
Definition frac_le (x y : ratio) : Prop := (toQ x <= toQ y)%Q.
Definition frac_merits (raise : bool) (oc : bool) (T : intp) R : merits (statIntFraction oc T R) := {|
  better_add := Z.le : addT (statIntFraction oc T R) -> _ -> Prop;
  better_mul := fun x y : ratio => reduced (i_ty T) x /\ reduced (i_ty T) y /\ 0 <= numer x /\ upto raise frac_le x y;
  better_bound := Z.le : boundsT (statIntFraction oc T R) -> _ -> Prop;
  better_base := fun x y : Z => z_ok T x /\ z_ok T y /\ x <= y;
  gain_add := fun x : Z => 0 <= x; loss_add := fun x : Z => x <= 0;
  gain_mul := fun x : ratio => reduced (i_ty T) x /\ upto raise frac_le (Frac 1 1) x;
  loss_mul := fun x : ratio => reduced (i_ty T) x /\ 0 <= numer x /\ upto raise frac_le x (Frac 1 1);
  gain_base := fun x : Z => z_ok T x /\ 0 <= x; loss_base := fun x : Z => z_ok T x /\ x <= 0
|}.

(** Floats. [x <= y] is false if one of them is NaN. *)
Section Floats.
  Variables prec emax : Z.
  Context (Hp : Prec_gt_0 prec) (He : Prec_lt_emax prec emax).
  Let bf := binary_float prec emax.
  Let F := binF prec emax Hp He.
  Definition fle (x y : bf) : Prop := Bleb x y = true.
  Definition f_upto (raise : bool) (x y : bf) : Prop := (if raise then Bleb x y else Beqb x y) = true.
  Let zero : bf := B754_zero false.
  Let one : bf := b_one prec emax Hp He.
  Definition float_merits (raise : bool) : merits (statFloat F) := {|
    better_add := fle : addT (statFloat F) -> _ -> Prop;
    better_mul := fun x y : bf => fle zero x /\ f_upto raise x y;
    better_bound := fle : boundsT (statFloat F) -> _ -> Prop;
    better_base := fle : baseT (statFloat F) -> _ -> Prop;
    gain_add := fun x : bf => fle zero x; loss_add := fun x : bf => fle x zero;
    gain_mul := fun x : bf => f_upto raise one x; loss_mul := fun x : bf => fle zero x /\ f_upto raise x one;
    gain_base := fun x : bf => fle zero x; loss_base := fun x : bf => fle x zero
  |}.
  Definition floatadd_merits (raise : bool) : merits (statFloatAdditive F) := {|
    better_add := fle : addT (statFloatAdditive F) -> _ -> Prop;
    better_mul := f_upto raise : mulT (statFloatAdditive F) -> _ -> Prop;
    better_bound := fle : boundsT (statFloatAdditive F) -> _ -> Prop;
    better_base := fle : baseT (statFloatAdditive F) -> _ -> Prop;
    gain_add := fun x : bf => fle zero x; loss_add := fun x : bf => fle x zero;
    gain_mul := fun x : bf => f_upto raise zero x; loss_mul := fun x : bf => f_upto raise x zero;
    gain_base := fun x : bf => fle zero x; loss_base := fun x : bf => fle x zero
  |}.
  (** [StatMult] is its multiplier. *)
  Definition mult_merits : merits (statMult F) := {|
    better_add := (fun _ _ => False) : addT (statMult F) -> addT (statMult F) -> Prop;
    better_mul := fun x y : bf => fle zero x /\ fle x y;
    better_bound := fle : boundsT (statMult F) -> _ -> Prop;
    better_base := fun x y : bf => fle zero x /\ fle x y;
    gain_add := fun _ => False; loss_add := fun _ => False;
    gain_mul := fun x : bf => fle one x; loss_mul := fun x : bf => fle zero x /\ fle x one;
    gain_base := fun x : bf => fle one x; loss_base := fun x : bf => fle zero x /\ fle x one
  |}.
  Definition intfloat_merits (raise : bool) (oc : bool) (t : ity) R : merits (statIntFloatMul prec emax Hp He oc t R) := {|
    better_add := Z.le : addT (statIntFloatMul prec emax Hp He oc t R) -> _ -> Prop;
    better_mul := fun x y : bf => fle zero x /\ f_upto raise x y;
    better_bound := Z.le : boundsT (statIntFloatMul prec emax Hp He oc t R) -> _ -> Prop;
    better_base := fun x y : Z => z_ok (prim t) x /\ z_ok (prim t) y /\ x <= y;
    gain_add := fun x : Z => 0 <= x; loss_add := fun x : Z => x <= 0;
    gain_mul := fun x : bf => f_upto raise one x; loss_mul := fun x : bf => fle zero x /\ f_upto raise x one;
    gain_base := fun x : Z => z_ok (prim t) x /\ 0 <= x; loss_base := fun x : Z => z_ok (prim t) x /\ x <= 0
  |}.
End Floats.
Arguments fle {prec emax}. Arguments f_upto {prec emax}.
