(** What a float stat is worth, in real numbers, read off the list of everything that went into it. *)
From Coq Require Import ZArith Reals List.
From Flocq Require Import Core BinarySingleNaN.
From Verif Require Import M_Outcome M_Ints M_Float M_Value M_Types S_Types S_Float S_Totals.
Import ListNotations.
Local Open Scope Z_scope.

Section FloatTotals.
  Variables prec emax : Z.
  Let bf := binary_float prec emax.

  (** The exact sum, the sum of the sizes, the exact product. *)
  Definition total (l : list bf) : R := fold_right (fun x s => B2R x + s)%R 0%R l.
  Definition weight (l : list bf) : R := fold_right (fun x s => Rabs (B2R x) + s)%R 0%R l.
  Definition outcome_of (l : list bf) : R := fold_right (fun x p => B2R x * p)%R 1%R l.
  (** How far from 1 the product of some of the factors can get, in either direction. *)
  Definition reach (x : R) : R := if Req_bool x 0 then 1%R else Rmax (Rabs x) (/ Rabs x).
  Definition spread (l : list bf) : R := fold_right (fun x p => reach (B2R x) * p)%R 1%R l.

  Definition finite_all (l : list bf) : Prop := Forall (fun x => is_finite x = true) l.
  (** At most 2^(prec - 2) contributions: four million of [f32]. *)
  Definition few (l : list bf) : Prop := (INR (length l) <= bpow radix2 (prec - 2))%R.
  (** Sums stay clear of overflow; products stay clear of overflow and of the smallest numbers. *)
  Definition summable (l : list bf) : Prop :=
    finite_all l /\ few l /\ (weight l <= bpow radix2 (emax - 2))%R.
  Definition multipliable (l : list bf) : Prop :=
    finite_all l /\ few l /\ (spread l <= bpow radix2 (emax - 4))%R.

  (** One unit in the last place per contribution, of the sum of the sizes or of the product. *)
  Definition near_total (l : list bf) (x : R) : Prop :=
    (Rabs (x - total l) <= INR (length l) * bpow radix2 (1 - prec) * weight l)%R.
  Definition near_product (l : list bf) (x : R) : Prop :=
    (Rabs (x - outcome_of l) <= INR (length l) * bpow radix2 (1 - prec) * Rabs (outcome_of l))%R.

  (** Multiples of [2^e] whose sizes add up to no more than [2^(prec + e)]. *)
  Definition on_grid (e : Z) (l : list bf) : Prop :=
    3 - emax - prec <= e < emax - prec /\ finite_all l /\
    Forall (fun x => exists z, B2R x = (IZR z * bpow radix2 e)%R) l /\
    (weight l <= bpow radix2 (prec + e))%R.
  (** Short fractions: [z * 2^e] with the [z] multiplying to no more than [2^prec]. *)
  Definition short (l : list bf) : Prop :=
    finite_all l /\ exists zs : list (Z * Z),
      Forall2 (fun x q => B2R x = (IZR (fst q) * bpow radix2 (snd q))%R) l zs /\
      room_mul (map fst zs) <= 2 ^ prec /\ room (map snd zs) < emax - prec.

  (** [x] brought below the upper bounds, then above the lower ones; the largest finite number and
      its negative are always among them. *)
  Definition limit : R := (bpow radix2 emax - bpow radix2 (emax - prec))%R.
  Definition clamped (los his : list bf) (x : R) : R :=
    Rmax (Rmin x (least limit his)) (most (- limit) los).
End FloatTotals.
Arguments total {prec emax}.
Arguments weight {prec emax}.
Arguments outcome_of {prec emax}.
Arguments spread {prec emax}.
Arguments finite_all {prec emax}.
Arguments few {prec emax}.
Arguments summable {prec emax}.
Arguments multipliable {prec emax}.
Arguments near_total {prec emax}.
Arguments near_product {prec emax}.
Arguments on_grid {prec emax}.
Arguments short {prec emax}.
Arguments clamped {prec emax}.

(** The multipliers of a stat whose base is itself a multiplier. *)
Definition scales {S : StatValue} {A : Type} (h : history S) (mul : mulT S -> A) (base : baseT S -> A) : list A :=
  gathered (fun o => match o with OMul x => [mul x] | OBase x => [base x] | _ => [] end) h.

(** Numbers for examples: an integer, and half of an integer, in [f32]. *)
Definition f32_int (z : Z) : f32 := b_of_int 24 128 prec24 emax128 z.
Definition f32_half (z : Z) : f32 := binary_normalize 24 128 prec24 emax128 mode_NE z (-1) false.
