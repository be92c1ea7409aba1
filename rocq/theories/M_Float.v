(** The [Float] trait (src/num_traits.rs:204-281, 359-388) and its instances
    [f32], [f64] and [Fraction<I>]; the rounding modes of src/rounding.rs. *)
From Coq Require Import ZArith List Bool.
From Flocq Require Import Core BinarySingleNaN.
From Verif Require Import M_Outcome M_Ints M_Ratio.
Local Open Scope Z_scope.

(** [trait Float] (src/num_traits.rs:205-219): what value types and rounding use of it.
    [f_ltb] is [PartialOrd::lt]. *)
Record FloatT : Type := {
  fcar : Type;
  f_zero : fcar; f_one : fcar; f_minv : fcar; f_maxv : fcar;
  f_add : fcar -> fcar -> outcome fcar;
  f_sub : fcar -> fcar -> outcome fcar;
  f_mul : fcar -> fcar -> outcome fcar;
  f_min : fcar -> fcar -> fcar;
  f_max : fcar -> fcar -> fcar;
  f_floor : fcar -> outcome fcar;
  f_ceil : fcar -> outcome fcar;
  f_trunc : fcar -> outcome fcar;
  f_round : fcar -> outcome fcar;
  f_ltb : fcar -> fcar -> bool
}.

(** [impl Float for Fraction<I>] (src/num_traits.rs:359-388). *)
Definition fracF (oc : bool) (t : ity) : FloatT := {|
  fcar := ratio;
  f_zero := r_int 0; f_one := r_int 1; f_minv := r_int (imin t); f_maxv := r_int (imax t);
  f_add := r_add oc t; f_sub := r_sub oc t; f_mul := r_mul oc t;
  f_min := r_min; f_max := r_max;
  f_floor := r_floor oc t; f_ceil := r_ceil oc t; f_trunc := r_trunc t; f_round := r_round oc t;
  f_ltb := r_ltb
|}.

(** IEEE 754 binary floats with round to nearest even and one NaN. *)
Section BinFloat.
  Variables prec emax : Z.
  Context (Hp : Prec_gt_0 prec) (He : Prec_lt_emax prec emax).
  Let bf := binary_float prec emax.

  (** [f32::min]: "If one of the arguments is NaN, then the other argument is returned."
      For equal operands (including zeros of either sign, where std leaves the choice open)
      the first is returned. *)
  Definition b_min (x y : bf) : bf :=
    if is_nan x then y else if is_nan y then x else if Bltb y x then y else x.
  Definition b_max (x y : bf) : bf :=
    if is_nan x then y else if is_nan y then x else if Bltb x y then y else x.

  (** [1.0], [MAX], [MIN]. *)
  Definition b_one : bf := Bone (prec := prec) (emax := emax).
  Definition b_maxv : bf := Bmax_float (prec := prec) (emax := emax).
  Definition b_minv : bf := Bopp b_maxv.

  (** [impl Float for f32]/[f64] (src/num_traits.rs:221-281).
      [round] of std rounds half away from zero ([mode_NA]). *)
  Definition binF : FloatT := {|
    fcar := bf;
    f_zero := B754_zero false; f_one := b_one; f_minv := b_minv; f_maxv := b_maxv;
    f_add := fun x y => Done (Bplus mode_NE x y);
    f_sub := fun x y => Done (Bminus mode_NE x y);
    f_mul := fun x y => Done (Bmult mode_NE x y);
    f_min := b_min; f_max := b_max;
    f_floor := fun x => Done (Bnearbyint mode_DN x);
    f_ceil := fun x => Done (Bnearbyint mode_UP x);
    f_trunc := fun x => Done (Bnearbyint mode_ZR x);
    f_round := fun x => Done (Bnearbyint mode_NA x);
    f_ltb := fun x y => Bltb x y
  |}.

  (** [x as f32] for an integer [x] (num_traits [AsPrimitive]): nearest, ties to even. *)
  Definition b_of_int (z : Z) : bf := binary_normalize prec emax _ _ mode_NE z 0 false.

  (** [x as T] for a float [x]: NaN becomes 0, out of range saturates, else truncates. *)
  Definition b_to_int (t : ity) (x : bf) : Z :=
    match x with
    | B754_nan => 0
    | B754_infinity s => if s then imin t else imax t
    | _ => sat t (Btrunc x)
    end.
End BinFloat.

Lemma prec24 : Prec_gt_0 24. Proof. reflexivity. Qed.
Lemma prec53 : Prec_gt_0 53. Proof. reflexivity. Qed.
Lemma emax128 : Prec_lt_emax 24 128. Proof. reflexivity. Qed.
Lemma emax1024 : Prec_lt_emax 53 1024. Proof. reflexivity. Qed.

Definition f32 : Type := binary_float 24 128.
Definition f64 : Type := binary_float 53 1024.
Definition f32F : FloatT := binF 24 128 prec24 emax128.
Definition f64F : FloatT := binF 53 1024 prec53 emax1024.

(** src/rounding.rs:11-67. *)
Inductive rounding : Type := Truncate | Floor | Ceil | Round | TruncateSigned.

(** [Rounding::round] of each mode (src/rounding.rs:15-67). *)
Definition round_with (R : rounding) (F : FloatT) (x : fcar F) : outcome (fcar F) :=
  match R with
  | Truncate => f_trunc F x
  | Floor => f_floor F x
  | Ceil => f_ceil F x
  | Round => f_round F x
  | TruncateSigned =>
      if f_ltb F (f_zero F) x then
        let! y := f_trunc F x in Done (f_max F y (f_one F))
      else if f_ltb F x (f_zero F) then
        let! y := f_trunc F x in
        let! m := f_sub F (f_zero F) (f_one F) in
        Done (f_min F y m)
      else Done x
  end.
