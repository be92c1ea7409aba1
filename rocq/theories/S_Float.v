(** What rounding, bounds and float multiplication should do, stated over the real numbers. *)
From Coq Require Import ZArith Reals List Bool.
From Flocq Require Import Core BinarySingleNaN.
From Verif Require Import M_Outcome M_Ints M_Float M_Value M_Types S_Types.
Import ListNotations.
Local Open Scope Z_scope.

(** ** Rounding a real number to an integer *)
Definition floor_of (x : R) (n : Z) : Prop := (IZR n <= x < IZR n + 1)%R.
Definition ceil_of (x : R) (n : Z) : Prop := (IZR n - 1 < x <= IZR n)%R.
(** Toward zero. *)
Definition trunc_of (x : R) (n : Z) : Prop :=
  ((0 <= x)%R -> floor_of x n) /\ ((x <= 0)%R -> ceil_of x n).
(** At distance at most one half, and away from zero when exactly between two integers. *)
Definition round_of (x : R) (n : Z) : Prop :=
  (Rabs (IZR n - x) <= / 2)%R /\ (Rabs (IZR n - x) = / 2 -> Rabs x < Rabs (IZR n))%R.
(** Toward zero, but a positive number to at least 1, a negative one to at most -1. *)
Definition trunc_signed_of (x : R) (n : Z) : Prop :=
  (x = 0%R -> n = 0) /\
  ((0 < x)%R -> exists k, floor_of x k /\ n = Z.max k 1) /\
  ((x < 0)%R -> exists k, ceil_of x k /\ n = Z.min k (-1)).

Definition real_rounds_to (m : rounding) (x : R) (n : Z) : Prop :=
  match m with
  | Truncate => trunc_of x n
  | Floor => floor_of x n
  | Ceil => ceil_of x n
  | Round => round_of x n
  | TruncateSigned => trunc_signed_of x n
  end.

Section Binary.
  Variables prec emax : Z.

  (** The real number nearest to [x] with [prec] binary digits and no smaller scale than the
      format has, ties to an even last digit (IEEE 754, any size: no overflow here). *)
  Definition nearest (x : R) : R :=
    round radix2 (FLT_exp (3 - emax - prec) prec) ZnearestE x.
  (** Numbers of this size or more do not fit. *)
  Definition too_large (x : R) : Prop := (bpow radix2 emax <= Rabs x)%R.

  (** The order of the floats without NaN: infinities stand beyond every finite one. *)
  Definition ext (x : binary_float prec emax) : R :=
    match x with
    | B754_infinity true => (- bpow radix2 emax)%R
    | B754_infinity false => bpow radix2 emax
    | _ => B2R x
    end.

  (** The largest of [a] and those of [l] that are not NaN; the smallest. *)
  Definition most (a : R) (l : list (binary_float prec emax)) : R :=
    fold_left (fun m x => if is_nan x then m else Rmax m (ext x)) l a.
  Definition least (a : R) (l : list (binary_float prec emax)) : R :=
    fold_left (fun m x => if is_nan x then m else Rmin m (ext x)) l a.
End Binary.
Arguments ext {prec emax}.
Arguments most {prec emax}.
Arguments least {prec emax}.

(** ** Float stats: what was contributed to the bounds *)
Section FloatBounds.
  Variable S : StatValue.
  Variable F : Type.
  Variables lo hi : val S -> F.
  Variable bnd : boundsT S -> F.
  Definition low_given (s : step S) : list F :=
    match s with SOp (OMin x) => [bnd x] | SJoin w => [lo w] | _ => [] end.
  Definition high_given (s : step S) : list F :=
    match s with SOp (OMax x) => [bnd x] | SJoin w => [hi w] | _ => [] end.
End FloatBounds.
Arguments low_given {S F}.
Arguments high_given {S F}.

(** A float stat of type [S] with lower and upper bound [lo], [hi]. *)
Section FloatStat.
  Variables prec emax : Z.
  Variable S : StatValue.
  Variables lo hi : val S -> binary_float prec emax.
  Variable out : outT S -> binary_float prec emax.
  Variable bnd : boundsT S -> binary_float prec emax.

  (** Evaluation always answers; between the bounds, the lower one winning when they cross;
      a bound that is NaN does not count, and only the product itself can be NaN. *)
  Definition float_eval_bounded : Prop :=
    forall v, exists r, sv_eval S v = Done r /\
      (is_nan (out r) = true -> is_nan (lo v) = true /\ is_nan (hi v) = true) /\
      (is_nan (lo v) = false -> (ext (lo v) <= ext (out r))%R) /\
      (is_nan (hi v) = false -> is_nan (lo v) = true \/ (ext (lo v) <= ext (hi v))%R ->
        (ext (out r) <= ext (hi v))%R) /\
      (is_nan (lo v) = false -> is_nan (hi v) = false -> (ext (hi v) < ext (lo v))%R -> out r = lo v).

  (** Steps never fail; the lower bound is the largest of those given that are not NaN,
      the upper bound the smallest. *)
  Definition float_bounds_accumulate : Prop :=
    forall l v, Forall unordered l ->
      is_nan (lo v) = false -> is_nan (hi v) = false ->
      exists v', run v l = Done v' /\
        is_nan (lo v') = false /\ is_nan (hi v') = false /\
        ext (lo v') = most (ext (lo v)) (flat_map (low_given lo bnd) l) /\
        ext (hi v') = least (ext (hi v)) (flat_map (high_given hi bnd) l).
End FloatStat.

(** What a float multiplied integer stat evaluates to before its bounds are applied: the addend
    rounded to the format, times the multiplier rounded to the format, rounded to an integer by
    the chosen mode, and brought into the range of the integer type. *)
Definition product_int (prec emax : Z) (t : ity) (m : rounding) (a : Z)
    (f : binary_float prec emax) (n : Z) : Prop :=
  let near := nearest prec emax in
  match f with
  | B754_nan => n = 0
  | B754_infinity s =>
      n = if a =? 0 then 0 else if xorb (a <? 0) s then imin t else imax t
  | _ =>
      let p := near (near (IZR a) * B2R f)%R in
      (~ too_large emax p -> exists k, real_rounds_to m p k /\ n = sat t k) /\
      (too_large emax p -> n = if xorb (a <? 0) (Bsign f) then imin t else imax t)
  end.

(** ** Fractions as floats *)
From Coq Require Import QArith Qminmax.
From Verif Require Import M_Ratio S_Ratio.
Local Open Scope Z_scope.

Section FracStat.
  Variable t : ity.
  Variable S : StatValue.
  Variables lo hi : val S -> ratio.
  Variable out : outT S -> ratio.
  Variable bnd : boundsT S -> ratio.
  Variable ok : val S -> Prop.

  Definition frac_eval_bounded : Prop :=
    forall v r, ok v -> sv_eval S v = Done r ->
      reduced t (out r) /\
      (toQ (lo v) <= toQ (out r))%Q /\
      ((toQ (lo v) <= toQ (hi v))%Q -> (toQ (out r) <= toQ (hi v))%Q) /\
      ((toQ (hi v) < toQ (lo v))%Q -> out r = lo v).

  Definition frac_bounds_accumulate : Prop :=
    forall l v v', Forall unordered l ->
      0 < denom (lo v) -> 0 < denom (hi v) ->
      Forall (fun r => 0 < denom r) (flat_map (low_given lo bnd) l) ->
      Forall (fun r => 0 < denom r) (flat_map (high_given hi bnd) l) ->
      run v l = Done v' ->
      toQ (lo v') == fold_left (fun m r => Qmax m (toQ r)) (flat_map (low_given lo bnd) l) (toQ (lo v)) /\
      toQ (hi v') == fold_left (fun m r => Qmin m (toQ r)) (flat_map (high_given hi bnd) l) (toQ (hi v)).
End FracStat.

(** All fields in lowest terms. *)
Definition frac_quad_ok (t : ity) (v : quad ratio ratio) : Prop :=
  reduced t (addend v) /\ reduced t (vmin v) /\ reduced t (vmax v) /\ reduced t (mult v).
Definition frac_tri_ok (oc : bool) (t : ity) (v : tri (fracF oc t)) : Prop :=
  reduced t (t_min v) /\ reduced t (t_max v) /\ reduced t (t_mult v).
