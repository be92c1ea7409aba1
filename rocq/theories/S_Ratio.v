(** Specification of fractions against the rationals of the standard library. *)
From Coq Require Import ZArith QArith.
From Verif Require Import M_Ints M_Ratio M_Float.
Local Open Scope Z_scope.

(** The rational number a [Fraction] stands for. *)
Definition toQ (r : ratio) : Q := Qmake (numer r) (Z.to_pos (denom r)).

(** A representable fraction with a positive denominator... *)
Definition valid (t : ity) (r : ratio) : Prop :=
  imin t <= numer r <= imax t /\ 0 < denom r <= imax t.
(** ... and in lowest terms. *)
Definition reduced (t : ity) (r : ratio) : Prop :=
  valid t r /\ Z.gcd (numer r) (denom r) = 1.

(** What rounding a rational [n/d] (d > 0) to an integer [y] means. *)
Definition is_floor (n d y : Z) : Prop := y * d <= n < (y + 1) * d.
Definition is_ceil (n d y : Z) : Prop := (y - 1) * d < n <= y * d.
Definition is_trunc (n d y : Z) : Prop :=
  (0 <= n -> is_floor n d y) /\ (n <= 0 -> is_ceil n d y).
(** nearest integer, ties away from zero *)
Definition is_round (n d y : Z) : Prop :=
  2 * Z.abs (y * d - n) <= d /\
  (2 * Z.abs (y * d - n) = d -> Z.abs n < Z.abs (y * d)).
Definition is_trunc_signed (n d y : Z) : Prop :=
  (0 < n -> exists z, is_trunc n d z /\ y = Z.max z 1) /\
  (n < 0 -> exists z, is_trunc n d z /\ y = Z.min z (-1)) /\
  (n = 0 -> y = 0).

(** The integer [y] that each rounding mode documents for [n/d] (src/rounding.rs:11-54). *)
Definition rounds_to (R : rounding) (n d y : Z) : Prop :=
  match R with
  | Truncate => is_trunc n d y
  | Floor => is_floor n d y
  | Ceil => is_ceil n d y
  | Round => is_round n d y
  | TruncateSigned => is_trunc_signed n d y
  end.

(** Inputs on which num-rational's [floor]/[ceil] overflow an intermediate result. *)
Definition round_overflows (R : rounding) (t : ity) (n d : Z) : Prop :=
  match R with
  | Floor => n < 0 /\ n - d < imin t
  | Ceil => 0 <= n /\ imax t < n + d
  | _ => False
  end.
