(** The integer types implementing the [Int] trait (src/num_traits.rs:75-202). *)
From Coq Require Import ZArith List Bool.
From Verif Require Import M_Outcome.
Import ListNotations.
Local Open Scope Z_scope.

(** src/num_traits.rs:133: the twelve primitive types.
    Simplification: [usize]/[isize] are 64 bits wide (64-bit targets). *)
Inductive ity : Type :=
| U8 | U16 | U32 | U64 | U128 | Usize
| I8 | I16 | I32 | I64 | I128 | Isize.

Definition all_ity : list ity := [U8; U16; U32; U64; U128; Usize; I8; I16; I32; I64; I128; Isize].

Definition signed (t : ity) : bool :=
  match t with I8 | I16 | I32 | I64 | I128 | Isize => true | _ => false end.

Definition bits (t : ity) : Z :=
  match t with
  | U8 | I8 => 8 | U16 | I16 => 16 | U32 | I32 => 32
  | U64 | I64 | Usize | Isize => 64 | U128 | I128 => 128
  end.

(** [<$ty>::MIN], [<$ty>::MAX] (src/num_traits.rs:101-102). *)
Definition imin (t : ity) : Z := if signed t then - 2 ^ (bits t - 1) else 0.
Definition imax (t : ity) : Z := if signed t then 2 ^ (bits t - 1) - 1 else 2 ^ bits t - 1.

Definition in_range (t : ity) (z : Z) : bool := (imin t <=? z) && (z <=? imax t).

(** Two's complement truncation, i.e. an [as] cast to [t] and the result of a wrapping operation. *)
Definition wrap (t : ity) (z : Z) : Z := (z - imin t) mod 2 ^ bits t + imin t.

(** Saturation, i.e. the result of a saturating operation. *)
Definition sat (t : ity) (z : Z) : Z := Z.max (imin t) (Z.min z (imax t)).

(** [T], [Wrapping<T>] and [Saturating<T>] (src/num_traits.rs:95-202). *)
Inductive flavour : Type := FPrim | FWrapping | FSaturating.
Record intp : Type := { i_ty : ity; i_flav : flavour }.

(** Arithmetic on a primitive integer: [oc] is whether the build has overflow checks. *)
Definition chk (oc : bool) (t : ity) (z : Z) : outcome Z :=
  if in_range t z then Done z
  else if oc then Panics POverflow else Done (wrap t z).

Definition p_add (oc : bool) (t : ity) (a b : Z) : outcome Z := chk oc t (a + b).
Definition p_sub (oc : bool) (t : ity) (a b : Z) : outcome Z := chk oc t (a - b).
Definition p_mul (oc : bool) (t : ity) (a b : Z) : outcome Z := chk oc t (a * b).
(** [/] and [%]: a zero divisor and [MIN / -1] panic in every build. *)
Definition p_div (t : ity) (a b : Z) : outcome Z :=
  if b =? 0 then Panics PDivZero
  else if in_range t (Z.quot a b) then Done (Z.quot a b) else Panics POverflow.
Definition p_rem (t : ity) (a b : Z) : outcome Z :=
  if b =? 0 then Panics PDivZero
  else if in_range t (Z.quot a b) then Done (Z.rem a b) else Panics POverflow.
(** [abs] of a signed primitive. *)
Definition p_abs (oc : bool) (t : ity) (a : Z) : outcome Z := chk oc t (Z.abs a).

(** [NumOps] of an [Int]: [+=] and [*=] of [T], [Wrapping<T>], [Saturating<T>]. *)
Definition i_norm (oc : bool) (T : intp) (z : Z) : outcome Z :=
  match i_flav T with
  | FPrim => chk oc (i_ty T) z
  | FWrapping => Done (wrap (i_ty T) z)
  | FSaturating => Done (sat (i_ty T) z)
  end.
Definition i_add (oc : bool) (T : intp) (a b : Z) : outcome Z := i_norm oc T (a + b).
Definition i_mul (oc : bool) (T : intp) (a b : Z) : outcome Z := i_norm oc T (a * b).

(** [Int::min]/[Int::max] are [Ord::min]/[Ord::max] (src/num_traits.rs:108-114, 148-154):
    [min(a, b)] is [b] if [b < a] else [a]; [max(a, b)] is [a] if [b < a] else [b]. *)
Definition i_min (a b : Z) : Z := if b <? a then b else a.
Definition i_max (a b : Z) : Z := if b <? a then a else b.

(** [Ord::clamp] of i64: asserts [lo <= hi]. *)
Definition i64_clamp (v lo hi : Z) : outcome Z :=
  if lo <=? hi then Done (if v <? lo then lo else if hi <? v then hi else v)
  else Panics PClamp.

(** [Int::from_i64] (src/num_traits.rs:104-106, 144-146):
    [value.clamp(Self::MIN as i64, Self::MAX as i64) as Self]. *)
Definition from_i64 (t : ity) (v : Z) : outcome Z :=
  let! c := i64_clamp v (wrap I64 (imin t)) (wrap I64 (imax t)) in
  Done (wrap t c).
