(** C19-C21: fractions, rounding of fractions, [Int::from_i64]. *)
From Coq Require Import ZArith QArith Qround Bool List Lia.
From Verif Require Import M_Outcome M_Ints M_Ratio M_Float S_Ratio L_Ints L_Ratio L_Round L_RatioQ L_RatioProofs.
Import ListNotations.
Local Open Scope Z_scope.

(** ** C19: checked builds are exact or panic *)
Theorem C19_new_exact_or_panics :
  forall (t : ity) (n d : Z),
  imin t <= n <= imax t -> imin t <= d <= imax t ->
  (exists z, r_new true t n d = Done z /\
     d <> 0 /\ reduced t z /\ (toQ z == inject_Z n / inject_Z d)%Q)
  \/ (exists p, r_new true t n d = Panics p).
Proof. exact C19_new_exact_or_panics_proof. Qed.
Print Assumptions C19_new_exact_or_panics.

Theorem C19_add_exact_or_panics :
  forall (t : ity) (x y : ratio), valid t x -> valid t y ->
  (exists z, r_add true t x y = Done z /\ reduced t z /\ (toQ z == toQ x + toQ y)%Q)
  \/ (exists p, r_add true t x y = Panics p).
Proof. exact C19_add_exact_or_panics_proof. Qed.
Print Assumptions C19_add_exact_or_panics.

Theorem C19_sub_exact_or_panics :
  forall (t : ity) (x y : ratio), valid t x -> valid t y ->
  (exists z, r_sub true t x y = Done z /\ reduced t z /\ (toQ z == toQ x - toQ y)%Q)
  \/ (exists p, r_sub true t x y = Panics p).
Proof. exact C19_sub_exact_or_panics_proof. Qed.
Print Assumptions C19_sub_exact_or_panics.

Theorem C19_mul_exact_or_panics :
  forall (t : ity) (x y : ratio), valid t x -> valid t y ->
  (exists z, r_mul true t x y = Done z /\ reduced t z /\ (toQ z == toQ x * toQ y)%Q)
  \/ (exists p, r_mul true t x y = Panics p).
Proof. exact C19_mul_exact_or_panics_proof. Qed.
Print Assumptions C19_mul_exact_or_panics.

(** A product of lowest-terms fractions is found whenever it is representable, in either build. *)
Theorem C19_mul_succeeds_when_representable :
  forall (oc : bool) (t : ity) (x y z : ratio),
  reduced t x -> reduced t y -> reduced t z ->
  (toQ z == toQ x * toQ y)%Q -> r_mul oc t x y = Done z.
Proof. exact C19_mul_succeeds_when_representable_proof. Qed.
Print Assumptions C19_mul_succeeds_when_representable.

(** Whatever the checked build returns the unchecked build returns too. *)
Theorem C19_release_agrees :
  forall (t : ity) (x y z : ratio),
  (r_reduce true t x = Done z -> r_reduce false t x = Done z) /\
  (r_add true t x y = Done z -> r_add false t x y = Done z) /\
  (r_sub true t x y = Done z -> r_sub false t x y = Done z) /\
  (r_mul true t x y = Done z -> r_mul false t x y = Done z) /\
  (r_floor true t x = Done z -> r_floor false t x = Done z) /\
  (r_ceil true t x = Done z -> r_ceil false t x = Done z) /\
  (r_round true t x = Done z -> r_round false t x = Done z).
Proof. exact C19_release_agrees_proof. Qed.
Print Assumptions C19_release_agrees.

(** Comparison is the order of the rationals. *)
Theorem C19_order_of_rationals :
  forall x y : ratio, 0 < denom x -> 0 < denom y -> r_cmp x y = Qcompare (toQ x) (toQ y).
Proof. exact C19_order_of_rationals_proof. Qed.
Print Assumptions C19_order_of_rationals.

(** Lowest-terms fractions denoting the same rational are the same fraction. *)
Theorem C19_lowest_terms_unique :
  forall (t : ity) (x y : ratio), reduced t x -> reduced t y -> (toQ x == toQ y)%Q -> x = y.
Proof. exact C19_lowest_terms_unique_proof. Qed.
Print Assumptions C19_lowest_terms_unique.

(** Addition may panic although the sum is representable (126 - 125/2 in i8). *)
Theorem C19_add_panics_only_if_unrepresentable_refuted :
  ~ (forall (t : ity) (x y z : ratio), reduced t x -> reduced t y -> reduced t z ->
     (toQ z == toQ x + toQ y)%Q -> r_add true t x y = Done z).
Proof. exact C19_add_panics_only_if_unrepresentable_refuted_proof. Qed.
Print Assumptions C19_add_panics_only_if_unrepresentable_refuted.

(** Without overflow checks results may be silently wrong: 1/127 * 1/127 = 1 in i8. *)
Theorem C19_release_exact_refuted :
  ~ (forall (t : ity) (x y z : ratio), reduced t x -> reduced t y ->
     r_mul false t x y = Done z -> (toQ z == toQ x * toQ y)%Q).
Proof. exact C19_release_exact_refuted_proof. Qed.
Print Assumptions C19_release_exact_refuted.

Example C19_case : (* 5/6 + 3/4 = 19/12; 6/35 * 14/9 = 4/15 *)
  r_add true I32 (Frac 5 6) (Frac 3 4) = Done (Frac 19 12) /\
  r_mul true I8 (Frac 6 35) (Frac 14 9) = Done (Frac 4 15) /\
  valid I8 (Frac 6 35) /\ reduced I8 (Frac 6 35).
Proof. repeat split; cbn; lia. Qed.

(** ** C20 (fractions): every rounding mode *)
Theorem C20_fraction_rounding :
  forall (R : rounding) (oc : bool) (t : ity) (x : ratio),
  valid t x -> ~ round_overflows R t (numer x) (denom x) ->
  exists z y, round_with R (fracF oc t) x = Done z /\ valid t z /\
    (toQ z == inject_Z y)%Q /\ rounds_to R (numer x) (denom x) y /\ imin t <= y <= imax t.
Proof. exact C20_fraction_rounding_proof. Qed.
Print Assumptions C20_fraction_rounding.

(** The rounding relation determines its result, and is the usual floor and ceiling on rationals. *)
Theorem C20_rounding_unique :
  forall (R : rounding) (n d y z : Z), 0 < d -> rounds_to R n d y -> rounds_to R n d z -> y = z.
Proof. exact C20_rounding_unique_proof. Qed.
Print Assumptions C20_rounding_unique.
Theorem C20_floor_is_Qfloor :
  forall (x : ratio) (y : Z), 0 < denom x -> rounds_to Floor (numer x) (denom x) y <-> y = Qfloor (toQ x).
Proof. exact C20_floor_is_Qfloor_proof. Qed.
Print Assumptions C20_floor_is_Qfloor.
Theorem C20_ceil_is_Qceiling :
  forall (x : ratio) (y : Z), 0 < denom x -> rounds_to Ceil (numer x) (denom x) y <-> y = Qceiling (toQ x).
Proof. exact C20_ceil_is_Qceiling_proof. Qed.
Print Assumptions C20_ceil_is_Qceiling.

(** The excluded inputs panic in checked builds (never a wrong result there) ... *)
Theorem C20_fraction_overflow_panics :
  forall (R : rounding) (t : ity) (x : ratio),
  valid t x -> round_overflows R t (numer x) (denom x) ->
  round_with R (fracF true t) x = Panics POverflow.
Proof. exact C20_fraction_overflow_panics_proof. Qed.
Print Assumptions C20_fraction_overflow_panics.

(** ... and may be wrong without checks: floor(-2147483648/3) = 715827882. *)
Theorem C20_fraction_floor_release_refuted :
  ~ (forall (t : ity) (x z : ratio), reduced t x ->
     round_with Floor (fracF false t) x = Done z -> (toQ z == inject_Z (Qfloor (toQ x)))%Q).
Proof. exact C20_fraction_floor_release_refuted_proof. Qed.
Print Assumptions C20_fraction_floor_release_refuted.
Theorem C20_fraction_ceil_checked_total_refuted :
  ~ (forall (t : ity) (x : ratio), reduced t x -> exists z, round_with Ceil (fracF true t) x = Done z).
Proof. exact C20_fraction_ceil_checked_total_refuted_proof. Qed.
Print Assumptions C20_fraction_ceil_checked_total_refuted.

Example C20_case :
  map (fun R => round_with R (fracF true I8) (Frac (-5) 2)) [Truncate; Floor; Ceil; Round; TruncateSigned]
  = map (fun z => Done (Frac z 1)) [-2; -3; -2; -3; -2] /\
  map (fun R => round_with R (fracF true I8) (Frac 1 3)) [Truncate; Floor; Ceil; Round; TruncateSigned]
  = map (fun z => Done (Frac z 1)) [0; 0; 1; 0; 1] /\
  valid I8 (Frac (-5) 2) /\ ~ round_overflows Floor I8 (-5) 2.
Proof. repeat split; cbn; lia. Qed.

(** ** C21 *)
(** The types on which [from_i64] works: those whose [MAX] fits i64. *)
Theorem C21_from_i64_nearest :
  forall (t : ity) (v : Z), imax t <= imax I64 ->  imin I64 <= imin t ->
  exists r, from_i64 t v = Done r /\ imin t <= r <= imax t /\
    (forall r', imin t <= r' <= imax t -> Z.abs (v - r) <= Z.abs (v - r')).
Proof. exact C21_from_i64_nearest_proof. Qed.
Print Assumptions C21_from_i64_nearest.
(** On every other type it panics on every input, whatever the build. *)
Theorem C21_from_i64_wide_panics :
  forall (t : ity) (v : Z), imax I64 < imax t -> from_i64 t v = Panics PClamp.
Proof. exact C21_from_i64_wide_panics_proof. Qed.
Print Assumptions C21_from_i64_wide_panics.
Theorem C21_from_i64_total_refuted :
  ~ (forall (t : ity) (v : Z), exists r, from_i64 t v = Done r).
Proof. exact C21_from_i64_total_refuted_proof. Qed.
Print Assumptions C21_from_i64_total_refuted.
Example C21_case :
  from_i64 U8 300 = Done 255 /\ from_i64 I8 (-1000) = Done (-128) /\ from_i64 I64 (-5) = Done (-5) /\
  map (fun t => from_i64 t 100) [U64; U128; Usize; I128] = repeat (Panics PClamp) 4.
Proof. repeat split. Qed.
