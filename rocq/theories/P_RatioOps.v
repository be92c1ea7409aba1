(** C63: division, remainder and integer operands of fractions. *)
From Coq Require Import ZArith QArith Qabs Bool List Lia.
From Verif Require Import M_Outcome M_Ints M_Ratio M_RatioOps S_Ratio S_RatioOps L_RatioOps.
Import ListNotations.
Local Open Scope Z_scope.

(** In checked builds a quotient is exact, or the division panics. *)
Theorem C63_div_exact_or_panics :
  forall (t : ity) (x y : ratio), valid t x -> valid t y ->
  (exists z, r_div true t x y = Done z /\ numer y <> 0 /\ reduced t z /\ (toQ z == toQ x / toQ y)%Q)
  \/ (exists p, r_div true t x y = Panics p).
Proof. exact C63_div_exact_or_panics_proof. Qed.
Print Assumptions C63_div_exact_or_panics.
(** Division by zero panics in every build. *)
Theorem C63_div_zero :
  forall (oc : bool) (t : ity) (x y : ratio), valid t x -> valid t y -> (toQ y == 0)%Q ->
  exists p, r_div oc t x y = Panics p.
Proof. exact C63_div_zero_proof. Qed.
Print Assumptions C63_div_zero.
(** A representable quotient of lowest-terms fractions is found in every build, unless the
    divisor's numerator, or that of a quotient by a negative number, is the least integer. *)
Theorem C63_div_succeeds :
  forall (oc : bool) (t : ity) (x y z : ratio),
  reduced t x -> reduced t y -> reduced t z -> imin t < numer y -> numer y <> 0 -> imin t < numer z \/ 0 < numer y ->
  (toQ z == toQ x / toQ y)%Q -> r_div oc t x y = Done z.
Proof. exact C63_div_succeeds_proof. Qed.
Print Assumptions C63_div_succeeds.
(** There it may panic: 64 / (-1/2) = -128 in i8. *)
Theorem C63_div_edge_refuted :
  ~ (forall (t : ity) (x y z : ratio), reduced t x -> reduced t y -> reduced t z -> numer y <> 0 ->
     (toQ z == toQ x / toQ y)%Q -> r_div true t x y = Done z).
Proof. exact C63_div_edge_refuted_proof. Qed.
Print Assumptions C63_div_edge_refuted.
(** In checked builds a remainder is exact, or the operation panics. *)
Theorem C63_rem_exact_or_panics :
  forall (t : ity) (x y : ratio), valid t x -> valid t y ->
  (exists z, r_rem true t x y = Done z /\ numer y <> 0 /\ reduced t z /\ is_remainder (toQ x) (toQ y) (toQ z))
  \/ (exists p, r_rem true t x y = Panics p).
Proof. exact C63_rem_exact_or_panics_proof. Qed.
Print Assumptions C63_rem_exact_or_panics.
Theorem C63_remainder_unique :
  forall x y z z' : Q, is_remainder x y z -> is_remainder x y z' -> (z == z')%Q.
Proof. exact C63_remainder_unique_proof. Qed.
Print Assumptions C63_remainder_unique.
Theorem C63_rem_zero :
  forall (oc : bool) (t : ity) (x y : ratio), valid t x -> valid t y -> (toQ y == 0)%Q ->
  exists p, r_rem oc t x y = Panics p.
Proof. exact C63_rem_zero_proof. Qed.
Print Assumptions C63_rem_zero.
(** The remainder of the least integer by -1 is 0, and panics in every build. *)
Theorem C63_rem_min_refuted :
  ~ (forall (oc : bool) (t : ity) (x y z : ratio), reduced t x -> reduced t y -> reduced t z -> denom x = denom y ->
     is_remainder (toQ x) (toQ y) (toQ z) -> r_rem oc t x y = Done z).
Proof. exact C63_rem_min_refuted_proof. Qed.
Print Assumptions C63_rem_min_refuted.
(** An integer on the right is that integer over one, in every build. *)
Theorem C63_integer_operands :
  forall (oc : bool) (t : ity) (x : ratio) (n : Z), imin t <= n <= imax t ->
  r_add_int oc t x n = r_add oc t x (Frac n 1) /\
  r_sub_int oc t x n = r_sub oc t x (Frac n 1) /\
  r_mul_int oc t x n = r_mul oc t x (Frac n 1) /\
  r_div_int oc t x n = r_div oc t x (Frac n 1) /\
  r_rem_int oc t x n = r_rem oc t x (Frac n 1).
Proof. exact C63_integer_operands_proof. Qed.
Print Assumptions C63_integer_operands.
(** What the checked build returns the unchecked build returns too... *)
Theorem C63_release_agrees :
  forall (t : ity) (x y z : ratio),
  (r_div true t x y = Done z -> r_div false t x y = Done z) /\
  (r_rem true t x y = Done z -> r_rem false t x y = Done z).
Proof. exact C63_release_agrees_proof. Qed.
Print Assumptions C63_release_agrees.
(** ... but not the other way round: (1/127) / 127 = 1 in i8 without checks. *)
Theorem C63_release_exact_refuted :
  ~ (forall (t : ity) (x y z : ratio), reduced t x -> reduced t y -> numer y <> 0 ->
     r_div false t x y = Done z -> (toQ z == toQ x / toQ y)%Q).
Proof. exact C63_release_exact_refuted_proof. Qed.
Print Assumptions C63_release_exact_refuted.
Example C63_case : (* (6/35) / (-14/9) = -27/245;  -7/2 rem 2/3 = -1/6;  5/6 / 10 = 1/12 *)
  r_div true I32 (Frac 6 35) (Frac (-14) 9) = Done (Frac (-27) 245) /\
  r_rem true I32 (Frac (-7) 2) (Frac 2 3) = Done (Frac (-1) 6) /\
  r_div_int true U8 (Frac 5 6) 10 = Done (Frac 1 12) /\
  r_div true I8 (Frac 1 2) (Frac 0 1) = Panics PDivZero /\
  reduced I32 (Frac (-14) 9) /\ reduced I32 (Frac (-27) 245) /\ imin I32 < -27 /\
  is_remainder (toQ (Frac (-7) 2)) (toQ (Frac 2 3)) (toQ (Frac (-1) 6)).
Proof.
  repeat (split; [first [reflexivity | unfold reduced, valid; cbn; repeat split; lia | cbn; lia]|]).
  split; [exists (-5); reflexivity|]. split; [reflexivity|]. cbn. unfold Qle. cbn. lia.
Qed.
