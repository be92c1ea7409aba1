(** C19, the dependencies' algorithms: what [M_Ratio] takes for granted about gcd and order. *)
From Coq Require Import ZArith QArith Bool List Lia.
From Verif Require Import M_Outcome M_Ints M_Ratio M_RatioAlgo S_Ratio L_RatioAlgo.
Import ListNotations.
Local Open Scope Z_scope.

(** Stein's algorithm with machine integers is the gcd, and overflows exactly when the gcd does
    not fit; its loop ends within twice the number of bits. *)
Theorem C19_gcd_algorithm :
  forall (oc : bool) (t : ity) (a b : Z),
  imin t <= a <= imax t -> imin t <= b <= imax t -> stein oc t a b = r_gcd oc t a b.
Proof. exact C19_gcd_algorithm_proof. Qed.
Print Assumptions C19_gcd_algorithm.

(** Comparing by continued fractions ends, never overflows, and gives the order of the rationals. *)
Theorem C19_order_algorithm :
  forall (oc : bool) (t : ity) (x y : ratio), valid t x -> valid t y ->
  forall fuel : nat, (Z.to_nat (denom x) < fuel)%nat ->
  cf_cmp oc t fuel x y = Done (Qcompare (toQ x) (toQ y)).
Proof. exact C19_order_algorithm_proof. Qed.
Print Assumptions C19_order_algorithm.

Example C19_algorithm_case :
  stein true I8 (-84) 120 = Done 12 /\ stein true I8 (-128) 96 = Done 32 /\
  stein true I8 (-128) 0 = Panics POverflow /\ stein false I8 (-128) (-128) = Done (-128) /\
  stein true U8 252 198 = Done 18 /\
  cf_cmp true I8 8 (Frac 100 7) (Frac 127 9) = Done Gt /\
  cf_cmp true I8 128 (Frac (-128) 127) (Frac (-127) 126) = Done Gt /\
  cf_cmp true I8 8 (Frac 5 7) (Frac 5 7) = Done Eq.
Proof. repeat split. Qed.
