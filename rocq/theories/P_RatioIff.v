(** C19 and C63: when the operations on fractions succeed. *)
From Coq Require Import ZArith QArith Bool List Lia.
From Verif Require Import M_Outcome M_Ints M_Ratio M_RatioOps S_Ratio S_RatioOps L_Ratio L_RatioQ L_RatioIff.
Import ListNotations.
Local Open Scope Z_scope.

(** A quotient that a reduced fraction can represent is found, in every build. *)
Theorem C19_new_succeeds :
  forall (oc : bool) (t : ity) (n d : Z) (z : ratio),
  imin t <= n <= imax t -> imin t <= d <= imax t -> d <> 0 -> reduced t z ->
  (toQ z == inject_Z n / inject_Z d)%Q -> r_new oc t n d = Done z.
Proof. exact C19_new_succeeds_proof. Qed.
Print Assumptions C19_new_succeeds.
(** With overflow checks nothing else is. *)
Theorem C19_new_iff :
  forall (t : ity) (n d : Z), imin t <= n <= imax t -> imin t <= d <= imax t ->
  ((exists z, r_new true t n d = Done z) <-> d <> 0 /\ exists z, reduced t z /\ (toQ z == inject_Z n / inject_Z d)%Q).
Proof. exact C19_new_iff_proof. Qed.
Print Assumptions C19_new_iff.
Example C19_new_case :
  reduced I8 (Frac 1 64) /\ (toQ (Frac 1 64) == inject_Z (-2) / inject_Z (-128))%Q /\ r_new true I8 (-2) (-128) = Done (Frac 1 64) /\
  r_new true I8 (-1) (-128) = Panics POverflow.
Proof. repeat split; cbn; lia. Qed.
(** Sums and differences: when the least common denominator, the numerators over it and their sum fit. *)
Theorem C19_add_iff :
  forall (t : ity) (x y : ratio), valid t x -> valid t y ->
  let l := Z.lcm (denom x) (denom y) in let a := numer x * (l / denom x) in let b := numer y * (l / denom y) in
  ((exists z, r_add true t x y = Done z) <-> l <= imax t /\ imin t <= a <= imax t /\ imin t <= b <= imax t /\ imin t <= a + b <= imax t).
Proof. exact C19_add_iff_proof. Qed.
Print Assumptions C19_add_iff.

Theorem C19_sub_iff :
  forall (t : ity) (x y : ratio), valid t x -> valid t y ->
  let l := Z.lcm (denom x) (denom y) in let a := numer x * (l / denom x) in let b := numer y * (l / denom y) in
  ((exists z, r_sub true t x y = Done z) <-> l <= imax t /\ imin t <= a <= imax t /\ imin t <= b <= imax t /\ imin t <= a - b <= imax t).
Proof. exact C19_sub_iff_proof. Qed.
Print Assumptions C19_sub_iff.
(** Products: when the product can be represented. *)
Theorem C19_mul_iff :
  forall (t : ity) (x y : ratio), reduced t x -> reduced t y ->
  ((exists z, r_mul true t x y = Done z) <-> exists z, reduced t z /\ (toQ z == toQ x * toQ y)%Q).
Proof. exact C19_mul_iff_proof. Qed.
Print Assumptions C19_mul_iff.
(** 100/3 * 3/50 = 2, though 300 does not fit; 1/16 + 1/9 needs the denominator 144. *)
Example C19_iff_case :
  valid I8 (Frac 100 3) /\ valid I8 (Frac 3 50) /\ r_mul true I8 (Frac 100 3) (Frac 3 50) = Done (Frac 2 1) /\
  r_add true I8 (Frac 1 12) (Frac 1 9) = Done (Frac 7 36) /\ r_sub true I8 (Frac 1 12) (Frac 1 9) = Done (Frac (-1) 36) /\
  match r_add true I8 (Frac 1 16) (Frac 1 9) with Panics _ => True | _ => False end.
Proof. repeat split; cbn; lia. Qed.

Theorem C63_rem_iff :
  forall (t : ity) (x y : ratio), valid t x -> valid t y ->
  let l := Z.lcm (denom x) (denom y) in let a := numer x * (l / denom x) in let b := numer y * (l / denom y) in
  ((exists z, r_rem true t x y = Done z) <->
   l <= imax t /\ imin t <= a <= imax t /\ imin t <= b <= imax t /\ b <> 0 /\ ~ (signed t = true /\ a = imin t /\ b = -1)).
Proof. exact C63_rem_iff_proof. Qed.
Print Assumptions C63_rem_iff.

Theorem C63_div_iff :
  forall (t : ity) (x y : ratio), valid t x -> valid t y ->
  let g := Z.gcd (numer x) (numer y) in let h := Z.gcd (denom x) (denom y) in
  let n := Z.quot (numer x) g * (denom y / h) in let m := (denom x / h) * Z.quot (numer y) g in
  ((exists z, r_div true t x y = Done z) <->
   numer y <> 0 /\ g <= imax t /\ imin t <= n <= imax t /\ imin t <= m <= imax t /\
   exists z, reduced t z /\ (toQ z == toQ x / toQ y)%Q).
Proof. exact C63_div_iff_proof. Qed.
Print Assumptions C63_div_iff.
Example C63_iff_case :
  r_rem true I8 (Frac 7 2) (Frac 2 3) = Done (Frac 1 6) /\ r_div true I8 (Frac 100 3) (Frac 50 3) = Done (Frac 2 1) /\
  match r_div true I8 (Frac 100 3) (Frac 1 2) with Panics _ => True | _ => False end /\
  match r_rem true I8 (Frac (-128) 1) (Frac (-1) 1) with Panics _ => True | _ => False end.
Proof. repeat split. Qed.
