(** C19, the dependencies' algorithms: floor division. *)
From Coq Require Import ZArith Bool Lia.
From Verif Require Import M_Outcome M_Ints M_Ratio M_RatioAlgo L_RatioAlgo2.
Local Open Scope Z_scope.

(** Division by truncation and a correction is division towards minus infinity for any signs; it
    panics exactly on a zero divisor and on [MIN / -1]. *)
Theorem C19_division_algorithm :
  forall (oc : bool) (t : ity) (a b : Z), imin t <= a <= imax t -> imin t <= b <= imax t ->
  div_mod_floor oc t a b =
    if b =? 0 then Panics PDivZero
    else if signed t && (a =? imin t) && (b =? -1) then Panics POverflow
    else Done (a / b, a mod b).
Proof. exact C19_division_algorithm_proof. Qed.
Print Assumptions C19_division_algorithm.
Example C19_division_case :
  imin I8 <= -128 <= imax I8 /\ div_mod_floor true I8 7 (-2) = Done (-4, -1) /\ div_mod_floor true I8 (-128) (-1) = Panics POverflow /\
  div_mod_floor true I8 (-128) 127 = Done (-2, 126) /\ div_mod_floor false I8 6 (-2) = Done (-3, 0).
Proof. cbn. split; [lia|]. repeat split. Qed.
