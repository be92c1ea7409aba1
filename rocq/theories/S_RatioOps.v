(** What division and remainder of fractions should be. *)
From Coq Require Import ZArith QArith Qabs.
From Verif Require Import M_Ints M_Ratio S_Ratio.
Local Open Scope Q_scope.

(** The remainder of the division of [x] by [y] towards zero: [x] less a whole multiple of [y],
    smaller than [y], with the sign of [x]. *)
Definition is_remainder (x y z : Q) : Prop :=
  (exists q : Z, z == x - inject_Z q * y) /\ Qabs z < Qabs y /\ 0 <= z * x.
