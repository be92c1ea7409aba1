(** C62: serde's own implementations. *)
From Coq Require Import String ZArith List Bool.
From Verif Require Import M_Outcome M_Ints M_Value M_Types M_Serde M_ValueSerde L_ValueSerde5.
Import ListNotations.
Local Open Scope Z_scope.

Theorem C62_leaves :
  (forall d b, rd leaf_bool d = Some b <-> d = DBool b) /\ (forall b, wr leaf_bool b = DBool b) /\
  (forall t d z, rd (leaf_int t) d = Some z <-> d = DInt z /\ imin t <= z <= imax t) /\ (forall t z, wr (leaf_int t) z = DInt z) /\
  (forall T z, wr (leaf_num T) z = DInt z) /\
  (forall d, rd leaf_unit d = Some tt <-> d = DNull) /\ wr leaf_unit tt = DNull /\
  (forall d s, rd leaf_str d = Some s <-> d = DStr s) /\ (forall s, wr leaf_str s = DStr s).
Proof. exact C62_leaves_proof. Qed.
Print Assumptions C62_leaves.
Example C62_leaves_case : rd leaf_str (DStr "a") = Some "a"%string /\ rd leaf_str (DInt 1) = None /\ rd (leaf_int I8) (DInt 128) = None.
Proof. repeat split. Qed.
