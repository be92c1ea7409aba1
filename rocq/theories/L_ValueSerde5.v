(** serde's own implementations. *)
From Coq Require Import String ZArith List Bool.
From Verif Require Import M_Outcome M_Ints M_Value M_Types M_Serde M_ValueSerde S_Totals S_ValueSerde L_Ints.
Import ListNotations.
Local Open Scope Z_scope.
Lemma C62_leaves_proof :
  (forall d b, rd leaf_bool d = Some b <-> d = DBool b) /\ (forall b, wr leaf_bool b = DBool b) /\
  (forall t d z, rd (leaf_int t) d = Some z <-> d = DInt z /\ imin t <= z <= imax t) /\ (forall t z, wr (leaf_int t) z = DInt z) /\
  (forall T z, wr (leaf_num T) z = DInt z) /\
  (forall d, rd leaf_unit d = Some tt <-> d = DNull) /\ wr leaf_unit tt = DNull /\
  (forall d s, rd leaf_str d = Some s <-> d = DStr s) /\ (forall s, wr leaf_str s = DStr s).
Proof.
  repeat split; try reflexivity; try (destruct d; cbn; intros H; try discriminate; congruence); try (intros ->; reflexivity).
  - destruct d as [| |x| | |]; cbn in H; try discriminate. destruct (in_range t x); [congruence|discriminate].
  - destruct d as [| |x| | |]; cbn in H; try discriminate. destruct (in_range t x) eqn:E; [|discriminate]. injection H as <-. apply in_range_iff in E. apply E.
  - destruct d as [| |x| | |]; cbn in H; try discriminate. destruct (in_range t x) eqn:E; [|discriminate]. injection H as <-. apply in_range_iff in E. apply E.
  - intros (-> & H). cbn. replace (in_range t z) with true; [reflexivity|]. symmetry. apply in_range_iff, H.
  - intros T z. unfold leaf_num. destruct (i_flav T); reflexivity.
Qed.
