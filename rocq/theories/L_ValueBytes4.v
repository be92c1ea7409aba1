(** Booleans and strings in the byte format. *)
From Coq Require Import String Ascii ZArith List Bool Lia.
From Verif Require Import M_Outcome M_Value M_Serde M_Bytes M_ValueBytes S_Bytes S_ValueBytes L_Bytes.
Import ListNotations.
Local Open Scope Z_scope.
Lemma C72_bool_str_proof :
  (forall bs b rest, btake bleaf_exists bs = ok (b, rest) <-> bs = (if b then 1 else 0) :: rest) /\
  (forall utf8 bs s rest, Forall is_byte bs -> (btake (bleaf_str utf8) bs = ok (s, rest) <->
     exists l, bs = l ++ text s ++ rest /\ varint 10 1 l (Z.of_nat (String.length s)) /\ utf8 s = true)).
Proof.
  split.
  - intros bs b rest. cbn. unfold take_bool. destruct bs as [|x bs]; [split; discriminate|].
    destruct (Z.eqb_spec x 0) as [->|N0]; [|destruct (Z.eqb_spec x 1) as [->|N1]]; split; intros H; try discriminate; try (inversion H; subst; reflexivity); destruct b; inversion H; subst; try reflexivity; contradiction.
  - intros utf8 bs s rest F. exact (take_str_iff utf8 bs s rest F).
Qed.
