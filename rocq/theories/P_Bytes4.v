(** C50, C70: types without serialization, and what reading and writing never do. *)
From Coq Require Import ZArith List Bool.
From Verif Require Import M_Outcome M_Ints M_Value M_Types M_Qualifier M_Search M_Stat M_StatMap M_HashMap M_Registry M_Serde M_Bytes
  S_Search S_StatMap S_Demo S_Serde S_Bytes S_Bytes4 L_Bytes4.
Import ListNotations.
Local Open Scope Z_scope.

(** What is written or read holds no type marked [no_serialize]; trying panics. *)
Theorem C50_bytes :
  forall (P : Prog) (Q : QFlag) (N : StatNames P) (C : BCodec P Q),
  (forall m bs e, put_map N C m = ok bs -> In e m -> b_serial C (si_ty (e_stat e)) = true) /\
  (forall w bs m rest e, take_map C w bs = ok (m, rest) -> In e m -> b_serial C (si_ty (e_stat e)) = true) /\
  (forall T b, b_serial C T = false -> put_value C T b = Panics PNoSerialize) /\
  (forall T bs, b_serial C T = false -> take_value C T bs = Panics PNoSerialize).
Proof. exact C70_no_serialize_proof. Qed.
Print Assumptions C50_bytes.
Example C50_bytes_case :
  hiding [put_atk none 4] = Loaded /\ hiding [put_atk none 4; put_alive none true] = Panicked PNoSerialize /\
  unhiding [1; 3; 0; 0; 3; 65; 116; 107; 8; 207; 15; 208; 15; 2] = Loaded /\
  unhiding [1; 3; 0; 0; 5; 65; 108; 105; 118; 101; 1] = Panicked PNoSerialize /\ unhiding [1; 3; 0; 0; 5; 65; 108; 105; 118; 101] = Panicked PNoSerialize.
Proof. vm_compute. repeat split. Qed.

(** Any bytes, in any world: reading is defined if the user's impls are. *)
Theorem C70_defined :
  forall (P : Prog) (Q : QFlag) (C : BCodec P Q), (forall bs, b_qtake C bs <> UB) -> (forall t bs, b_vtake C t bs <> UB) ->
  forall (w : dworld P) bs, take_map C w bs <> UB.
Proof. exact C70_defined_proof. Qed.
Print Assumptions C70_defined.
(** And writing, whatever map whose values are of their stats' types. *)
Theorem C70_put_defined :
  forall (P : Prog) (Q : QFlag) (N : StatNames P) (C : BCodec P Q), (forall T i, sn_name N T i <> UB) ->
  (forall x, b_qput C x <> UB) -> (forall t v, b_vput C t v <> UB) ->
  forall m : map_t P Q, (forall e, In e m -> b_ty (e_val e) = vt_value P (si_ty (e_stat e))) -> put_map N C m <> UB.
Proof. exact C70_put_defined_proof. Qed.
Print Assumptions C70_put_defined.
Example C70_defined_case :
  unregistered [1; 3; 0; 0; 3; 65; 116; 107; 8] = Panicked PUnwrap /\ unregistered [] = Refused /\ unregistered [0] = Loaded /\
  hiding [put_alive none true] = Panicked PNoSerialize.
Proof. vm_compute. repeat split. Qed.
