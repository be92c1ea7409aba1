(** C70: stat maps in a byte format that does not describe itself (postcard, as in tests/serde.rs). *)
From Coq Require Import String Ascii ZArith List Bool Lia.
From Verif Require Import M_Outcome M_Ints M_Value M_Types M_Qualifier M_Search M_Stat M_StatMap M_HashMap M_Registry M_Serde M_Bytes
  S_Search S_StatMap S_Demo S_Serde S_Bytes L_Bytes L_Bytes2 L_Bytes3.
Import ListNotations.
Local Open Scope Z_scope.

(** The primitives: what was written is read back whatever follows it, and every proper beginning
    of it is refused. *)
Theorem C70_primitives :
  (forall n, 0 <= n < 2 ^ 64 -> spells take_u64 (put_u64 n) n) /\
  (forall n, 0 <= n < 2 ^ 32 -> spells take_u32 (put_u32 n) n) /\
  (forall n, - 2 ^ 31 <= n < 2 ^ 31 -> spells take_i32 (put_i32 n) n) /\
  (forall b, spells take_bool (put_bool b) b) /\
  (forall utf8 s, utf8 s = true -> Z.of_nat (String.length s) < 2 ^ 64 -> spells (take_str utf8) (put_str s) s).
Proof. exact C70_primitives_proof. Qed.
Print Assumptions C70_primitives.

(** Which bytes are a length: up to ten, each but the last with its highest bit, the tenth at
    most 1; and lengths fit [u64]. *)
Theorem C70_lengths :
  forall bs n rest, Forall is_byte bs ->
  (take_u64 bs = ok (n, rest) <-> exists l, bs = l ++ rest /\ varint 10 1 l n) /\
  (take_u64 bs = ok (n, rest) -> 0 <= n < 2 ^ 64).
Proof. exact C70_lengths_proof. Qed.
Print Assumptions C70_lengths.
Example C70_numbers_case :
  put_u64 300 = [172; 2] /\ take_u64 [172; 2; 7] = ok (300, [7]) /\ put_i32 (-4) = [7] /\ put_i32 1000 = [208; 15] /\
  put_u64 18446744073709551615 = [255; 255; 255; 255; 255; 255; 255; 255; 255; 1] /\
  take_u64 [255; 255; 255; 255; 255; 255; 255; 255; 255; 1] = ok (18446744073709551615, []) /\
  take_u64 [255; 255; 255; 255; 255; 255; 255; 255; 255; 2] = err /\
  take_u64 [255; 255; 255; 255; 255; 255; 255; 255; 255; 129; 0] = err /\
  put_str "Atk" = [3; 65; 116; 107] /\ take_str (fun _ => true) [3; 65; 116] = err /\ take_str (fun _ => false) [0] = err.
Proof. vm_compute. repeat split. Qed.

(** A map comes back as it was, whatever follows it, and no proper beginning of its bytes is
    accepted: reading them is an error, not a panic. *)
Theorem C70_round_trip :
  forall (P : Prog) (Q : QFlag) (N : StatNames P) (C : BCodec P Q) (r : registry P) (m : map_t P Q),
  (forall e, In e m -> bstorable N C r e) -> Z.of_nat (List.length m) < 2 ^ 64 ->
  exists bs, put_map N C m = ok bs /\
  (forall rest, take_map C (WReg r) (bs ++ rest) = ok (m, rest)) /\
  (forall p s, bs = p ++ s -> s <> [] -> take_map C (WReg r) p = err).
Proof. exact C70_round_trip_proof. Qed.
Print Assumptions C70_round_trip.

(** For maps made by any history of calls. *)
Theorem C70_history :
  forall (P : Prog) (Q : QFlag) (N : StatNames P) (C : BCodec P Q) (bs : list comparison -> bsres),
  bs_contract bs -> distinct_vtables P -> lawful_ord (q_cmp Q) ->
  (forall t (v : val (VT P t)), reads_back (b_vput C t) (b_vtake C t) v) ->
  (forall x, bflag_back C x) ->
  forall (r : registry P) (l : list (mop P Q)) (m : map_t P Q), Forall sound_op l -> mops_run bs [] l = Done m ->
  (forall e, In e m -> b_serial C (si_ty (e_stat e)) = true /\ bname_back N C r (e_stat e)) ->
  Z.of_nat (List.length m) < 2 ^ 64 ->
  exists d, put_map N C m = ok d /\ forall rest, take_map C (WReg r) (d ++ rest) = ok (m, rest).
Proof. exact C70_history_proof. Qed.
Print Assumptions C70_history.
Example C70_round_trip_case :
  bsaved [put_atk none 4; put_alive none true; put_hp fire 3; put_hp ice 5] <> None /\
  exists bs, bsaved [put_atk none 4; put_alive none true; put_hp fire 3; put_hp ice 5] = Some bs /\
  get_atk (bloaded (bs ++ [9; 9])) none = Done (Some (num 4)) /\ get_hp (bloaded (bs ++ [9; 9])) ice = Done (Some (num 5)) /\
  get_alive (bloaded (bs ++ [9; 9])) none = Done (Some true) /\ bcount (bs ++ [9; 9]) = 4%nat /\
  bsurplus (bs ++ [9; 9]) = Some [9; 9] /\
  forallb (fun k => match bloading (firstn k bs) with Refused => true | _ => false end) (seq 0 (List.length bs)) = true.
Proof.
  split; [vm_compute; discriminate|]. eexists. split; [vm_compute; reflexivity|]. repeat (split; [vm_compute; reflexivity|]). vm_compute. reflexivity.
Qed.
Example C70_hypotheses :
  (forall v, quad_i32 v -> reads_back (b_vput demoB VNum) (b_vtake demoB VNum) v) /\
  (forall b, reads_back (b_vput demoB VBool) (b_vtake demoB VBool) b) /\
  (forall x, 0 <= x < 2 ^ 32 -> bflag_back demoB x) /\
  bname_back saveN demoB demo_reg hp /\ bname_back saveN demoB demo_reg alive.
Proof.
  split; [exact demo_quad_back|]. split; [exact demo_bool_back|]. split; [exact demo_flag_back|].
  split; [exists "Hp"%string|exists "Alive"%string]; repeat split; reflexivity.
Qed.

(** Different maps have different bytes, and the bytes of one do not begin those of another. *)
Theorem C70_injective :
  forall (P : Prog) (Q : QFlag) (N : StatNames P) (C : BCodec P Q) (r : registry P) (m1 m2 : map_t P Q) b1 b2,
  (forall e, In e m1 -> bstorable N C r e) -> (forall e, In e m2 -> bstorable N C r e) ->
  Z.of_nat (List.length m1) < 2 ^ 64 -> Z.of_nat (List.length m2) < 2 ^ 64 ->
  put_map N C m1 = ok b1 -> put_map N C m2 = ok b2 -> forall s1 s2, b1 ++ s1 = b2 ++ s2 -> m1 = m2 /\ b1 = b2 /\ s1 = s2.
Proof. exact C70_injective_proof. Qed.
Print Assumptions C70_injective.
Example C70_injective_case :
  bsaved [put_atk none 4] = Some [1; 3; 0; 0; 3; 65; 116; 107; 8; 207; 15; 208; 15; 2] /\
  bsaved [put_atk none 5] = Some [1; 3; 0; 0; 3; 65; 116; 107; 10; 207; 15; 208; 15; 2] /\ bsaved [] = Some [0].
Proof. vm_compute. repeat split. Qed.

(** Exactly which bytes are read as which map. *)
Theorem C70_accepted_iff :
  forall (P : Prog) (Q : QFlag) (C : BCodec P Q), hands_on (b_qtake C) -> (forall t, hands_on (b_vtake C t)) ->
  forall (w : dworld P) bs (m : map_t P Q) rest, Forall is_byte bs ->
  (take_map C w bs = ok (m, rest) <->
   exists l b1, bs = l ++ b1 /\ varint 10 1 l (Z.of_nat (List.length m)) /\ entries_bytes C w b1 m rest).
Proof. exact C70_accepted_iff_proof. Qed.
Print Assumptions C70_accepted_iff.
Example C70_accepted_case :
  hands_on (b_qtake demoB) /\ (forall t, hands_on (b_vtake demoB t)) /\
  bloading [1; 3; 1; 2; 5; 65; 108; 105; 118; 101; 1] = Loaded /\ bloading [1; 3; 1; 2; 5; 65; 108; 105; 118; 101; 2] = Refused /\
  bloading [1; 2; 1; 2; 5; 65; 108; 105; 118; 101; 1] = Refused /\ bloading [1; 3; 1; 2; 4; 65; 108; 105; 118; 101; 1] = Refused /\
  bloading [2; 3; 1; 2; 5; 65; 108; 105; 118; 101; 1] = Refused /\ bloading [0] = Loaded.
Proof. split; [exact (proj1 demo_hands_on)|]. split; [exact (proj2 demo_hands_on)|]. vm_compute. repeat split. Qed.

(** Whatever the bytes, loading returns, with a map or an error, if the impls do and every
    registered stat can be loaded. *)
Theorem C70_returns :
  forall (P : Prog) (Q : QFlag) (C : BCodec P Q), returns (b_qtake C) -> (forall t, returns (b_vtake C t)) ->
  forall (r : registry P), (forall n s, reg_get r n = Some s -> b_serial C (si_ty s) = true /\ fits s) ->
  forall bs, exists o, take_map C (WReg r) bs = Done o.
Proof. exact C70_returns_proof. Qed.
Print Assumptions C70_returns.
Example C70_returns_case :
  returns (b_qtake demoB) /\ bloading [1; 200; 255; 1] = Refused /\ bloading [] = Refused /\ bloading [1; 3; 1; 2; 2; 88; 88; 1] = Refused.
Proof. split; [exact (take_varint_returns 5 15)|]. vm_compute. repeat split. Qed.

(** Whatever is loaded holds values of the types of their stats. *)
Theorem C70_typed :
  forall (P : Prog) (Q : QFlag) (C : BCodec P Q) (w : dworld P) bs (m : map_t P Q) rest,
  take_map C w bs = ok (m, rest) -> m_drop m = Done tt /\ m_clone m = Done m /\
  forall e, In e m -> b_serial C (si_ty (e_stat e)) = true /\ fits (e_stat e) /\ b_ty (e_val e) = vt_value P (si_ty (e_stat e)).
Proof. exact C70_typed_proof. Qed.
Print Assumptions C70_typed.
Example C70_typed_case :
  bloading [2; 3; 0; 0; 3; 65; 116; 107; 8; 0; 0; 2; 3; 0; 0; 5; 65; 108; 105; 118; 101; 1] = Loaded /\
  bcount [2; 3; 0; 0; 3; 65; 116; 107; 8; 0; 0; 2; 3; 0; 0; 5; 65; 108; 105; 118; 101; 1] = 2%nat.
Proof. vm_compute. repeat split. Qed.

(** Not only the bytes that are written are read: the same map has other spellings. *)
Theorem C70_one_spelling_refuted :
  exists bs1 bs2, bs1 <> bs2 /\ Forall is_byte bs1 /\ Forall is_byte bs2 /\
  bsurplus bs1 = Some [] /\ bsurplus bs2 = Some [] /\ bloaded bs1 = bloaded bs2 /\ bcount bs1 = 1%nat.
Proof. exact C70_one_spelling_refuted_proof. Qed.
Print Assumptions C70_one_spelling_refuted.

(** And counts are not respected: of two announced entries the first announces four elements, [x]
    is its fourth, and the second entry is missing; [x] is taken for the second entry. *)
Theorem C70_counts_refuted :
  exists q n v x, take_u32 q = ok (0, [0]) /\ take_str (fun _ => true) n = ok ("Alive"%string, []) /\ take_bool v = ok (true, []) /\
  bloading ([2; 4] ++ q ++ n ++ v ++ x) = Loaded /\ bsurplus ([2; 4] ++ q ++ n ++ v ++ x) = Some [] /\
  bcount ([2; 4] ++ q ++ n ++ v ++ x) = 2%nat.
Proof. exact C70_counts_refuted_proof. Qed.
Print Assumptions C70_counts_refuted.
