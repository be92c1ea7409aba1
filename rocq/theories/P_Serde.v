(** C38, C39, C50, C51 and the deserialization part of C24: saving and loading stat maps. *)
From Coq Require Import String ZArith List Bool Lia Sorted.
From Verif Require Import M_Outcome M_Ints M_Value M_Types M_Qualifier M_Search M_Stat M_StatMap M_HashMap M_Registry M_Serde
  S_Search S_StatMap S_Demo S_Registry S_Serde
  L_Outcome L_Search L_StatMap L_StatMap2 L_StatMap3 L_StatMap4 L_StatMap5 L_Demo L_Registry L_Serde L_SerdeProofs.
Import ListNotations.
Local Open Scope Z_scope.

(** ** C38 *)
(** In the process that saved it the map comes back as it was, entry by entry. *)
Theorem C38_same_process :
  forall (P : Prog) (Q : QFlag) (N : StatNames P) (C : Codec P Q) (r : registry P) (m : map_t P Q),
  (forall e, In e m -> storable C e /\ name_back N r (e_stat e)) ->
  exists d, ser_map N C m = ok d /\ de_map C (WReg r) d = ok m.
Proof. exact C38_same_process_proof. Qed.
Print Assumptions C38_same_process.

(** For maps made by any history: it is enough that the impls round trip and that the names of
    the contained stats lead back to them. *)
Theorem C38_history_same_process :
  forall (P : Prog) (Q : QFlag) (N : StatNames P) (C : Codec P Q) (bs : list comparison -> bsres),
  bs_contract bs -> distinct_vtables P -> lawful_ord (q_cmp Q) ->
  (forall t (v : val (VT P t)), exists d, c_vser C t v = ok d /\ c_vde C t d = ok v) ->
  (forall x, flag_back C x) ->
  forall (r : registry P) (l : list (mop P Q)) (m : map_t P Q), Forall sound_op l -> mops_run bs [] l = Done m ->
  (forall e, In e m -> c_serial C (si_ty (e_stat e)) = true /\ name_back N r (e_stat e)) ->
  exists d, ser_map N C m = ok d /\ de_map C (WReg r) d = ok m.
Proof. exact C38_history_same_process_proof. Qed.
Print Assumptions C38_history_same_process.

(** After successful registration of every stat type, names lead back. *)
Theorem C38_registered_names_lead_back :
  forall (P : Prog) (N : StatNames P), distinct_vtables P ->
  forall (l1 l2 : list (rop P)) (s : inst P) n,
  sn_name N (si_ty s) (si_index s) = Done n -> named N n s ->
  snd (register N (rops_run N l1) (si_ty s)) = Done tt ->
  (forall U j, In (RReplace U) l2 -> ~ In (n, j) (sn_values N U)) ->
  name_back N (rops_run N (l1 ++ RRegister (si_ty s) :: l2)) s.
Proof. exact C38_registered_names_lead_back_proof. Qed.
Print Assumptions C38_registered_names_lead_back.

(** In a process where the statics have other addresses the same entries come back in the same
    order, whatever that order means there. *)
Theorem C38_other_process_content :
  forall (P : Prog) (Q : QFlag) (N : StatNames P) (C : Codec P Q) (a : sty P -> Z)
         (r' : registry (readdress P a)) (m : map_t P Q),
  (forall e, In e m -> storable C e /\
     exists n, sn_name N (si_ty (e_stat e)) (si_index (e_stat e)) = Done n /\ reg_get r' n = Some (re_inst P a (e_stat e))) ->
  exists d, ser_map N C m = ok d /\ de_map (re_codec P a C) (WReg r') d = ok (re_map P a m).
Proof. exact C38_other_process_content_proof. Qed.
Print Assumptions C38_other_process_content.

(** If the new addresses order the stat types of the map as the old ones did, every observer
    answers as before (for any two searches meeting the contract of [binary_search]). *)
Theorem C38_other_process_same_order :
  forall (P : Prog) (Q : QFlag) (bs bs' : list comparison -> bsres) (a : sty P -> Z),
  bs_contract bs -> bs_contract bs' -> distinct_vtables P -> injective a -> lawful_ord (q_cmp Q) ->
  forall (l : list (mop P Q)) (m : map_t P Q), Forall tsingle l -> mops_run bs [] l = Done m ->
  same_order a m -> answers_same bs bs' a m (re_map P a m).
Proof. exact C38_other_process_same_order_proof. Qed.
Print Assumptions C38_other_process_same_order.

(** In particular if all stats of the map belong to one [Stat] type. *)
Theorem C38_other_process_one_type :
  forall (P : Prog) (Q : QFlag) (bs bs' : list comparison -> bsres) (a : sty P -> Z),
  bs_contract bs -> bs_contract bs' -> distinct_vtables P -> injective a -> lawful_ord (q_cmp Q) ->
  forall (l : list (mop P Q)) (m : map_t P Q), Forall tsingle l -> mops_run bs [] l = Done m ->
  one_type m -> answers_same bs bs' a m (re_map P a m).
Proof. exact C38_other_process_one_type_proof. Qed.
Print Assumptions C38_other_process_one_type.

(** Otherwise not: a map saved by one build and loaded by another loses the value of a stat it
    contains, and a query by safe code reads a number as a [bool]. Both with the old and with the
    new [binary_search] of std. *)
Theorem C38_other_process_refuted :
  distinct_vtables demo2 /\
  exists (l : list (mop demo intQ)) d,
  runs l = true /\ saved l = Some d /\ loading2 d = Loaded /\
  get_atk (demo_run l) none = Done (Some (num 4)) /\
  eval_alive (demo_run l) (@Aggregate intQ 0) = Done true /\
  forall bs, bs = bs_old \/ bs = bs_new ->
  get_atk2 bs (load2 d) none = Done None /\
  eval_alive2 bs (load2 d) (@Aggregate intQ 0) = UB.
Proof. exact C38_other_process_refuted_proof. Qed.
Print Assumptions C38_other_process_refuted.

Example C38_case :
  exists d, saved [put_atk none 4; put_alive none true; put_hp fire 3; put_hp ice 5] = Some d /\ loads d = true /\
  get_hp (load d) fire = Done (Some (num 3)) /\ eval_hp (load d) (@Aggregate intQ 3) = Done 8 /\ get_alive (load d) none = Done (Some true).
Proof. eexists. split; [vm_compute; reflexivity|]. vm_compute. repeat split. Qed.
(** The hypotheses on impls, names and order hold of the demo program. *)
Example C38_hypotheses :
  (forall x, flag_back demoC x) /\ name_back saveN demo_reg hp /\ name_back saveN demo_reg alive /\
  (forall x, value_back demoC hp (@Buf demo VNum (num x))) /\
  same_order (P := demo) (Q := intQ) moved [Entry atk none (@Buf demo VNum (num 1)); Entry hp none (@Buf demo VNum (num 2))].
Proof.
  split; [intros x; exists (DInt x); split; reflexivity|]. split; [exists "Hp"%string; split; reflexivity|].
  split; [exists "Alive"%string; split; reflexivity|]. split.
  - intros x. split; [reflexivity|]. split; [reflexivity|]. exists (num x), (dnum x). repeat split; reflexivity.
  - intros e1 e2 [<-|[<-|[]]] [<-|[<-|[]]]; reflexivity.
Qed.

(** ** C39 *)
(** A document yields a map exactly if it is the struct with the one field, and each of its items
    has (at least, or for a strict format exactly) three elements: a decodable qualifier, a
    registered name and a decodable value. *)
Theorem C39_accepted_iff :
  forall (P : Prog) (Q : QFlag) (C : Codec P Q) (w : dworld P) d (m : map_t P Q),
  de_map C w d = ok m <-> exists l, is_inner C d (DSeq l) /\ Forall2 (entry_doc C w) l m.
Proof. exact C39_accepted_iff_proof. Qed.
Print Assumptions C39_accepted_iff.

Theorem C39_entry_iff :
  forall (P : Prog) (Q : QFlag) (C : Codec P Q) (w : dworld P) d e, de_entry C w d = ok e <-> entry_doc C w d e.
Proof. exact C39_entry_iff_proof. Qed.
Print Assumptions C39_entry_iff.

Theorem C39_qualifier_iff :
  forall (P : Prog) (Q : QFlag) (C : Codec P Q) d q, de_qual C d = ok q <-> qual_doc C d q.
Proof. exact C39_qualifier_iff_proof. Qed.
Print Assumptions C39_qualifier_iff.

(** The single faults, each of them an [Err]. *)
Theorem C39_single_faults :
  forall (P : Prog) (Q : QFlag) (C : Codec P Q) (r : registry P),
  de_entry C (WReg r) (DSeq []) = err /\
  (forall dq, de_qual C dq = err -> forall l, de_entry C (WReg r) (DSeq (dq :: l)) = err) /\
  (forall dq q, de_qual C dq = ok q ->
     de_entry C (WReg r) (DSeq [dq]) = err /\
     (forall d2 l, (forall n, d2 <> DStr n) -> de_entry C (WReg r) (DSeq (dq :: d2 :: l)) = err) /\
     (forall n l, reg_get r n = None -> de_entry C (WReg r) (DSeq (dq :: DStr n :: l)) = err) /\
     (forall n s, reg_get r n = Some s ->
        de_entry C (WReg r) (DSeq [dq; DStr n]) = err /\
        (forall dv l, c_serial C (si_ty s) = true -> fits s -> c_vde C (vt_value P (si_ty s)) dv = err ->
           de_entry C (WReg r) (DSeq (dq :: DStr n :: dv :: l)) = err))) /\
  (forall d, (forall l, d <> DSeq l) -> de_entry C (WReg r) d = err).
Proof. exact C39_single_faults_proof. Qed.
Print Assumptions C39_single_faults.

(** A faulty item anywhere: no map; and an [Err] if the items before it are well formed. *)
Theorem C39_faulty_item_no_map :
  forall (P : Prog) (Q : QFlag) (C : Codec P Q) (w : dworld P) l1 d l2,
  (forall e, de_entry C w d <> ok e) ->
  forall doc, is_inner C doc (DSeq (l1 ++ d :: l2)) -> forall m, de_map C w doc <> ok m.
Proof. exact C39_faulty_item_no_map_proof. Qed.
Print Assumptions C39_faulty_item_no_map.

Theorem C39_faulty_item_error :
  forall (P : Prog) (Q : QFlag) (C : Codec P Q) (w : dworld P) l1 m1 d l2,
  de_entries C w l1 = ok m1 -> de_entry C w d = err -> de_entries C w (l1 ++ d :: l2) = err.
Proof. exact C39_faulty_item_error_proof. Qed.
Print Assumptions C39_faulty_item_error.

(** Every loaded map holds values of the right types: dropping and cloning it is defined. *)
Theorem C39_loaded_is_typed :
  forall (P : Prog) (Q : QFlag) (C : Codec P Q) (w : dworld P) d (m : map_t P Q),
  de_map C w d = ok m -> m_drop m = Done tt /\ m_clone m = Done m /\
  forall e, In e m -> fits (e_stat e) /\ b_ty (e_val e) = vt_value P (si_ty (e_stat e)).
Proof. exact C39_loaded_is_typed_proof. Qed.
Print Assumptions C39_loaded_is_typed.

(** Not always an [Err]: without the registry resource an unregistered name is a panic. *)
Theorem C39_always_error_refuted :
  exists d, loading1 d = Refused /\
  loading WNoResource d = Panicked PUnwrap.
Proof. exact C39_always_error_refuted_proof. Qed.
Print Assumptions C39_always_error_refuted.

(** And some faults are not noticed: entries out of order or repeated are accepted, and the map
    then breaks its own invariant (a query reads a value of another type). *)
Theorem C39_bad_order_accepted_refuted :
  exists d, loads d = true /\ ~ wf (load d) /\ query_atk (load d) = UB.
Proof. exact C39_bad_order_accepted_refuted_proof. Qed.
Print Assumptions C39_bad_order_accepted_refuted.

Example C39_case :
  let e := entry_of fire "Hp" (dnum 3) in
  loads (map_of [e]) = true /\ loads (DSeq [DSeq [e; e]]) = true /\
  loads (map_of [e; DSeq [DNull]]) = false /\
  loading1 (map_of [e; DSeq [DInt 1; DStr "Hp"]])%string = Refused /\
  loading1 (map_of [e; entry_of fire "Speed" (dnum 3)])%string = Refused /\
  loading1 (map_of [entry_of fire "Hp" (DBool true)])%string = Refused /\
  loading1 (DMap [("inner", DSeq [e]); ("inner", DSeq [])])%string = Refused /\
  loading1 (DMap [("outer", DNull); ("inner", DSeq [e])])%string = Loaded /\
  de_qual demoC (DMap [("all_of", DInt 2); ("color", DNull); ("any_of", DInt 1)])%string = ok (@Qual intQ 1 2) /\
  de_qual demoC (DMap [("all_of", DInt 2); ("any_of", DInt 1); ("any_of", DInt 1)])%string = err /\
  de_qual demoC (DMap [("all_of", DInt 2)])%string = err /\ de_qual demoC (DSeq [DInt 1; DInt 2]) = ok (@Qual intQ 1 2).
Proof. vm_compute. repeat split. Qed.

(** ** C24: values decoded and then thrown away *)
(** A value is leaked exactly by a well-formed entry followed by surplus elements, in a format that
    refuses them: the decoded value sits in a [Buffer], which has no destructor. *)
Theorem C24_decoding_leaks_exactly :
  forall (P : Prog) (Q : QFlag) (C : Codec P Q) (w : dworld P) d b,
  de_leaked C w d = [b] <->
  exists dq dn dv x rest e, d = DSeq (dq :: dn :: dv :: x :: rest) /\ c_strict C = true /\
    de_entry C w (DSeq [dq; dn; dv]) = ok e /\ e_val e = b.
Proof. exact C24_decoding_leaks_exactly_proof. Qed.
Print Assumptions C24_decoding_leaks_exactly.

Example C24_decoding_case :
  leaked_types (DSeq [DSeq [DInt 0; DInt 1]; DStr "Alive"; DBool true; DNull])%string = [VBool] /\
  leaked_types (DSeq [DSeq [DInt 0; DInt 1]; DStr "Alive"; DBool true])%string = [].
Proof. vm_compute. repeat split. Qed.

(** ** C50: stats without serialization support *)
Theorem C50_no_serialize :
  forall (P : Prog) (Q : QFlag) (N : StatNames P) (C : Codec P Q),
  (forall m d e, ser_map N C m = ok d -> In e m -> c_serial C (si_ty (e_stat e)) = true) /\
  (forall w d m e, de_map C w d = ok m -> In e m -> c_serial C (si_ty (e_stat e)) = true) /\
  (forall T b, c_serial C T = false -> ser_value C T b = Panics PNoSerialize) /\
  (forall T d, c_serial C T = false -> de_value C T d = Panics PNoSerialize).
Proof. exact C50_no_serialize_proof. Qed.
Print Assumptions C50_no_serialize.

(** ** C51: the document depends only on the content *)
(** Two histories that lead to the same finite map give the same document, in one process. *)
Theorem C51_canonical_document :
  forall (P : Prog) (Q : QFlag) (N : StatNames P) (C : Codec P Q) (bs : list comparison -> bsres),
  bs_contract bs -> distinct_vtables P -> lawful_ord (q_cmp Q) ->
  forall (l1 l2 : list (mop P Q)) m1 m2, Forall tsingle l1 -> Forall tsingle l2 ->
  mops_run bs [] l1 = Done m1 -> mops_run bs [] l2 = Done m2 ->
  (forall q s, m_get bs m1 q s = m_get bs m2 q s) ->
  m1 = m2 /\ ser_map N C m1 = ser_map N C m2.
Proof. exact C51_canonical_document_proof. Qed.
Print Assumptions C51_canonical_document.

Example C51_case :
  saved [put_atk none 4; put_hp fire 3] = saved [put_hp fire 1; put_atk none 4; put_hp ice 2; MRemove ice hp; put_hp fire 3].
Proof. vm_compute. reflexivity. Qed.
