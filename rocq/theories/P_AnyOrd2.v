(** C66 and C67: what is read, not only that reading is defined. *)
From Coq Require Import ZArith List Bool.
From Verif Require Import M_Outcome M_Value M_Types M_Qualifier M_Search M_Stat M_StatMap M_Pair M_AnyOrd M_VTable
  S_Search S_StatMap S_Demo S_AnyOrd S_VTable L_AnyOrd4.
Import ListNotations.

(** Under a lawful order [get] and [get_evaled] are those of M_StatMap.v. *)
Theorem C66_lawful_get_same :
  forall (P : Prog) (Q : QFlag) (sr : searcher), search_contract sr -> distinct_vtables P -> lawful_ord (q_cmp Q) ->
  forall (m : map_t P Q) q s,
  any_get sr steady m q s = m_get (pure_search sr) m q s /\
  any_get_evaled sr steady m q s = m_get_evaled (pure_search sr) m q s.
Proof. exact C66_lawful_get_same_proof. Qed.
Print Assumptions C66_lawful_get_same.
(** Under any order [get_evaled] evaluates what [get] finds. *)
Theorem C66_get_evaled :
  forall (P : Prog) (Q : QFlag) (sr : searcher) (c : flag_order Q) (m : map_t P Q) q s,
  (forall v, any_get sr c m q s = Done (Some v) -> any_get_evaled sr c m q s = let! r := sv_eval (VT P (vt_value P (si_ty s))) v in Done (Some r)) /\
  (any_get sr c m q s = Done None -> any_get_evaled sr c m q s = Done None) /\
  (forall p, any_get sr c m q s = Panics p -> any_get_evaled sr c m q s = Panics p).
Proof. exact C66_get_evaled_proof. Qed.
Print Assumptions C66_get_evaled.
Example C66_get_evaled_case :
  let m := ademo (map (au steady) [put_hp fire 3; put_hp none 4]) in
  aget_hp steady m fire = Done (Some (num 3)) /\ any_get_evaled any_new steady m fire hp = Done (Some 3%Z) /\
  any_get_evaled any_new (always Lt) m fire hp = Done None /\ any_get_evaled any_new booms m fire hp = Panics PUser.
Proof. vm_compute. repeat split. Qed.

(** Stats asked by the type their table was made for are read as in M_StatMap.v and M_Pair.v. *)
Theorem C67_observers_same : forall (c : crate) (Q : QFlag) (sr : searcher) (m : map_t (prog_of c) Q) (s : inst (prog_of c)),
  (forall o q, v_get sr o m q (raise_inst s) = any_get sr o m q s) /\
  v_iter sr m (raise_inst s) = m_iter (pure_search sr) m s /\
  (forall x, v_query sr m x (raise_inst s) = m_query (pure_search sr) m x s) /\
  (forall v, v_new (c:=c) (raise_inst s) v = pair_new (prog_of c) s v) /\
  (forall (D : StatTypes (prog_of c)) (p : pair (prog_of c)), validate_stat D (si_ty s) = Done tt -> v_into p (raise_inst s) = pair_into_result D p (si_ty s)).
Proof. exact C67_observers_same_proof. Qed.
Print Assumptions C67_observers_same.
(** A pair gives its value back to the stat it was made for, to others some value exactly if they
    have the same table. *)
Theorem C67_pairs_return : forall c : crate, own_tables c -> same_values c ->
  forall s v (p : pair (prog_of c)), comes (c:=c) s -> v_new s v = Done p ->
  v_into p s = Done (Some v) /\
  forall s', comes (c:=c) s' ->
  (cr_addr c (vs_table s) = cr_addr c (vs_table s') -> exists w, v_into p s' = Done (Some w)) /\
  (cr_addr c (vs_table s) <> cr_addr c (vs_table s') -> v_into p s' = Done None).
Proof. exact C67_pairs_return_proof. Qed.
Print Assumptions C67_pairs_return.
Example C67_pairs_return_case :
  merged_return 0 0 3 = Done (Some (num 3)) /\ merged_return 0 1 3 = Done (Some (num 3)) /\
  merged_return 0 3 3 = Done None /\ merged_wrapped 0 3 = Done None.
Proof. vm_compute. repeat split. Qed.
