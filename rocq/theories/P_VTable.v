(** C67: which stats can share a table, and what happens when they do. *)
From Coq Require Import ZArith List Bool.
From Verif Require Import M_Outcome M_Value M_Types M_Qualifier M_Search M_Stat M_StatMap M_AnyOrd M_VTable
  S_Search S_StatMap S_Demo S_AnyOrd S_VTable L_VTable2.
Import ListNotations.

(** Were [StatVTable<T>] invariant in [T], the compiler would let a type return only tables made for
    it, and no two types the same. *)
Theorem C67_invariant : forall c, accepted Invariant c -> own_tables c.
Proof. exact C67_invariant_proof. Qed.
Print Assumptions C67_invariant.
Theorem C67_never_shared : forall c, own_tables c -> forall T U t, gives c T t -> gives c U t -> T = U.
Proof. exact C67_never_shared_proof. Qed.
Print Assumptions C67_never_shared.
Example C67_invariant_case :
  accepted Invariant fickle /\ gives fickle (Named 0) (Named 0, 0) /\ gives fickle (Named 0) (Named 0, 1).
Proof.
  split; [intros T n; apply coerces_inv; reflexivity|]. split; [apply (gives_own fickle _ 0); reflexivity|].
  apply (gives_own fickle _ 1); reflexivity.
Qed.

(** It is covariant: a type returns only tables made for one of its subtypes; so types without other
    subtypes, those that mention no function taking a reference of one lifetime, are safe. *)
Theorem C67_covariant : forall c, accepted declared c -> forall T t, gives c T t -> sub (fst t) T = true.
Proof. exact C67_covariant_proof. Qed.
Print Assumptions C67_covariant.
Theorem C67_rigid :
  (forall c, accepted declared c -> forall T t, rigid T -> gives c T t -> fst t = T) /\
  (forall n, rigid (Named n)) /\ rigid (FnRef ForAny) /\ (forall T, rigid T -> rigid (Wrap T)).
Proof. exact C67_rigid_proof. Qed.
Print Assumptions C67_rigid.
Example C67_covariant_case :
  accepted declared smuggler /\ gives smuggler narrow (wide, 0) /\ sub wide narrow = true /\ sub narrow wide = false /\
  wide <> narrow /\ gives smuggler (Wrap (Named 4)) (Wrap (Named 4), 0).
Proof.
  split; [exact smuggler_accepted|]. split; [exact smuggler_narrow|]. split; [reflexivity|]. split; [reflexivity|].
  split; [discriminate|]. apply (gives_own smuggler _ 0). reflexivity.
Qed.
(** Otherwise a safe program can give two stats with values of different types one table, and reads
    a value at the wrong type. *)
Theorem C67_declared_refuted :
  exists c : crate, accepted declared c /\ apart c /\ exists (k : flag_order intQ * vop c intQ) m (s : vstat),
  vcall_ok k /\ comes (c:=c) s /\ vrun any_new insertion [] [k] = Done m /\
  v_get any_new steady m none s = UB /\ v_query any_new m (@Aggregate intQ 0%Z) s = UB.
Proof. exact C67_declared_refuted_proof. Qed.
Print Assumptions C67_declared_refuted.

(** While types return their own tables nothing is undefined, even if [vtable()] returns several, in
    any order, and if the compiler lays tables for the same value type together. *)
Theorem C67_tables_safe : forall (c : crate) (Q : QFlag) (sr : searcher) (srt : sorter),
  search_contract sr -> sort_contract srt -> own_tables c -> same_values c ->
  forall l : list (flag_order Q * vop c Q), Forall vcall_ok l -> vrun sr srt [] l <> UB.
Proof. exact C67_tables_safe_proof. Qed.
Print Assumptions C67_tables_safe.
Theorem C67_tables_observers : forall (c : crate) (Q : QFlag) (sr : searcher) (srt : sorter),
  search_contract sr -> sort_contract srt -> own_tables c -> same_values c -> sound_prog (P:=prog_of c) ->
  forall (l : list (flag_order Q * vop c Q)) (m : map_t (prog_of c) Q), Forall vcall_ok l -> vrun sr srt [] l = Done m ->
  (forall o q s, comes (c:=c) s -> v_get sr o m q s <> UB) /\ (forall s, comes (c:=c) s -> v_iter sr m s <> UB) /\
  (forall x s, comes (c:=c) s -> v_query sr m x s <> UB) /\ m_clone m = Done m /\ m_drop m = Done tt.
Proof. exact C67_tables_observers_proof. Qed.
Print Assumptions C67_tables_observers.
Theorem C67_pairs : forall c : crate, own_tables c -> same_values c ->
  forall s v s' (p : pair (prog_of c)), comes (c:=c) s -> comes (c:=c) s' -> v_new s v = Done p -> v_into p s' <> UB.
Proof. exact C67_pairs_proof. Qed.
Print Assumptions C67_pairs.
Example C67_tables_case :
  let m := v_or (vrun any_new insertion [] [fickle_put 0 3; fickle_put 1 4; fickle_put 0 5]) in
  let w := v_or (vrun any_new insertion [] [merged_put 0 3; merged_flag true; merged_put 3 4]) in
  fickle_query m 0 = Done (num 5) /\ fickle_query m 1 = Done (num 4) /\
  merged_query w 1 = Done (num 3) /\ merged_query w 3 = Done (num 4) /\ length w = 3.
Proof. vm_compute. repeat split. Qed.

(** With one table in each call the calls are those of M_AnyOrd.v and, with a lawful order, of
    M_StatMap.v. *)
Theorem C67_same_as_map : forall (c : crate) (Q : QFlag) (sr : searcher) (srt : sorter) (l : list (flag_order Q * mop (prog_of c) Q)) m,
  vrun sr srt m (map (fun k => (fst k, raise (snd k))) l) = any_run sr srt m (map (fun k => ACall (snd k) (fst k) false) l).
Proof. exact C67_same_as_map_proof. Qed.
Print Assumptions C67_same_as_map.

(** But a stat with two tables does not find what it inserted, and a merged one finds what another
    inserted. *)
Theorem C67_several_tables_refuted :
  exists c : crate, accepted Invariant c /\ apart c /\ exists (k : flag_order intQ * vop c intQ) m (s : vstat),
  vcall_ok k /\ comes (c:=c) s /\ vs_impl s = Named 0 /\ vrun any_new insertion [] [k] = Done m /\ length m = 1 /\
  (exists t v, snd k = VInsert none (VStat (vs_impl s) t (vs_index s)) v) /\ v_get any_new steady m none s = Done None.
Proof. exact C67_several_tables_refuted_proof. Qed.
Print Assumptions C67_several_tables_refuted.
Theorem C67_merged_refuted :
  exists c : crate, accepted Invariant c /\ same_values c /\ exists (k : flag_order intQ * vop c intQ) m (s : vstat) v,
  vcall_ok k /\ comes (c:=c) s /\ vs_impl s = Named 1 /\ vrun any_new insertion [] [k] = Done m /\
  (exists t v, snd k = VInsert none (VStat (Named 0) t (vs_index s)) v) /\ v_get any_new steady m none s = Done (Some v).
Proof. exact C67_merged_refuted_proof. Qed.
Print Assumptions C67_merged_refuted.
