(** C66: the stat map does not trust the order of the flags. *)
From Coq Require Import ZArith List Bool Relations.
From Verif Require Import M_Outcome M_Value M_Types M_Qualifier M_Search M_Stat M_StatMap M_AnyOrd
  S_Search S_StatMap S_Demo S_AnyOrd L_AnyOrdProofs.
Import ListNotations.

(** Both binary searches of std keep the contract whatever their closure answers, and are those of
    M_Search.v for a closure that always answers the same. *)
Theorem C66_searches :
  search_contract any_old /\ search_contract any_new /\
  (forall l, pure_search any_old l = bs_old l) /\ (forall l, pure_search any_new l = bs_new l).
Proof. exact C66_searches_proof. Qed.
Print Assumptions C66_searches.
Example C66_searches_case :
  any_new (fun n _ => Some (match n with O => Eq | S O => Lt | _ => Gt end)) 5 = Some (inr 3) /\
  any_old (fun n _ => Some (match n with O => Lt | S O => Gt | _ => Gt end)) 5 = Some (inr 3) /\
  any_new (fun n i => if i =? 3 then None else Some Lt)%nat 5 = None.
Proof. vm_compute. repeat split. Qed.

(** So do the sorts std is made of. *)
Theorem C66_sorts :
  sort_contract insertion /\ sort_contract merging /\
  forall A (c : asked A A) l, (forall n a b, c n a b <> None) -> snd (merging A c l) = true.
Proof. exact C66_sorts_proof. Qed.
Print Assumptions C66_sorts.
Example C66_sorts_case :
  insertion nat (fun _ a b => Some (Nat.compare a b)) [3; 1; 2; 1; 0]%nat = ([0; 1; 1; 2; 3]%nat, true) /\
  merging nat (fun _ a b => Some (Nat.compare a b)) [3; 1; 2; 1; 0]%nat = ([0; 1; 1; 2; 3]%nat, true) /\
  merging nat (fun n a b => Some (if Nat.even n then Lt else Gt)) [3; 1; 2; 1; 0]%nat = ([1; 1; 2; 3; 0]%nat, true) /\
  insertion nat (fun n a b => if (n =? 2)%nat then None else Some Lt) [3; 1; 2; 1; 0]%nat = ([1; 2; 3; 1; 0]%nat, false).
Proof. vm_compute. repeat split. Qed.

(** No order of the flags, lawful or not, changing its mind or panicking, makes a call undefined. *)
Theorem C66_any_order_safe :
  forall (P : Prog) (Q : QFlag) (sr : searcher) (srt : sorter),
  search_contract sr -> sort_contract srt -> distinct_vtables P ->
  forall l : list (acall P Q), Forall any_sound l -> any_run sr srt [] l <> UB.
Proof. exact C66_any_order_safe_proof. Qed.
Print Assumptions C66_any_order_safe.
Theorem C66_any_order_observers :
  forall (P : Prog) (Q : QFlag) (sr : searcher) (srt : sorter),
  search_contract sr -> sort_contract srt -> distinct_vtables P -> sound_prog (P:=P) ->
  forall (l : list (acall P Q)) (m : map_t P Q), Forall any_sound l -> any_run sr srt [] l = Done m ->
  (forall c q s, any_get sr c m q s <> UB) /\ (forall c q s, any_get_evaled sr c m q s <> UB) /\
  (forall s, m_iter (pure_search sr) m s <> UB) /\ (forall x s, m_query (pure_search sr) m x s <> UB) /\
  (forall x s, m_eval (pure_search sr) m x s <> UB) /\ m_clone m = Done m /\ m_drop m = Done tt.
Proof. exact C66_any_order_observers_proof. Qed.
Print Assumptions C66_any_order_observers.
(** Iterating a stat still gives all its entries, each once; a query still joins exactly those that
    qualify; a value got is one stored for that stat, under a qualifier the order called equal. *)
Theorem C66_queries_exact :
  forall (P : Prog) (Q : QFlag) (sr : searcher) (srt : sorter),
  search_contract sr -> sort_contract srt -> distinct_vtables P ->
  forall (l : list (acall P Q)) (m : map_t P Q), Forall any_sound l -> any_run sr srt [] l = Done m ->
  forall s, exists es, entries_of m s es /\ m_iter (pure_search sr) m s = Done es /\
  (forall x, m_query (pure_search sr) m x s =
    let! _ := validate_ty P (vt_value P (si_ty s)) in join_all s (sv_default (VT P (vt_value P (si_ty s)))) (filter (fun p => qualifies_as (fst p) x) es)) /\
  forall c q v, any_get sr c m q s = Done (Some v) -> exists q' n, In (q', v) es /\ c n q' q = Some Eq.
Proof. exact C66_queries_exact_proof. Qed.
Print Assumptions C66_queries_exact.
Example C66_any_order_case :
  let m := ademo [au (always Lt) (put_alive none true); au (always Lt) (put_hp none 3); au moody (put_hp none 4); au (always Gt) (put_hp fire 5);
                  ac booms (put_hp fire 99); au moody (put_atk none 6); au moody (extend_hp [(fire, 0%Z, num 7); (none, 0%Z, num 8)]);
                  au (always Gt) (MRemove none hp)] in
  iter_hp m = Done [(0, 1, 5); (0, 0, 4); (0, 0, 3); (0, 1, 7); (0, 0, 8)]%Z /\
  eval_hp m (@Aggregate intQ 1%Z) = Done 27%Z /\ get_atk m none = Done (Some (num 6)) /\ get_alive m none = Done (Some true) /\
  aget_hp (always Eq) m none = Done (Some (num 8)) /\ aget_hp (always Lt) m none = Done None.
Proof. vm_compute. repeat split. Qed.

(** With a lawful order the run is the one of M_StatMap.v. *)
Theorem C66_lawful_order_same :
  forall (P : Prog) (Q : QFlag) (sr : searcher), search_contract sr -> distinct_vtables P -> lawful_ord (q_cmp Q) ->
  forall (l : list (mop P Q)) (m : map_t P Q) k,
  any_run sr insertion m (map (fun o => ACall o steady k) l) = mops_run (pure_search sr) m l.
Proof. exact C66_lawful_order_same_proof. Qed.
Print Assumptions C66_lawful_order_same.
Example C66_lawful_order_case :
  let l := [put_hp fire 3; put_hp none 4; put_atk none 6; extend_hp [(fire, 0%Z, num 7)]; put_hp none 5] in
  let m := ademo (map (au steady) l) in
  iter_hp m = iter_hp (demo_run l) /\ iter_hp m = Done [(0, 0, 5); (0, 1, 3); (0, 1, 7)]%Z.
Proof. vm_compute. repeat split. Qed.

(** A panic of the order inside the sort of [extend] that is caught leaves the vector out of order;
    the next query of a stat may then read a value of another type. *)
Theorem C66_caught_sort_panic_refuted :
  exists (l : list (acall demo intQ)) m, Forall (fun k => sound_op (a_op k)) l /\
  any_run any_new insertion [] l = Done m /\ m_query bs_new m (@Aggregate intQ 0%Z) atk = UB.
Proof. exact C66_caught_sort_panic_refuted_proof. Qed.
Print Assumptions C66_caught_sort_panic_refuted.
(** The map of keys to values is lost: a value inserted is not found again, twice. *)
Theorem C66_map_semantics_refuted :
  exists (c : flag_order intQ) (l : list (mop demo intQ)) m, (forall n a b, c n a b <> None) /\
  any_run any_new insertion [] (map (fun o => ACall o c false) l) = Done m /\
  l = [put_hp none 3; put_hp none 4] /\ aget_hp c m none = Done None /\ length m = 2.
Proof. exact C66_map_semantics_refuted_proof. Qed.
Print Assumptions C66_map_semantics_refuted.
