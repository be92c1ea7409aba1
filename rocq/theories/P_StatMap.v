(** C04-C07, C22, C24 (maps), C47, C48: [StatMap]. *)
From Coq Require Import ZArith List Bool Sorted Permutation.
From Verif Require Import M_Outcome M_Value M_Qualifier M_Search M_Stat M_StatMap
  S_Search S_StatMap S_Demo L_Outcome L_Search L_StatMap L_StatMap2 L_StatMap3 L_StatMap4 L_StatMap5 L_Demo L_StatMapProofs.
Import ListNotations.
Local Open Scope Z_scope.

(** ** C04: a map *)
(** Both binary searches std has used meet the contract assumed below. *)
Theorem C04_binary_search_contract_old : bs_contract bs_old.
Proof. exact bs_old_contract. Qed.
Print Assumptions C04_binary_search_contract_old.
Theorem C04_binary_search_contract_new : bs_contract bs_new.
Proof. exact bs_new_contract. Qed.
Print Assumptions C04_binary_search_contract_new.

(** Any history of single operations is a history of a finite map, and every observer reads
    that map. *)
Theorem C04_map_semantics :
  forall (P : Prog) (Q : QFlag) (bs : list comparison -> bsres),
  bs_contract bs -> distinct_vtables P -> lawful_ord (q_cmp Q) ->
  forall (l : list (mop P Q)) (m : map_t P Q), Forall tsingle l -> mops_run bs [] l = Done m ->
  exists sp : tmap P Q, tspec_run empty_tmap l sp /\
    (forall q s, m_get bs m q s = Done (sp s q)) /\
    (forall q s, m_get_evaled bs m q s =
       match sp s q with
       | Some v => let! r := sv_eval (VT P (vt_value P (si_ty s))) v in Done (Some r)
       | None => Done None
       end) /\
    (forall q s, m_removed bs m q s = Done (sp s q)) /\
    (exists keys, NoDup keys /\ (forall s q, In (s, q) keys <-> sp s q <> None) /\ m_len m = length keys) /\
    (m_is_empty m = true <-> forall s q, sp s q = None).
Proof. exact C04_map_semantics_proof. Qed.
Print Assumptions C04_map_semantics.

(** No operation panics or is undefined by itself: it returns if the value types fit a buffer
    and the caller's functions return. *)
Theorem C04_total :
  forall (P : Prog) (Q : QFlag) (bs : list comparison -> bsres),
  bs_contract bs -> distinct_vtables P -> lawful_ord (q_cmp Q) ->
  forall l : list (mop P Q), Forall total_mop l -> exists m, mops_run bs [] l = Done m.
Proof. exact C04_total_proof. Qed.
Print Assumptions C04_total.

(** The hypotheses of the theorems of this file hold of the program used in the examples. *)
Example C04_hypotheses :
  distinct_vtables demo /\ lawful_ord (q_cmp intQ) /\ sound_prog (P := demo) /\
  Forall total_mop [put_hp fire 3; put_alive none true; @MModify demo intQ none hp (@OMin (VT demo VNum) 0);
                    @MIterMut demo intQ alive (fun _ b => Done (negb b))].
Proof. exact demo_hypotheses. Qed.

Example C04_case :
  let m := demo_run [put_hp fire 3; put_alive none true; put_hp none 8; add_num none 2; MRemove fire hp] in
  get_hp m none = Done (Some (num 10)) /\ get_hp m fire = Done None /\
  get_alive m none = Done (Some true) /\ m_len m = 2%nat.
Proof. vm_compute. repeat split. Qed.

(** ** C05: queries *)
Theorem C05_query_joins_exactly :
  forall (P : Prog) (Q : QFlag) (bs : list comparison -> bsres),
  bs_contract bs -> distinct_vtables P -> lawful_ord (q_cmp Q) ->
  forall (ops : list (mop P Q)) (m : map_t P Q), Forall tsingle ops -> mops_run bs [] ops = Done m ->
  exists sp : tmap P Q, tspec_run empty_tmap ops sp /\
  forall x s, exists l, selection sp s (fun q => qualifies_as q x) l /\
    m_query bs m x s =
      (let! _ := validate_ty P (vt_value P (si_ty s)) in
       join_all s (sv_default (VT P (vt_value P (si_ty s)))) l) /\
    m_eval bs m x s = let! v := m_query bs m x s in sv_eval (VT P (vt_value P (si_ty s))) v.
Proof. exact C05_query_joins_exactly_proof. Qed.
Print Assumptions C05_query_joins_exactly.

(** The list above is determined by the map. *)
Theorem C05_selection_unique :
  forall (P : Prog) (Q : QFlag), lawful_ord (q_cmp Q) ->
  forall (sp : tmap P Q) s f l1 l2, selection sp s f l1 -> selection sp s f l2 -> l1 = l2.
Proof. exact selection_unique. Qed.
Print Assumptions C05_selection_unique.

(** After any history whatsoever (also with keys repeated by bulk insertion) a query joins the
    matching part of what [iter] yields. *)
Theorem C05_query_joins_iter :
  forall (P : Prog) (Q : QFlag) (bs : list comparison -> bsres),
  bs_contract bs -> distinct_vtables P -> lawful_ord (q_cmp Q) ->
  forall (ops : list (mop P Q)) (m : map_t P Q), Forall sound_op ops -> mops_run bs [] ops = Done m ->
  forall x s, exists l, m_iter bs m s = Done l /\
    m_query bs m x s =
      (let! _ := validate_ty P (vt_value P (si_ty s)) in
       join_all s (sv_default (VT P (vt_value P (si_ty s)))) (filter (fun p => qualifies_as (fst p) x) l)).
Proof. exact C05_query_joins_iter_proof. Qed.
Print Assumptions C05_query_joins_iter.

Example C05_case :
  let m := demo_run [put_hp fire 3; put_hp ice 100; put_hp none 8; put_atk fire 50] in
  eval_hp m (@Aggregate intQ 1) = Done 11 /\ eval_hp m (@Aggregate intQ 3) = Done 111 /\
  eval_hp m (@Exact intQ 0 2) = Done 100 /\ eval_alive m (@Aggregate intQ 1) = Done false.
Proof. vm_compute. repeat split. Qed.

(** ** C06: one stat at a time *)
Theorem C06_iter :
  forall (P : Prog) (Q : QFlag) (bs : list comparison -> bsres),
  bs_contract bs -> distinct_vtables P -> lawful_ord (q_cmp Q) ->
  forall (ops : list (mop P Q)) (m : map_t P Q), Forall tsingle ops -> mops_run bs [] ops = Done m ->
  exists sp : tmap P Q, tspec_run empty_tmap ops sp /\
  forall s, exists l, selection sp s (fun _ => true) l /\ m_iter bs m s = Done l.
Proof. exact C06_iter_proof. Qed.
Print Assumptions C06_iter.
Theorem C06_iter_mut :
  forall (P : Prog) (Q : QFlag) (bs : list comparison -> bsres),
  bs_contract bs -> distinct_vtables P -> lawful_ord (q_cmp Q) ->
  forall (ops : list (mop P Q)) (m : map_t P Q), Forall tsingle ops -> mops_run bs [] ops = Done m ->
  forall s f x, mop_run bs m (MIterMut s f) = Done x ->
  (forall q, m_get bs m q s = Done None -> m_get bs (x_map x) q s = Done None) /\
  (forall q v, m_get bs m q s = Done (Some v) ->
     exists v', f q v = Done v' /\ m_get bs (x_map x) q s = Done (Some v')) /\
  (forall s' q, s' <> s -> m_get bs (x_map x) q s' = m_get bs m q s').
Proof. exact C06_iter_mut_proof. Qed.
Print Assumptions C06_iter_mut.
Theorem C06_remove_all :
  forall (P : Prog) (Q : QFlag) (bs : list comparison -> bsres),
  bs_contract bs -> distinct_vtables P -> lawful_ord (q_cmp Q) ->
  forall (ops : list (mop P Q)) (m : map_t P Q), Forall tsingle ops -> mops_run bs [] ops = Done m ->
  forall s, exists x, mop_run bs m (MRemoveAll s) = Done x /\
  (forall q, m_get bs (x_map x) q s = Done None) /\
  (forall s' q, s' <> s -> m_get bs (x_map x) q s' = m_get bs m q s').
Proof. exact C06_remove_all_proof. Qed.
Print Assumptions C06_remove_all.
Example C06_case :
  let m := demo_run [put_hp fire 3; put_alive fire true; put_hp ice 5; put_atk fire 50; each_hp 1; MRemoveAll alive] in
  iter_hp m = Done [(0, 1, 4); (0, 2, 6)] /\ iter_alive m = Done [] /\ iter_atk m = Done [(0, 1, 50)].
Proof. vm_compute. repeat split. Qed.

(** ** C07: bulk construction *)
(** With new, distinct keys in every bulk insertion the map stays a map. [from_iter] is [extend]
    of the empty map. *)
Theorem C07_extend_fresh_keys :
  forall (P : Prog) (Q : QFlag) (bs : list comparison -> bsres),
  bs_contract bs -> distinct_vtables P -> lawful_ord (q_cmp Q) ->
  forall (l : list (mop P Q)) (m : map_t P Q), fresh_history empty_tmap l -> mops_run bs [] l = Done m ->
  exists sp : tmap P Q, tspec_run empty_tmap l sp /\
    (forall q s, m_get bs m q s = Done (sp s q)) /\
    (forall s, exists k, selection sp s (fun _ => true) k /\ m_iter bs m s = Done k) /\
    (forall x s, exists k, selection sp s (fun q => qualifies_as q x) k /\
       m_query bs m x s =
         (let! _ := validate_ty P (vt_value P (si_ty s)) in
          join_all s (sv_default (VT P (vt_value P (si_ty s)))) k)).
Proof. exact C07_extend_fresh_keys_proof. Qed.
Print Assumptions C07_extend_fresh_keys.
Theorem C07_from_iter_is_extend :
  forall (P : Prog) (Q : QFlag) (V : Type) (l : list (entry P Q V)), from_iter l = extend [] l.
Proof. exact C07_from_iter_is_extend_proof. Qed.
Print Assumptions C07_from_iter_is_extend.
(** For any input, repeated keys included, every supplied value is found: the result is sorted,
    contains exactly the old and the new entries, and entries of the same key keep their order. *)
Theorem C07_extend_keeps_every_entry :
  forall (P : Prog) (Q : QFlag) (V : Type), distinct_vtables P -> lawful_ord (q_cmp Q) ->
  forall m l : statmap P Q V,
  Permutation (extend m l) (m ++ l) /\
  StronglySorted (fun a b => entry_cmp a b <> Gt) (extend m l) /\
  forall s q, let same := fun e => match key_cmp (e_stat e) (e_qual e) s q with Eq => true | _ => false end in
    filter same (extend m l) = filter same m ++ filter same l.
Proof. exact C07_extend_keeps_every_entry_proof. Qed.
Print Assumptions C07_extend_keeps_every_entry.
(** [remove] takes out one entry of the key, so a repeated key survives it. *)
Theorem C07_remove_takes_one :
  forall (P : Prog) (Q : QFlag) (V : Type) (bs : list comparison -> bsres),
  bs_contract bs -> distinct_vtables P -> lawful_ord (q_cmp Q) ->
  forall (m : statmap P Q V) q s r, take bs m q s = Done r ->
  match snd r with
  | Some v => Permutation m (Entry s q v :: fst r)
  | None => fst r = m
  end.
Proof. exact C07_remove_takes_one_proof. Qed.
Print Assumptions C07_remove_takes_one.
Theorem C07_remove_then_get_refuted :
  exists l : list (mop demo intQ), runs (l ++ [MRemove fire hp]) = true /\
  get_hp (demo_run (l ++ [MRemove fire hp])) fire = Done (Some (num 1)).
Proof. exact C07_remove_then_get_refuted_proof. Qed.
Print Assumptions C07_remove_then_get_refuted.
(** And a repeated key contributes more than once, unlike after [insert]. *)
Theorem C07_repeated_key_query_refuted :
  runs [extend_hp [(fire, 0, num 1); (fire, 0, num 2)]] = true /\
  eval_hp (demo_run [extend_hp [(fire, 0, num 1); (fire, 0, num 2)]]) (@Aggregate intQ 1) = Done 3 /\
  eval_hp (demo_run [put_hp fire 1; put_hp fire 2]) (@Aggregate intQ 1) = Done 2.
Proof. exact C07_repeated_key_query_refuted_proof. Qed.
Print Assumptions C07_repeated_key_query_refuted.
Example C07_case :
  let m := demo_run [put_hp fire 3; extend_hp [(ice, 0, num 4); (none, 0, num 5); (fire, 1, num 6)]] in
  iter_hp m = Done [(0, 0, 5); (0, 1, 3); (0, 2, 4)].
Proof. vm_compute. reflexivity. Qed.

(** ** C22: no type confusion *)
Theorem C22_operations_safe :
  forall (P : Prog) (Q : QFlag) (bs : list comparison -> bsres),
  bs_contract bs -> distinct_vtables P -> lawful_ord (q_cmp Q) ->
  forall l : list (mop P Q), Forall sound_op l -> mops_run bs [] l <> UB.
Proof. exact C22_operations_safe_proof. Qed.
Print Assumptions C22_operations_safe.
Theorem C22_observers_safe :
  forall (P : Prog) (Q : QFlag) (bs : list comparison -> bsres),
  bs_contract bs -> distinct_vtables P -> lawful_ord (q_cmp Q) -> sound_prog (P:=P) ->
  forall (l : list (mop P Q)) (m : map_t P Q), Forall sound_op l -> mops_run bs [] l = Done m ->
  (forall q s, m_get bs m q s <> UB) /\ (forall q s, m_get_evaled bs m q s <> UB) /\
  (forall q s, m_removed bs m q s <> UB) /\ (forall s, m_iter bs m s <> UB) /\
  (forall x s, m_query bs m x s <> UB) /\ (forall x s, m_eval bs m x s <> UB) /\
  (forall x s v, validate_ty P (vt_value P (si_ty s)) = Done tt ->
     map_stream bs m x (Pair s (Buf (vt_value P (si_ty s)) v)) <> UB) /\
  m_clone m <> UB /\ m_drop m = Done tt.
Proof. exact C22_observers_safe_proof. Qed.
Print Assumptions C22_observers_safe.
(** Without the order invariant of the vector the same code is undefined: a slice of stat [atk]
    that contains an entry of another value type is joined at the wrong type. *)
Theorem C22_unsorted_vector_refuted :
  exists m : map_t demo intQ, m_query bs_new m (@Aggregate intQ 0) atk = UB.
Proof. exact unsorted_ub. Qed.
Print Assumptions C22_unsorted_vector_refuted.
Example C22_case :
  let m := demo_run [put_alive none true; put_hp none 3; put_atk none 4; put_alive fire false;
                     extend_alive [(fire, 0, true); (fire, 1, true)]; MRemove fire alive; MRemoveAll hp] in
  get_alive m none = Done (Some true) /\ get_atk m none = Done (Some (num 4)) /\ m_len m = 4%nat.
Proof. vm_compute. repeat split. Qed.

(** ** C24: ownership of the values stored in maps *)
(** [g] identifies a value. In every history ending in a drop of the map the values moved in are
    exactly the values returned, dropped or leaked, each once. *)
Theorem C24_map_values_conserved :
  forall (P : Prog) (Q : QFlag) (V I : Type) (bs : list comparison -> bsres),
  bs_contract bs -> distinct_vtables P -> lawful_ord (q_cmp Q) ->
  forall (g : V -> I) (l : list (cop P Q V)) m xs, Forall (keeps g) l ->
  cops_run bs [] (l ++ [CClear]) = Done (m, xs) ->
  m = [] /\
  Permutation (map g (concat (map x_in xs)))
    (map g (concat (map (fun x => olist (x_returned x)) xs)) ++
     map g (concat (map x_dropped xs)) ++ map g (concat (map x_leaked xs))).
Proof. exact map_conserved. Qed.
Print Assumptions C24_map_values_conserved.
(** A value is leaked only by [insert]/[insert_base], exactly when the key is already present. *)
Theorem C24_map_leaks_exactly_overwritten :
  forall (P : Prog) (Q : QFlag) (V : Type) (bs : list comparison -> bsres),
  bs_contract bs -> distinct_vtables P -> lawful_ord (q_cmp Q) ->
  forall (m : statmap P Q V) o x, cop_run bs m o = Done x ->
  match o with
  | CPut q s _ => find bs m q s = Done (hd_error (x_leaked x))
  | _ => x_leaked x = []
  end.
Proof. exact map_leaks. Qed.
Print Assumptions C24_map_leaks_exactly_overwritten.
Theorem C24_map_no_leak_refuted :
  exists (l : list (cop demo intQ nat)) xs,
  cops_run bs_new [] (l ++ [CClear]) = Done ([], xs) /\ concat (map x_leaked xs) <> [].
Proof. exact C24_map_no_leak_refuted_proof. Qed.
Print Assumptions C24_map_no_leak_refuted.
Example C24_map_case :
  match cops_run (P:=demo) (Q:=intQ) bs_new []
     [CPut fire hp (Done 1%nat); CPut ice hp (Done 2%nat); CPut none atk (Done 3%nat); CTake ice hp; CDrain atk; CClear] with
  | Done (m, xs) => length m = 0%nat /\ concat (map (fun x => olist (x_returned x)) xs) = [2%nat] /\ concat (map x_dropped xs) = [3%nat; 1%nat]
  | _ => False
  end.
Proof. vm_compute. repeat split. Qed.

(** ** C47: a map as a stream *)
Theorem C47_stream_is_query :
  forall (P : Prog) (Q : QFlag) (bs : list comparison -> bsres),
  bs_contract bs -> distinct_vtables P -> lawful_ord (q_cmp Q) ->
  forall (ops : list (mop P Q)) (m : map_t P Q), Forall tsingle ops -> mops_run bs [] ops = Done m ->
  exists sp : tmap P Q, tspec_run empty_tmap ops sp /\
  forall x s, fits s -> exists l, selection sp s (fun q => qualifies_as q x) l /\
    m_query bs m x s = join_all s (sv_default (VT P (vt_value P (si_ty s)))) l /\
    (forall v, map_stream bs m x (Pair s (Buf (vt_value P (si_ty s)) v)) =
       let! r := join_all s v l in Done (Pair s (Buf (vt_value P (si_ty s)) r))).
Proof. exact C47_stream_is_query_proof. Qed.
Print Assumptions C47_stream_is_query.
Example C47_case :
  let m := demo_run [put_hp fire 3; put_hp ice 100; put_hp none 8] in
  stream_hp m (@Aggregate intQ 1) (num 20) = Done (num 31) /\ eval_hp m (@Aggregate intQ 1) = Done 11.
Proof. vm_compute. split; reflexivity. Qed.

(** ** C48: clones *)
(** The clone of any map of any history is the same vector of keys and values, so it answers
    every operation alike. *)
Theorem C48_clone_equal :
  forall (P : Prog) (Q : QFlag) (bs : list comparison -> bsres),
  bs_contract bs -> distinct_vtables P -> lawful_ord (q_cmp Q) ->
  forall (l : list (mop P Q)) (m : map_t P Q), Forall sound_op l -> mops_run bs [] l = Done m -> m_clone m = Done m.
Proof. exact C48_clone_equal_proof. Qed.
Print Assumptions C48_clone_equal.
(** Every value of the clone is made by its own call of the vtable's [clone] on the value of the
    same key: nothing is shared. *)
Theorem C48_clone_values_are_new :
  forall (P : Prog) (Q : QFlag) (V : Type) (f : inst P -> V -> outcome V) (m m' : statmap P Q V),
  clone_with f m = Done m' ->
  Forall2 (fun e e' => e_stat e' = e_stat e /\ e_qual e' = e_qual e /\ f (e_stat e) (e_val e) = Done (e_val e')) m m'.
Proof. exact clone_forall. Qed.
Print Assumptions C48_clone_values_are_new.
Example C48_case :
  let m := demo_run [put_hp fire 3; put_alive none true] in
  let m' := match m_clone m with Done c => c | _ => [] end in
  let m'' := match mops_run bs_new m' [MRemove fire hp] with Done c => c | _ => [] end in
  m_len m = 2%nat /\ get_hp m' fire = Done (Some (num 3)) /\ get_hp m'' fire = Done None /\ m_len m'' = 1%nat.
Proof. vm_compute. repeat split. Qed.
