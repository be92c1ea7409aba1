(** C31-C36, C43 (through queriers) and C44: what a query answers. *)
From Coq Require Import ZArith List Bool String Lia PeanoNat Permutation Relations Wf_nat Wellfounded.
From Verif Require S_Types.
From Verif Require Import M_Outcome M_Value M_Types M_Qualifier M_Search M_Stat M_StatMap M_HashMap M_Pair M_Defaults M_Querier
  S_Pair S_StatMap S_Querier S_Demo S_DemoDefaults S_DemoQuery L_StatMap3 L_HashMap L_Demo L_Defaults L_Querier L_Querier2 L_Querier3 L_Querier4 L_Query L_DemoQuery L_DemoQuery2 L_QueryProofs.
Import ListNotations.
Local Open Scope Z_scope.

(** ** C31: only marked entities *)
(** Whatever the cache holds, an unmarked entity has no stats, and the cache stays as it is. *)
Theorem C31_unmarked : forall (P : Prog) (Q : QFlag) (j : joined P Q) n e x s c,
  w_entities (j_world j) e = None -> fits s ->
  run (client j (S n) (p_query e x s)) c = (Done None, c) /\
  run (client j (S n) (p_query_eval e x s)) c = (Done None, c).
Proof. exact C31_unmarked_proof. Qed.
Print Assumptions C31_unmarked.
Example C31_unmarked_case :
  see_hp (demo_joined true) 3 5%nat any = Done None /\ see_eval (demo_joined true) 3 5%nat any = Done None /\
  see_history [] [(demo_joined true, 3%nat, Some (0%nat, any)); (demo_joined true, 3%nat, Some (5%nat, any))] = ([Done (Some 4549); Done None], 2%nat).
Proof. split; [|split]; vm_compute; reflexivity. Qed.
Theorem C31_unmarked_relation : forall (P : Prog) (Q : QFlag) (j : joined P Q) n f t x s c,
  w_entities (j_world j) f = None \/ w_entities (j_world j) t = None -> fits s ->
  run (client j (S n) (p_relation f t x s)) c = (Done None, c) /\
  run (client j (S n) (p_relation_eval f t x s)) c = (Done None, c).
Proof. exact C31_unmarked_relation_proof. Qed.
Print Assumptions C31_unmarked_relation.
Example C31_unmarked_relation_case : see_rel (demo_joined true) 3 0%nat 5%nat any = Done None /\ see_rel (demo_joined true) 3 5%nat 0%nat any = Done None.
Proof. split; vm_compute; reflexivity. Qed.
(** A marked entity has a value of every stat. *)
Theorem C31_marked : forall (P : Prog) (Q : QFlag) (j : joined P Q) n e x s c o c',
  w_entities (j_world j) e <> None ->
  (run (client j n (p_query e x s)) c = (Done o, c') -> o <> None) /\
  (forall o', run (client j n (p_query_eval e x s)) c = (Done o', c') -> o' <> None).
Proof. exact C31_marked_proof. Qed.
Print Assumptions C31_marked.
Example C31_marked_case : see_hp (demo_joined true) 3 4%nat any = Done (Some (num 107)) /\ see_eval (demo_joined true) 3 4%nat any = Done (Some 107).
Proof. split; vm_compute; reflexivity. Qed.
Theorem C31_marked_relation : forall (P : Prog) (Q : QFlag) (j : joined P Q) n f t x s c o c',
  w_entities (j_world j) f <> None -> w_entities (j_world j) t <> None ->
  (run (client j n (p_relation f t x s)) c = (Done o, c') -> o <> None) /\
  (forall o', run (client j n (p_relation_eval f t x s)) c = (Done o', c') -> o' <> None).
Proof. exact C31_marked_relation_proof. Qed.
Print Assumptions C31_marked_relation.
Example C31_marked_relation_case : see_rel (demo_joined true) 3 0%nat 4%nat any = Done (Some (num 107)).
Proof. vm_compute. reflexivity. Qed.

(** ** C32: sources *)
(** A query for a stat starts from the default and runs exactly [stat_sources], in order, each
    asking its nested questions one level down. *)
Theorem C32_sources : forall (P : Prog) (Q : QFlag) (j : joined P Q) n e x s ch,
  w_entities (j_world j) e = Some ch ->
  fst (run (level (uncached j) (S n) (RStat e x s)) []) =
    let! b := initial (j_world j) s in
    let! p := collect (fun r => fst (run (level (uncached j) n r) [])) (Pair s b) (stat_sources j e ch x) in
    Done (Some (p_buf p)).
Proof. exact C32_sources_proof. Qed.
Print Assumptions C32_sources.
Example C32_sources_case :
  List.length (stat_sources (demo_joined true) 0%nat (Some [1; 2; 3]%nat) any) = 6%nat /\
  see_hp (demo_joined false) 3 0%nat any = Done (Some (num (100 + 7 + 1 + (100 + 7 + 20 + 3) + 11 + 300 + 4000))).
Proof. split; vm_compute; reflexivity. Qed.

(** The streams of a querier are those given to [with_*], in order. *)
Theorem C32_attached : forall (P : Prog) (Q : QFlag) (w : world P Q) (b : bool) (j : joined P Q) (c : cstream P Q),
  (leaves (j_comp (with_component j c)) = leaves (j_comp j) ++ [c] /\ leaves (j_child (with_component j c)) = leaves (j_child j) /\ leaves (j_rel (with_component j c)) = leaves (j_rel j)) /\
  (leaves (j_comp (with_children j c)) = leaves (j_comp j) /\ leaves (j_child (with_children j c)) = leaves (j_child j) ++ [c] /\ leaves (j_rel (with_children j c)) = leaves (j_rel j)) /\
  (leaves (j_comp (with_relation j c)) = leaves (j_comp j) /\ leaves (j_child (with_relation j c)) = leaves (j_child j) /\ leaves (j_rel (with_relation j c)) = leaves (j_rel j) ++ [c]) /\
  (forall f, In f [sq_with_component w b c; sq_with_children w b c; sq_with_relation w b c] -> j_world f = w /\ j_cached f = b /\ leaves (j_comp f) ++ leaves (j_child f) ++ leaves (j_rel f) = [c]) /\
  (forall f, In f [with_component j c; with_children j c; with_relation j c] -> j_world f = j_world j /\ j_cached f = j_cached j).
Proof. exact C32_attached_proof. Qed.
Print Assumptions C32_attached.
Example C32_attached_case :
  map (fun c => c_get c 1%nat <> None) (leaves (j_comp (demo_joined true))) = [c_get body_gear 1%nat <> None; c_get to1 1%nat <> None] /\
  List.length (leaves (j_child (demo_joined true))) = 1%nat /\ List.length (leaves (j_rel (demo_joined true))) = 1%nat.
Proof. split; [reflexivity|split; reflexivity]. Qed.
(** Attaching a stream adds its contributions to the others' without changing them. *)
Theorem C32_appends : forall (P : Prog) (Q : QFlag) (j : joined P Q) (c : cstream P Q) e ch x,
  exists l1 l2 l3,
    stat_sources j e ch x = l1 ++ l2 ++ l3 /\
    stat_sources (with_component j c) e ch x = l1 ++ on c e e x ++ l2 ++ l3 /\
    stat_sources (with_relation j c) e ch x = l1 ++ l2 ++ on c e e x ++ l3 /\
    stat_sources (with_children j c) e ch x = l1 ++ l2 ++ l3 ++ flat_map (fun d => on c e d x) (or_nil ch).
Proof. exact C32_appends_proof. Qed.
Print Assumptions C32_appends.
Example C32_appends_case :
  see_hp (with_children (demo_joined false) (gear (tab [(1%nat, 1); (2%nat, 2); (3%nat, 3); (4%nat, 4)]))) 3 0%nat any = Done (Some (num (4549 + 1 + 2 + 3))).
Proof. vm_compute. reflexivity. Qed.
(** Components of other entities contribute nothing. *)
Theorem C32_only_own_and_children : forall (P : Prog) (Q : QFlag) (keep : entity -> bool) (j : joined P Q) e ch x,
  keep e = true -> (forall d, In d (or_nil ch) -> keep d = true) ->
  stat_sources (limited keep j) e ch x = stat_sources j e ch x.
Proof. exact C32_only_own_and_children_proof. Qed.
Print Assumptions C32_only_own_and_children.
Example C32_only_own_and_children_case :
  see_hp (limited (fun d => Nat.leb d 3) (demo_joined false)) 3 0%nat any = see_hp (demo_joined false) 3 0%nat any /\
  see_hp (limited (fun d => Nat.leb d 2) (demo_joined false)) 3 0%nat any = Done (Some (num 549)).
Proof. split; vm_compute; reflexivity. Qed.

(** ** C33: order *)
(** If all streams only contribute and no order is needed for the contributions (C08), then
    rearranging relations, streams and children does not change any answer. *)
Theorem C33_order_free : forall (P : Prog) (Q : QFlag) (Pv : forall t, val (VT P t) -> Prop) (E : forall t, S_Types.step (VT P t) -> Prop) (j j' : joined P Q),
  contributing E j -> rearranged j j' ->
  (forall s v, initial (j_world j) s = Done (Buf (vt_value P (si_ty s)) v) -> Pv _ v) ->
  (forall t, S_Types.order_free (VT P t) (Pv t) (E t)) ->
  forall n r a, fst (run (level (uncached j) n r) []) = Done a <-> fst (run (level (uncached j') n r) []) = Done a.
Proof. exact C33_order_free_proof. Qed.
Print Assumptions C33_order_free.
Example C33_order_free_case :
  (contributing bounding caps /\ rearranged caps caps_turned /\ forall t, S_Types.order_free (VT demo t) (fun _ => True) (bounding t)) /\
  see_top caps 0%nat = Done (Some 20) /\ see_top caps_turned 0%nat = Done (Some 20) /\ see_top caps 4%nat = Done (Some 2147483647).
Proof. split; [split; [exact caps_contributing|split; [exact caps_rearranged|exact bounding_order_free]]|]. split; [|split]; vm_compute; reflexivity. Qed.
(** With arithmetic that may panic (C09): orders that succeed agree. *)
Theorem C33_order_free_if_done : forall (P : Prog) (Q : QFlag) (Pv : forall t, val (VT P t) -> Prop) (E : forall t, S_Types.step (VT P t) -> Prop) (j j' : joined P Q),
  contributing E j -> rearranged j j' ->
  (forall s v, initial (j_world j) s = Done (Buf (vt_value P (si_ty s)) v) -> Pv _ v) ->
  (forall t, S_Types.order_free_if_done (VT P t) (Pv t) (E t)) ->
  forall n r a a', fst (run (level (uncached j) n r) []) = Done a -> fst (run (level (uncached j') n r) []) = Done a' -> a = a'.
Proof. exact C33_order_free_if_done_proof. Qed.
Print Assumptions C33_order_free_if_done.
Example C33_order_free_if_done_case :
  (contributing (fun _ _ => True) one_order /\ rearranged one_order other_order /\
   forall t, S_Types.order_free_if_done (VT demo t) (fun _ => True) (fun _ => True)) /\
  option_map addend (match see_hp one_order 3 0%nat any with Done o => o | _ => None end) = Some 4312 /\
  see_hp other_order 3 0%nat any = see_hp one_order 3 0%nat any.
Proof. split; [split; [exact one_order_contributing|split; [exact one_order_rearranged|exact demo_agree]]|]. split; vm_compute; reflexivity. Qed.

(** ** C34: termination *)
(** If streams themselves terminate, a question is answered exactly when the questions it
    leads to are well founded. *)
Theorem C34_terminates_iff : forall (P : Prog) (Q : QFlag) (j : joined P Q) (r : request P Q),
  all_code (fun A p => stops (fun o => o <> NoFuel) p) j ->
  ((exists n, fst (run (level (uncached j) n r) []) <> NoFuel) <-> Acc (depends j) r).
Proof. exact C34_terminates_iff_proof. Qed.
Print Assumptions C34_terminates_iff.
Example C34_terminates_iff_case :
  all_code (fun A p => stops (fun o => o <> NoFuel) p) bare_demo /\
  (see_hp (uncached bare_demo) 1 0%nat any, see_hp (uncached bare_demo) 2 0%nat any) = (NoFuel, see_hp bare_demo 7 0%nat any).
Proof. split; [exact bare_fuel|vm_compute; reflexivity]. Qed.
(** If every question that may be asked while answering [r] is below [r] in a well-founded
    order, everything terminates, with the cache in any reachable state as well. *)
Theorem C34_rank : forall (P : Prog) (Q : QFlag) (j : joined P Q) (R : request P Q -> request P Q -> Prop),
  well_founded R -> all_code (fun A p => stops (fun o => o <> NoFuel) p) j ->
  (forall r, only_asks (fun r' => R r' r) (body j r)) ->
  (forall r, exists n, forall m, (n <= m)%nat -> fst (run (level (uncached j) m r) []) <> NoFuel) /\
  (distinct_vtables P -> flags_eq (Q := Q) -> j_cached j = true -> stats_kept j ->
   forall l (r : request P Q), exists n, forall m, (n <= m)%nat -> fst (run (client j m (Ask r Ret)) (after j l [])) <> NoFuel).
Proof. exact C34_rank_proof. Qed.
Print Assumptions C34_rank.
Example C34_rank_case :
  well_founded (ltof _ rank) /\ all_code (fun A p => stops (fun o => o <> NoFuel) p) bare_demo /\
  (forall r, only_asks (fun r' => ltof _ rank r' r) (body bare_demo r)) /\ stats_kept bare_demo /\
  fst (see_history [] [(bare_demo, 3%nat, Some (1%nat, any)); (bare_demo, 3%nat, Some (0%nat, any))]) = [Done (Some 23); Done (Some 4335)].
Proof.
  split; [apply well_founded_ltof|]. split; [exact bare_fuel|]. split; [exact bare_below|]. split; [exact (proj1 bare_kept)|]. vm_compute. reflexivity.
Qed.
(** A question that leads back to itself is never answered, at any depth, cached or not. *)
Theorem C34_cycle : forall (P : Prog) (Q : QFlag) (j : joined P Q) (r : request P Q),
  clos_trans _ (depends j) r r ->
  (forall n, fst (run (level (uncached j) n r) []) = NoFuel) /\
  (distinct_vtables P -> flags_eq (Q := Q) -> j_cached j = true -> stats_kept j -> check r = Done tt ->
   forall l n, fst (run (client j n (Ask r Ret)) (after j l [])) = NoFuel).
Proof. exact C34_cycle_proof. Qed.
Print Assumptions C34_cycle.
Example C34_cycle_case :
  clos_trans _ (depends (looping true)) (RStat 0%nat any hp) (RStat 0%nat any hp) /\ stats_kept (looping true) /\
  map (fun n => see_hp (looping true) n 0%nat any) [1; 2; 5; 40]%nat = [NoFuel; NoFuel; NoFuel; NoFuel].
Proof. split; [apply looping_cycle|]. split; [apply looping_kept|]. vm_compute. reflexivity. Qed.

(** ** C35: relations *)
Theorem C35_sources : forall (P : Prog) (Q : QFlag) (j : joined P Q) n f t x s cf ct,
  w_entities (j_world j) f = Some cf -> w_entities (j_world j) t = Some ct ->
  fst (run (level (uncached j) (S n) (RRel f t x s)) []) =
    let! b := initial (j_world j) s in
    let! p := collect (fun r => fst (run (level (uncached j) n r) [])) (Pair s b)
      (map (fun g => g (w_placeholder (j_world j)) x) (or_nil (w_relations (j_world j))) ++ flat_map (fun c => between c f t x) (leaves (j_rel j))) in
    Done (Some (p_buf p)).
Proof. exact C35_sources_proof. Qed.
Print Assumptions C35_sources.
Example C35_sources_case :
  see_rel (demo_joined true) 2 0%nat 1%nat any = Done (Some (num (100 + 7 + (11 - 3)))) /\
  see_rel (demo_joined true) 2 1%nat 0%nat any = Done (Some (num (100 + 7 + (3 - 11)))) /\
  see_rel (demo_joined true) 2 0%nat 4%nat any = Done (Some (num (100 + 7))).
Proof. split; [|split]; vm_compute; reflexivity. Qed.
(** Even with a cache, the relation query itself neither reads nor writes it: apart from what
    nested questions do, the cache is irrelevant and stays as it is. *)
Theorem C35_not_cached : forall (P : Prog) (Q : QFlag) (j : joined P Q) (ha : forall r : request P Q, act P Q (raw r)) (h : forall r : request P Q, outcome (raw r)) f t x s c,
  all_code (fun A p => no_wipe p) j -> (forall r c, run (ha r) c = (h r, c)) ->
  run (erased j ha (RRel f t x s)) c = (fst (run (erased j ha (RRel f t x s)) []), c).
Proof. exact C35_not_cached_proof. Qed.
Print Assumptions C35_not_cached.
Example C35_not_cached_case :
  List.length (snd (run (client (demo_joined true) 3 (p_relation 0%nat 1%nat any hp)) [])) = 0%nat /\
  (forall r c, run (noop (P := demo) (Q := intQ) r) c = (match r return outcome (raw r) with RStat _ _ _ | RRel _ _ _ _ => Done None | RAttr _ _ => Done false end, c)).
Proof. split; [vm_compute; reflexivity|]. intros [] c; reflexivity. Qed.

(** ** C36: attributes *)
(** The sources in order until the first that reports [true]. *)
Theorem C36_sources : forall (P : Prog) (Q : QFlag) (j : joined P Q) n e a,
  fst (run (level (uncached j) (S n) (RAttr e a)) []) = any_true (fun r => fst (run (level (uncached j) n r) [])) (attr_sources j e a).
Proof. exact C36_sources_proof. Qed.
Print Assumptions C36_sources.
Example C36_sources_case :
  (see_attr (demo_joined true) 2 0%nat "strong"%string, see_attr (demo_joined true) 2 0%nat "weak"%string, see_attr (demo_joined true) 2 4%nat "strong"%string) = (Done true, Done false, Done false).
Proof. vm_compute. reflexivity. Qed.
(** If all sources return, the answer is whether one of them returns [true]. *)
Theorem C36_disjunction : forall (P : Prog) (Q : QFlag) (j : joined P Q) n e a,
  let h := fun r => fst (run (level (uncached j) n r) []) in
  (forall p, In p (attr_sources j e a) -> exists b, oeval h p = Done b) ->
  exists b, fst (run (level (uncached j) (S n) (RAttr e a)) []) = Done b /\
    (b = true <-> exists p, In p (attr_sources j e a) /\ oeval h p = Done true).
Proof. exact C36_disjunction_proof. Qed.
Print Assumptions C36_disjunction.
Example C36_disjunction_case :
  List.length (attr_sources (demo_joined true) 0%nat "strong"%string) = 5%nat /\ see_attr (other_joined true) 2 0%nat "strong"%string = Done false.
Proof. split; vm_compute; reflexivity. Qed.
(** It is not limited to marked entities. *)
Theorem C36_gated_refuted :
  exists (P : Prog) (Q : QFlag) (j : joined P Q) n e a,
    w_entities (j_world j) e = None /\ fst (run (client j n (Ask (RAttr e a) Ret)) []) = Done true.
Proof. exact C36_gated_refuted_proof. Qed.
Print Assumptions C36_gated_refuted.
Example C36_gated_refuted_case : see_attr (demo_joined true) 2 5%nat "strong"%string = Done true /\ see_hp (demo_joined true) 2 5%nat any = Done None.
Proof. split; vm_compute; reflexivity. Qed.
(** Children count only for marked entities. *)
Theorem C36_unmarked_no_children : forall (P : Prog) (Q : QFlag) (j : joined P Q) e a,
  w_entities (j_world j) e = None ->
  attr_sources j e a = flat_map (fun c => attr_on c e e a) (leaves (j_comp j)) ++ flat_map (fun c => attr_on c e e a) (leaves (j_rel j)).
Proof. exact C36_unmarked_no_children_proof. Qed.
Print Assumptions C36_unmarked_no_children.
Example C36_unmarked_no_children_case : List.length (attr_sources (demo_joined true) 5%nat "strong"%string) = 2%nat.
Proof. vm_compute. reflexivity. Qed.

(** ** C43: types and undefined behaviour *)
(** If streams leave the stat of the pair alone and the pair well typed, no query has
    undefined behaviour, with or without a cache. *)
Theorem C43_queries_sound : forall (P : Prog) (Q : QFlag) (j : joined P Q) (l : list (nat * prog P Q unit)) n (A : Type) (p : prog P Q A),
  distinct_vtables P -> flags_eq (Q := Q) -> stats_kept j -> relations_kept j -> defaults_typed (j_world j) ->
  code_sound j -> stops (fun o => o <> UB) p ->
  fst (run (client j n p) (after j l [])) <> UB.
Proof. exact C43_queries_sound_proof. Qed.
Print Assumptions C43_queries_sound.
Example C43_queries_sound_case :
  stats_kept bare_demo /\ relations_kept bare_demo /\ defaults_typed (j_world bare_demo) /\ code_sound bare_demo /\
  fst (see_history [] [(bare_demo, 3%nat, Some (0%nat, any))]) = [Done (Some 4335)].
Proof. split; [apply bare_kept|]. split; [apply bare_kept|]. split; [exact I|]. split; [exact bare_sound|]. vm_compute. reflexivity. Qed.
(** Safe code can break it: assigning another [StatValuePair] through the [&mut] (C42) turns the
    query into a read at the wrong type. *)
Theorem C43_queries_refuted :
  exists (P : Prog) (Q : QFlag) (j : joined P Q) n e x s,
    distinct_vtables P /\ flags_eq (Q := Q) /\ defaults_typed (j_world j) /\ code_sound j /\
    fst (run (client j n (p_query e x s)) []) = UB.
Proof. exact C43_queries_refuted_proof. Qed.
Print Assumptions C43_queries_refuted.
Example C43_queries_refuted_case : see_hp (swapping alive_pair true) 2 0%nat any = UB /\ see_hp (swapping alive_pair true) 2 1%nat any <> UB.
Proof. split; [vm_compute; reflexivity|]. vm_compute. discriminate. Qed.

(** ** C44: evaluated queries *)
Theorem C44_eval : forall (P : Prog) (Q : QFlag) (j : joined P Q) n e x s c,
  run (client j n (p_query_eval e x s)) c =
    let (o, c') := run (client j n (p_query e x s)) c in
    (let! v := o in match v with None => Done None | Some v => let! r := sv_eval _ v in Done (Some r) end, c').
Proof. exact C44_eval_proof. Qed.
Print Assumptions C44_eval.
Theorem C44_relation_eval : forall (P : Prog) (Q : QFlag) (j : joined P Q) n f t x s c,
  run (client j n (p_relation_eval f t x s)) c =
    let (o, c') := run (client j n (p_relation f t x s)) c in
    (let! v := o in match v with None => Done None | Some v => let! r := sv_eval _ v in Done (Some r) end, c').
Proof. exact C44_relation_eval_proof. Qed.
Print Assumptions C44_relation_eval.
Example C44_eval_case :
  see_eval (demo_joined true) 3 0%nat any = Done (Some 1000) /\ see_hp (demo_joined true) 3 0%nat any = Done (Some (num 4549)) /\ see_eval (demo_joined true) 3 5%nat any = Done None.
Proof. split; [|split]; vm_compute; reflexivity. Qed.
(** [NoopQuerier] answers nothing, and leaves any cache alone. *)
Theorem C44_noop : forall (P : Prog) (Q : QFlag) (b : bool) e f t x s a c,
  fits s ->
  run (interp b noop (p_query (P := P) (Q := Q) e x s)) c = (Done None, c) /\
  run (interp b noop (p_query_eval (P := P) (Q := Q) e x s)) c = (Done None, c) /\
  run (interp b noop (p_relation (P := P) (Q := Q) f t x s)) c = (Done None, c) /\
  run (interp b noop (p_relation_eval (P := P) (Q := Q) f t x s)) c = (Done None, c) /\
  run (interp b noop (Ask (RAttr e a) Ret)) c = (Done false, c).
Proof. exact C44_noop_proof. Qed.
Print Assumptions C44_noop.
Example C44_noop_case : fst (run (interp true noop (p_query 0%nat any hp)) []) = Done None.
Proof. vm_compute. reflexivity. Qed.
