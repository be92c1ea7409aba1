(** C65, C75: queries of stats that are no numbers. *)
From Coq Require Import ZArith List Bool Lia.
From Verif Require Import S_Types L_Ints.
From Verif Require Import M_Outcome M_Ints M_Value M_Types M_Qualifier M_Search M_Stat M_StatMap M_HashMap M_Pair M_Defaults M_Querier
  S_Search S_Pair S_StatMap S_Defaults S_Querier S_Totals S_EndToEnd S_DemoGame S_Bits L_Types L_DemoGame L_Bits.
Import ListNotations.
Local Open Scope Z_scope.

(** [StatFlags]: the answer has a flag exactly if it was set anywhere and excluded nowhere. *)
Theorem C65_StatFlags :
  forall (P : Prog) (Q : QFlag) (bs : list comparison -> bsres) (o_size o_align : vty P -> Z),
  bs_contract bs -> distinct_vtables P -> lawful_ord (q_cmp Q) -> flags_eq (Q := Q) ->
  forall (G : FlagsT) (F : Type) (mem : gcar G -> F -> Prop), lawful_flags G F mem ->
  forall (g : game P Q) e ch x s past (E : VT P (vt_value P (si_ty s)) = statFlags G),
  set_up bs o_size o_align g -> fits s -> w_entities (j_world (g_querier g)) e = Some ch ->
  exists sel, Forall2 (chosen s x) (logs_for g e (or_nil ch)) sel /\
  let all := map (seen_as E) (stories g s sel) in
  forall n, exists r, fst (run (client (g_querier g) (S n) (p_query_eval e x s)) (after (g_querier g) past [])) = Done (Some r) /\
    forall f, mem (result_as E r) f <->
      any_has mem (flat_map (@sets (statFlags G) (gcar G) same same) all) f /\ ~ any_has mem (flat_map (@bans (statFlags G) (gcar G) same) all) f.
Proof. exact C65_StatFlags_proof. Qed.
Print Assumptions C65_StatFlags.
(** 3, 8 and 6 are set, 2 is excluded. *)
Example C65_StatFlags_case :
  set_up bs_new (fun _ => 24) (fun _ => 8) (solo_game GF gf_logs) /\ solo_eval GF gf_logs = Done (Some (Z.lor 1 (Z.lor 4 8))).
Proof. split; [apply solo_set_up; [repeat constructor|vm_compute; reflexivity]|vm_compute; reflexivity]. Qed.

(** [StatExists]: true exactly if set anywhere. *)
Theorem C65_StatExists :
  forall (P : Prog) (Q : QFlag) (bs : list comparison -> bsres) (o_size o_align : vty P -> Z),
  bs_contract bs -> distinct_vtables P -> lawful_ord (q_cmp Q) -> flags_eq (Q := Q) ->
  forall (g : game P Q) e ch x s past (E : VT P (vt_value P (si_ty s)) = statExists),
  set_up bs o_size o_align g -> fits s -> w_entities (j_world (g_querier g)) e = Some ch ->
  exists sel, Forall2 (chosen s x) (logs_for g e (or_nil ch)) sel /\
  let all := map (seen_as E) (stories g s sel) in
  forall n, exists r, fst (run (client (g_querier g) (S n) (p_query_eval e x s)) (after (g_querier g) past [])) = Done (Some r) /\
    (result_as E r = true <-> In true (flat_map (@sets statExists bool same same) all)).
Proof. exact C65_StatExists_proof. Qed.
Print Assumptions C65_StatExists.
Example C65_StatExists_case :
  set_up bs_new (fun _ => 24) (fun _ => 8) (solo_game EX ex_logs) /\ solo_eval EX ex_logs = Done (Some true) /\ solo_eval EX [[grant EX false]; []] = Done (Some false).
Proof. split; [apply solo_set_up; [repeat constructor|vm_compute; reflexivity]|split; vm_compute; reflexivity]. Qed.

(** [bool]: true exactly if it was the base anywhere; [or] and [not] do nothing (C17). *)
Theorem C65_bool :
  forall (P : Prog) (Q : QFlag) (bs : list comparison -> bsres) (o_size o_align : vty P -> Z),
  bs_contract bs -> distinct_vtables P -> lawful_ord (q_cmp Q) -> flags_eq (Q := Q) ->
  forall (g : game P Q) e ch x s past (E : VT P (vt_value P (si_ty s)) = boolV),
  set_up bs o_size o_align g -> fits s -> w_entities (j_world (g_querier g)) e = Some ch ->
  exists sel, Forall2 (chosen s x) (logs_for g e (or_nil ch)) sel /\
  let all := map (seen_as E) (stories g s sel) in
  forall n, exists r, fst (run (client (g_querier g) (S n) (p_query_eval e x s)) (after (g_querier g) past [])) = Done (Some r) /\
    (result_as E r = true <-> In true (flat_map (@bases boolV bool same) all)).
Proof. exact C65_bool_proof. Qed.
Print Assumptions C65_bool.
Example C65_bool_case :
  set_up bs_new (fun _ => 24) (fun _ => 8) (solo_game boolV [[grant boolV false]; [grant boolV true]]) /\
  solo_eval boolV [[grant boolV false]; [grant boolV true]] = Done (Some true) /\ solo_eval boolV [[grant boolV false]; [alter boolV (@OOr boolV true)]] = Done (Some false).
Proof. split; [apply solo_set_up; [repeat constructor|vm_compute; reflexivity]|split; vm_compute; reflexivity]. Qed.

(** [StatOnce]: nothing, the only contribution, or several. *)
Theorem C65_StatOnce :
  forall (P : Prog) (Q : QFlag) (bs : list comparison -> bsres) (o_size o_align : vty P -> Z),
  bs_contract bs -> distinct_vtables P -> lawful_ord (q_cmp Q) -> flags_eq (Q := Q) ->
  forall (A : Type) (g : game P Q) e ch x s past (E : VT P (vt_value P (si_ty s)) = statOnce A),
  set_up bs o_size o_align g -> fits s -> w_entities (j_world (g_querier g)) e = Some ch ->
  exists sel, Forall2 (chosen s x) (logs_for g e (or_nil ch)) sel /\
  let all := map (seen_as E) (stories g s sel) in
  forall n, exists r, fst (run (client (g_querier g) (S n) (p_query_eval e x s)) (after (g_querier g) past [])) = Done (Some r) /\
    result_as E r = once_spec (flat_map (@sets (statOnce A) A same same) all).
Proof. exact C65_StatOnce_proof. Qed.
Print Assumptions C65_StatOnce.
Example C65_StatOnce_case :
  set_up bs_new (fun _ => 24) (fun _ => 8) (solo_game ON (on_logs true)) /\ solo_eval ON (on_logs true) = Done (Some FoundMultiple) /\
  solo_eval ON (on_logs false) = Done (Some (Found 7)).
Proof. split; [apply solo_set_up; [repeat constructor|vm_compute; reflexivity]|split; vm_compute; reflexivity]. Qed.

(** [Prioritized]: the last contribution whose priority is above that of the starting value, whatever the
    priorities of the others (C14: not the highest one). *)
Theorem C65_Prioritized :
  forall (P : Prog) (Q : QFlag) (bs : list comparison -> bsres) (o_size o_align : vty P -> Z),
  bs_contract bs -> distinct_vtables P -> lawful_ord (q_cmp Q) -> flags_eq (Q := Q) ->
  forall (A : Type) (d : A) (last : bool) (g : game P Q) e ch x s past (E : VT P (vt_value P (si_ty s)) = prioritized A d last),
  set_up bs o_size o_align g -> fits s -> w_entities (j_world (g_querier g)) e = Some ch ->
  exists sel (first : prio A) (others : list (prio A)), Forall2 (chosen s x) (logs_for g e (or_nil ch)) sel /\
  Forall2 (fun (h : history (prioritized A d last)) (v : prio A) => value_of h = Done v) (map (seen_as E) (stories g s sel)) (first :: others) /\
  forall n, exists r, fst (run (client (g_querier g) (S n) (p_query_eval e x s)) (after (g_querier g) past [])) = Done (Some r) /\
    result_as E r = match last_above last (p_priority first) others with Some a => a | None => p_value first end.
Proof. exact C65_Prioritized_proof. Qed.
Print Assumptions C65_Prioritized.
(** Priority 9 is passed over for the later priority 1. *)
Example C65_Prioritized_case :
  set_up bs_new (fun _ => 24) (fun _ => 8) (solo_game PR pr_logs) /\ solo_eval PR pr_logs = Done (Some 7) /\
  last_above false 0 [Prio 5 9; Prio 7 1; Prio 8 0] = Some 7.
Proof. split; [apply solo_set_up; [repeat constructor|vm_compute; reflexivity]|split; vm_compute; reflexivity]. Qed.

(** A flag stays in the answer if it is still set somewhere and nowhere newly excluded. *)
Theorem C75_query_StatFlags :
  forall (P : Prog) (Q : QFlag) (bs : list comparison -> bsres) (o_size o_align : vty P -> Z),
  bs_contract bs -> distinct_vtables P -> lawful_ord (q_cmp Q) -> flags_eq (Q := Q) ->
  forall (G : FlagsT) (F : Type) (mem : gcar G -> F -> Prop), lawful_flags G F mem ->
  forall (g g' : game P Q) e e' ch ch' x s past past' (E : VT P (vt_value P (si_ty s)) = statFlags G),
  set_up bs o_size o_align g -> set_up bs o_size o_align g' -> fits s ->
  w_entities (j_world (g_querier g)) e = Some ch -> w_entities (j_world (g_querier g')) e' = Some ch' ->
  exists sel sel', Forall2 (chosen s x) (logs_for g e (or_nil ch)) sel /\ Forall2 (chosen s x) (logs_for g' e' (or_nil ch')) sel' /\
  let all := map (seen_as E) (stories g s sel) in let all' := map (seen_as E) (stories g' s sel') in
  forall f, (any_has mem (flat_map (@sets (statFlags G) (gcar G) same same) all) f -> any_has mem (flat_map (@sets (statFlags G) (gcar G) same same) all') f) ->
  (any_has mem (flat_map (@bans (statFlags G) (gcar G) same) all') f -> any_has mem (flat_map (@bans (statFlags G) (gcar G) same) all) f) ->
  forall n n' r r', fst (run (client (g_querier g) (S n) (p_query_eval e x s)) (after (g_querier g) past [])) = Done (Some r) ->
    fst (run (client (g_querier g') (S n') (p_query_eval e' x s)) (after (g_querier g') past' [])) = Done (Some r') ->
    mem (result_as E r) f -> mem (result_as E r') f.
Proof. exact C75_query_StatFlags_proof. Qed.
Print Assumptions C75_query_StatFlags.
(** 32 is set too, and 2 no longer excluded. *)
Example C75_query_StatFlags_case :
  set_up bs_new (fun _ => 24) (fun _ => 8) (solo_game GF gf_more) /\ solo_eval GF gf_logs = Done (Some 13) /\ solo_eval GF gf_more = Done (Some 47).
Proof. split; [apply solo_set_up; [repeat constructor|vm_compute; reflexivity]|split; vm_compute; reflexivity]. Qed.

