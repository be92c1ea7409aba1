(** C52-C54: the extension methods on worlds, and what queries see of them. *)
From Coq Require Import ZArith List Bool String.
From Verif Require Import M_Outcome M_Value M_Types M_Qualifier M_Search M_Stat M_StatMap M_HashMap M_Pair M_Defaults M_Registry M_Querier M_World
  S_Pair S_StatMap S_Defaults S_Querier S_Demo S_DemoDefaults S_DemoQuery S_World L_StatMap3 L_HashMap L_Demo L_Defaults L_Querier L_Querier2 L_Querier3 L_Querier4 L_DemoQuery
  L_DefaultsProofs L_CacheProofs L_World L_WorldProofs.
Import ListNotations.
Local Open Scope Z_scope.

(** ** C52: resources after a history *)
(** Each resource holds what its own calls made of it, whatever other calls came in between, and
    exists exactly if there was such a call. *)
Theorem C52_resources : forall (P : Prog) (Q : QFlag) (N : StatNames P) (o_size o_align : vty P -> Z) (l : list (wop P Q)) (r : resources P Q),
  w_run N o_size o_align no_resources l = Done r ->
  ((exists lost, d_run o_size o_align [] (default_calls l) = Done (content (r_defaults r), lost)) /\ (r_defaults r = None <-> default_calls l = [])) /\
  (content (r_relations r) = relations_pushed l /\ (r_relations r = None <-> relations_pushed l = [])) /\
  (content (r_names r) = rops_run N (types_registered l) /\ (r_names r = None <-> types_registered l = [])) /\
  (r_cache r = None <-> ~ In WCache l).
Proof. exact resources_after. Qed.
Print Assumptions C52_resources.
Example C52_resources_case :
  w_sizes [w_hp 5; @WRegister demo intQ Hp; w_rel 1; w_min_hp 2; w_rel 1] = Done (Some 2%nat, Some 1%nat, Some 2%nat, None) /\
  w_sizes [WCache; w_ask 0%nat] = Done (None, None, None, Some 1%nat).
Proof. split; vm_compute; reflexivity. Qed.

(** A query for a stat that nothing contributes to returns the registered default, or the
    default of the type. *)
Theorem C52_defaults_reach_queries : forall (P : Prog) (Q : QFlag) (N : StatNames P) (o_size o_align : vty P -> Z) (l : list (wop P Q)) (r : resources P Q)
    (sc : scene P Q) (n : nat) e x s,
  distinct_vtables P -> inserted_first (default_calls l) -> relations_pushed l = [] -> plain sc -> sc_entities sc e <> None -> fits s ->
  w_run N o_size o_align no_resources l = Done r -> content (r_cache r) = [] ->
  exists sp, dspec_run no_defaults (default_calls l) sp /\
    fst (w_query r sc (S n) (p_query e x s)) = Done (Some (or_default s (sp s))).
Proof. exact defaults_reach. Qed.
Print Assumptions C52_defaults_reach_queries.
Example C52_defaults_reach_queries_case :
  w_see plain_scene [w_hp 5; @WRegister demo intQ Hp; w_min_hp 2; w_max_hp 50; w_hp 7; w_max_hp 60] 0%nat = Done (Some (Quad 7 (-1000) 60 1)) /\
  w_see plain_scene [WCache] 1%nat = Done (Some (Quad 0 (-2147483648) 2147483647 1)) /\ w_see plain_scene [w_hp 5] 2%nat = Done None.
Proof. repeat split; vm_compute; reflexivity. Qed.

(** Registered relations contribute in the order of registration, before all else. *)
Theorem C52_relations_reach_queries : forall (P : Prog) (Q : QFlag) (N : StatNames P) (o_size o_align : vty P -> Z) (l : list (wop P Q)) (r : resources P Q)
    (sc : scene P Q) (n : nat) e x s,
  plain sc -> sc_entities sc e <> None -> r_cache r = None ->
  w_run N o_size o_align no_resources l = Done r ->
  fst (w_query r sc (S n) (p_query e x s)) =
    let! _ := validate_ty P (vt_value P (si_ty s)) in
    let! b := initial (j_world (querier_of r sc)) s in
    let! p := collect (answer (querier_of r sc) n) (Pair s b) (map (fun g => g e x) (relations_pushed l)) in
    let! v := buf_into P (vt_value P (si_ty s)) (p_buf p) in Done (Some v).
Proof. exact relations_reach. Qed.
Print Assumptions C52_relations_reach_queries.
Example C52_relations_reach_queries_case :
  w_see plain_scene [w_rel 1; w_hp 5; w_rel 10; w_rel 1] 0%nat = Done (Some (num 17)).
Proof. vm_compute. reflexivity. Qed.

(** ** C53: clearing the cache of a world *)
(** [clear_stat_cache] panics exactly if no [StatCache] was ever added; otherwise it leaves an
    empty cache and everything else as it was. [StatQuery::clear_cache] never panics. *)
Theorem C53_clear_panics : forall (P : Prog) (Q : QFlag) (N : StatNames P) (o_size o_align : vty P -> Z) (l : list (wop P Q)) (r : resources P Q),
  distinct_vtables P -> flags_eq (Q := Q) ->
  w_run N o_size o_align no_resources l = Done r ->
  (~ In WCache l -> w_run N o_size o_align no_resources (l ++ [WClear]) = Panics PUnwrap /\ w_run N o_size o_align no_resources (l ++ [WQueryClear]) = Done r) /\
  (In WCache l -> exists r', w_run N o_size o_align no_resources (l ++ [WClear]) = Done r' /\ w_run N o_size o_align no_resources (l ++ [WQueryClear]) = Done r' /\
     r_cache r' = Some [] /\ r_names r' = r_names r /\ r_defaults r' = r_defaults r /\ r_relations r' = r_relations r).
Proof. exact clear_after. Qed.
Print Assumptions C53_clear_panics.
Example C53_clear_panics_case :
  w_sizes [w_hp 5; w_ask 0%nat; WClear] = Panics PUnwrap /\ w_sizes [w_hp 5; w_ask 0%nat; WQueryClear] = Done (None, Some 1%nat, None, None) /\
  w_sizes [WCache; w_hp 5; w_ask 0%nat; w_ask 1%nat; WClear] = Done (None, Some 1%nat, None, Some 0%nat).
Proof. repeat split; vm_compute; reflexivity. Qed.

(** ** C54: what queries see after changes *)
(** If since the cache was last emptied nothing changed but by queries in the same scene, code
    returns what it returns without a cache in the present world. *)
Theorem C54_fresh_after_clear : forall (P : Prog) (Q : QFlag) (N : StatNames P) (o_size o_align : vty P -> Z) (l1 l2 : list (wop P Q)) (o : wop P Q) (r : resources P Q)
    (sc : scene P Q) (n : nat) (A : Type) (p : prog P Q A),
  distinct_vtables P -> flags_eq (Q := Q) ->
  w_run N o_size o_align no_resources (l1 ++ o :: l2) = Done r ->
  empties o -> Forall (changes_nothing sc) l2 -> stats_kept (querier_of r sc) ->
  same_as (fun n => fst (run (client (uncached (querier_of r sc)) n p) [])) n (fst (w_query r sc n p)).
Proof. exact C54_fresh_after_clear_proof. Qed.
Print Assumptions C54_fresh_after_clear.
Example C54_fresh_after_clear_case :
  w_see demo_scene [WCache; w_hp 5; w_ask 0%nat; w_hp 7; w_rel 100; WClear; w_ask 0%nat; @WRegister demo intQ Hp; w_ask 1%nat] 0%nat = Done (Some (num 108)).
Proof. vm_compute. reflexivity. Qed.

(** A value once returned with a cache present is what every later query for it returns until
    the cache is emptied (or the entry overwritten by hand), whatever is registered meanwhile. *)
Theorem C54_stale_until_clear : forall (P : Prog) (Q : QFlag) (N : StatNames P) (o_size o_align : vty P -> Z) (r1 r2 : resources P Q) (c0 c1 : cache P Q)
    (sc1 sc2 : scene P Q) n1 n2 e x s v (l : list (wop P Q)),
  distinct_vtables P -> flags_eq (Q := Q) ->
  r_cache r1 = Some c0 -> stats_kept (querier_of r1 sc1) ->
  w_query r1 sc1 n1 (p_query e x s) = (Done (Some v), c1) ->
  Forall not_clearing l ->
  (forall la sc n p lb r, l = la ++ WQuery sc n p :: lb -> w_run N o_size o_align (set_cache r1 (Some c1)) la = Done r ->
     stats_kept (querier_of r sc) /\ all_code (fun A p => no_wipe p) (querier_of r sc) /\ no_wipe p) ->
  w_run N o_size o_align (set_cache r1 (Some c1)) l = Done r2 -> sc_entities sc2 e <> None ->
  fst (w_query r2 sc2 (S n2) (p_query e x s)) = Done (Some v).
Proof. exact stale_until_clear. Qed.
Print Assumptions C54_stale_until_clear.
Example C54_stale_until_clear_case :
  w_see demo_scene [WCache; w_hp 5; w_ask 0%nat; w_hp 7; w_rel 100; w_ask 1%nat] 0%nat = Done (Some (num 6)) /\
  w_see demo_scene [w_hp 5; w_ask 0%nat; w_hp 7; w_rel 100; w_ask 1%nat] 0%nat = Done (Some (num 108)).
Proof. split; vm_compute; reflexivity. Qed.

(** So "a query reflects what is registered when it runs" is false with a cache. *)
Theorem C54_reflects_registration_refuted :
  exists (P : Prog) (Q : QFlag) (N : StatNames P) (o_size o_align : vty P -> Z) (l : list (wop P Q)) (r : resources P Q) (sc : scene P Q) n e x s v w,
    distinct_vtables P /\ flags_eq (Q := Q) /\ w_run N o_size o_align no_resources l = Done r /\ stats_kept (querier_of r sc) /\
    fst (w_query r sc n (p_query e x s)) = Done (Some v) /\
    fst (run (client (uncached (querier_of r sc)) n (p_query e x s)) []) = Done (Some w) /\ v <> w.
Proof. exact reflects_refuted. Qed.
Print Assumptions C54_reflects_registration_refuted.
Example C54_reflects_registration_refuted_case :
  w_see demo_scene [WCache; w_hp 5; w_ask 0%nat; w_hp 7] 0%nat = Done (Some (num 6)) /\ w_see demo_scene [WCache; w_hp 5; w_hp 7] 0%nat = Done (Some (num 8)).
Proof. split; vm_compute; reflexivity. Qed.

(** A pair handed to the public [cache_pair] is the answer from then on, whatever the streams say. *)
Theorem C54_seeded : forall (P : Prog) (Q : QFlag) (N : StatNames P) (o_size o_align : vty P -> Z) (r r' : resources P Q) (sc : scene P Q) n e x s v,
  distinct_vtables P -> flags_eq (Q := Q) ->
  w_step N o_size o_align r (WSeed e x (Pair s (Buf (vt_value P (si_ty s)) v))) = Done r' -> sc_entities sc e <> None ->
  fst (w_query r' sc (S n) (p_query e x s)) = Done (Some v).
Proof. exact seeded. Qed.
Print Assumptions C54_seeded.
Example C54_seeded_case :
  w_see demo_scene [WCache; w_seed 0%nat 42] 0%nat = Done (Some (num 42)) /\ w_see demo_scene [w_seed 0%nat 42] 0%nat = Panics PUnwrap /\
  w_see demo_scene [WCache; w_seed 0%nat 42; WClear] 0%nat = Done (Some (Quad 1 (-2147483648) 2147483647 1)).
Proof. repeat split; vm_compute; reflexivity. Qed.
