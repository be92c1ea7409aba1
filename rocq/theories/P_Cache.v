(** C27-C30 and the cache part of C24: the shared cache of query results. *)
From Coq Require Import ZArith List Bool String Lia PeanoNat Permutation.
From Verif Require Import M_Outcome M_Value M_Types M_Qualifier M_Search M_Stat M_StatMap M_HashMap M_Pair M_Defaults M_Querier
  S_Pair S_StatMap S_Querier S_Demo S_DemoDefaults S_DemoQuery L_StatMap3 L_HashMap L_Demo L_Defaults L_Querier L_Querier2 L_Querier3 L_Querier4 L_DemoQuery L_CacheProofs.
Import ListNotations.
Local Open Scope Z_scope.

(** ** C27: caching is transparent *)
(** Whatever was asked before through the querier, code run with the cache returns what it
    returns without one (depths of nesting apart: running out of depth is not a result). *)
Theorem C27_transparent : forall (P : Prog) (Q : QFlag) (j : joined P Q) (l : list (nat * prog P Q unit)) (n : nat) (A : Type) (p : prog P Q A),
  distinct_vtables P -> flags_eq (Q := Q) -> j_cached j = true -> stats_kept j ->
  same_as (fun n => fst (run (client (uncached j) n p) [])) n (fst (run (client j n p) (after j l []))).
Proof. exact C27_transparent_proof. Qed.
Print Assumptions C27_transparent.
Example C27_transparent_case :
  (distinct_vtables demo /\ flags_eq (Q := intQ) /\ j_cached (demo_joined true) = true /\ stats_kept (demo_joined true)) /\
  see_history [] [(demo_joined true, 3%nat, Some (1%nat, any)); (demo_joined true, 3%nat, Some (0%nat, any)); (demo_joined true, 3%nat, Some (0%nat, any))] =
    ([Done (Some 130); Done (Some 4549); Done (Some 4549)], 2%nat) /\
  see_hp (demo_joined false) 3 0%nat any = Done (Some (num 4549)).
Proof.
  split; [split; [exact demo_distinct|split; [exact intQ_flags|split; [reflexivity|apply demo_kept]]]|].
  split; vm_compute; reflexivity.
Qed.

(** Every entry the cache ever holds is the uncached answer to its question. *)
Theorem C27_entries_right : forall (P : Prog) (Q : QFlag) (j : joined P Q) (l : list (nat * prog P Q unit)) e x s b,
  distinct_vtables P -> flags_eq (Q := Q) -> j_cached j = true -> stats_kept j ->
  hget key_eqb (after j l []) (e, x, s) = Some b ->
  exists v n, b = Buf (vt_value P (si_ty s)) v /\ fst (run (client (uncached j) n (p_query e x s)) []) = Done (Some v).
Proof. exact C27_entries_right_proof. Qed.
Print Assumptions C27_entries_right.
Example C27_entries_right_case :
  option_map b_ty (hget key_eqb (after (demo_joined true) [(3%nat, Ask (RStat 0%nat any hp) (fun _ => Ret tt))] []) (1%nat, any, hp)) = Some VNum.
Proof. vm_compute. reflexivity. Qed.

(** Without a cache resource, caches are neither read nor written. *)
Theorem C27_no_resource : forall (P : Prog) (Q : QFlag) (j : joined P Q) (n : nat) (A : Type) (p : prog P Q A) (c : cache P Q),
  j_cached j = false -> snd (run (client j n p) c) = c /\ fst (run (client j n p) c) = fst (run (client j n p) []).
Proof. exact C27_no_resource_proof. Qed.
Print Assumptions C27_no_resource.
Example C27_no_resource_case : see_history [] [(demo_joined false, 3%nat, Some (0%nat, any))] = ([Done (Some 4549)], 0%nat).
Proof. vm_compute. reflexivity. Qed.

(** Without [stats_kept] it fails: a stream may put a pair of another stat in place, which is
    then cached as the answer for that other stat. *)
Theorem C27_transparent_refuted :
  exists (P : Prog) (Q : QFlag) (j : joined P Q) (n : nat) (p : prog P Q (option Z * option Z)),
    distinct_vtables P /\ flags_eq (Q := Q) /\ j_cached j = true /\
    exists a b, fst (run (client (uncached j) n p) []) = Done a /\ fst (run (client j n p) []) = Done b /\ a <> b.
Proof. exact C27_transparent_refuted_proof. Qed.
Print Assumptions C27_transparent_refuted.
Example C27_transparent_refuted_case :
  see_both (swapping (atk_pair 5) false) 2 0%nat any = Done (Some 5, Some 0) /\ see_both (swapping (atk_pair 5) true) 2 0%nat any = Done (Some 5, Some 5).
Proof. split; vm_compute; reflexivity. Qed.

(** ** C28: threads *)
(** Any number of threads, each running any code (queries, nested queries, clearing), any
    interleaving: each thread that finishes has the uncached result. *)
Theorem C28_threads : forall (P : Prog) (Q : QFlag) (j : joined P Q) (A : Type) (ts : list (nat * prog P Q A)) ms c,
  distinct_vtables P -> flags_eq (Q := Q) -> j_cached j = true -> stats_kept j ->
  steps (map (fun t => client j (fst t) (snd t)) ts, []) (ms, c) ->
  forall i t m o, nth_error ts i = Some t -> nth_error ms i = Some m -> finished m o ->
  same_as (fun n => fst (run (client (uncached j) n (snd t)) [])) (fst t) o.
Proof. exact C28_threads_proof. Qed.
Print Assumptions C28_threads.
Example C28_threads_case :
  see_threads [(3%nat, ask_hp 0%nat any); (3%nat, ask_clear_ask 0%nat any)] (demo_joined true) [0; 1; 0; 1; 1; 0; 1; 0; 1; 0; 1; 1; 1; 1; 1; 1]%nat =
    ([Some 4549; Some 4549], 2%nat) /\
  steps (map (fun t => client (demo_joined true) (fst t) (snd t)) [(3%nat, ask_hp 0%nat any); (3%nat, ask_clear_ask 0%nat any)], [])
    (schedule [0; 1; 0; 1; 1; 0; 1; 0; 1; 0; 1; 1; 1; 1; 1; 1]%nat
      (map (fun t => client (demo_joined true) (fst t) (snd t)) [(3%nat, ask_hp 0%nat any); (3%nat, ask_clear_ask 0%nat any)], [])).
Proof. split; [vm_compute; reflexivity|apply schedule_steps]. Qed.

(** No thread is ever stuck, and no schedule goes on for ever. *)
Theorem C28_progress : forall (P : Prog) (Q : QFlag) (A : Type) (m : act P Q A) (c : cache P Q),
  (exists o, finished m o) \/ (exists r, astep m c = Some r).
Proof. exact C28_progress_proof. Qed.
Print Assumptions C28_progress.
Example C28_progress_case : exists r, astep (client (demo_joined true) 3 (ask_hp 0%nat any)) [] = Some r.
Proof. eexists. reflexivity. Qed.
Theorem C28_finite : forall (P : Prog) (Q : QFlag) (A : Type) (states : nat -> list (act P Q A) * cache P Q),
  ~ forall i, one_step (states i) (states (S i)).
Proof. exact C28_finite_proof. Qed.
Print Assumptions C28_finite.
Example C28_finite_case :
  fst (see_threads [(3%nat, ask_hp 0%nat any); (3%nat, ask_hp 1%nat any)] (demo_joined true) [0; 1; 0; 1; 0; 1; 0; 1; 0; 1]%nat) = [Some 4549; Some 130].
Proof. vm_compute. reflexivity. Qed.

(** ** C29: clearing and staleness *)
(** Whatever the cache contained, after clearing it everything is answered afresh. *)
Theorem C29_clear_restores : forall (P : Prog) (Q : QFlag) (j : joined P Q) (c : cache P Q) (n0 : nat) (l : list (nat * prog P Q unit)) (n : nat) (A : Type) (p : prog P Q A),
  distinct_vtables P -> flags_eq (Q := Q) -> j_cached j = true -> stats_kept j ->
  same_as (fun n => fst (run (client (uncached j) n p) [])) n (fst (run (client j n p) (after j ((n0, Wipe (Ret tt)) :: l) c))).
Proof. exact C29_clear_restores_proof. Qed.
Print Assumptions C29_clear_restores.
Example C29_clear_restores_case :
  see_history [] [(other_joined true, 3%nat, Some (0%nat, any)); (demo_joined true, 3%nat, Some (0%nat, any));
                  (demo_joined true, 3%nat, None); (demo_joined true, 3%nat, Some (0%nat, any))] =
    ([Done (Some 107); Done (Some 107); Done (Some 4549)], 2%nat).
Proof. vm_compute. reflexivity. Qed.

(** A value once returned through a cached querier is what every cached querier returns, in
    whatever world (if the entity is still marked), until the cache is cleared. *)
Theorem C29_stale : forall (P : Prog) (Q : QFlag) (j1 j2 : joined P Q) n1 n2 e x s v c c1 (l : list (joined P Q * nat * prog P Q unit)),
  distinct_vtables P -> flags_eq (Q := Q) ->
  j_cached j1 = true -> stats_kept j1 ->
  Forall (fun t => j_cached (fst (fst t)) = true /\ stats_kept (fst (fst t)) /\ all_code (fun A p => no_wipe p) (fst (fst t)) /\ no_wipe (snd t)) l ->
  j_cached j2 = true -> w_entities (j_world j2) e <> None ->
  run (client j1 n1 (p_query e x s)) c = (Done (Some v), c1) ->
  fst (run (client j2 (S n2) (p_query e x s)) (after_all l c1)) = Done (Some v).
Proof. exact C29_stale_proof. Qed.
Print Assumptions C29_stale.
Example C29_stale_case :
  all_code (fun A p => no_wipe p) (demo_joined true) /\
  see_history [] [(demo_joined true, 3%nat, Some (0%nat, any)); (demo_joined true, 3%nat, Some (1%nat, any));
                  (sq_with_component bare_world true body_gear, 3%nat, Some (0%nat, any)); (sq_with_component bare_world false body_gear, 3%nat, Some (0%nat, any))] =
    ([Done (Some 4549); Done (Some 130); Done (Some 4549); Done (Some 1)], 2%nat).
Proof. split; [apply demo_no_wipe|vm_compute; reflexivity]. Qed.

(** ** C30: sharing between queriers *)
(** The key of an entry does not mention the querier: another querier gets the first one's answer. *)
Theorem C30_per_querier_refuted :
  exists (P : Prog) (Q : QFlag) (j1 j2 : joined P Q) n e x s v w c1,
    distinct_vtables P /\ flags_eq (Q := Q) /\ stats_kept j1 /\ stats_kept j2 /\ j_world j1 = j_world j2 /\ j_cached j1 = true /\ j_cached j2 = true /\
    run (client j1 n (p_query e x s)) [] = (Done (Some v), c1) /\
    fst (run (client j2 n (p_query e x s)) c1) = Done (Some v) /\
    fst (run (client (uncached j2) n (p_query e x s)) []) = Done (Some w) /\ v <> w.
Proof. exact C30_per_querier_refuted_proof. Qed.
Print Assumptions C30_per_querier_refuted.
Example C30_per_querier_refuted_case :
  see_history [] [(demo_joined true, 3%nat, Some (0%nat, any)); (other_joined true, 3%nat, Some (0%nat, any)); (other_joined false, 3%nat, Some (0%nat, any))] =
    ([Done (Some 4549); Done (Some 4549); Done (Some 107)], 2%nat).
Proof. vm_compute. reflexivity. Qed.

(** Queriers whose uncached answers agree may share a cache. *)
Theorem C30_agreeing_queriers : forall (P : Prog) (Q : QFlag) (j1 j2 : joined P Q) (l : list (nat * prog P Q unit)) (n : nat) (A : Type) (p : prog P Q A),
  distinct_vtables P -> flags_eq (Q := Q) -> j_cached j1 = true -> stats_kept j1 -> j_cached j2 = true -> stats_kept j2 ->
  (forall n e x s v, fst (run (client (uncached j1) n (p_query e x s)) []) = Done (Some v) ->
     exists m, fst (run (client (uncached j2) m (p_query e x s)) []) = Done (Some v)) ->
  same_as (fun n => fst (run (client (uncached j2) n p) [])) n (fst (run (client j2 n p) (after j1 l []))).
Proof. exact C30_agreeing_queriers_proof. Qed.
Print Assumptions C30_agreeing_queriers.
Example C30_agreeing_queriers_case :
  see_history [] [(demo_joined true, 3%nat, Some (0%nat, any)); (with_component (demo_joined true) (gear (tab [])), 3%nat, Some (0%nat, any));
                  (with_component (demo_joined false) (gear (tab [])), 3%nat, Some (0%nat, any))] = ([Done (Some 4549); Done (Some 4549); Done (Some 4549)], 2%nat).
Proof. vm_compute. reflexivity. Qed.

(** ** C24: buffers owned by the cache *)
(** Every buffer put into the cache is in it, was dropped by [clear], or was forgotten: once. *)
Theorem C24_cache_conserved : forall (P : Prog) (Q : QFlag) (j : joined P Q) (n : nat) (A : Type) (p : prog P Q A) (c : cache P Q),
  let m := client j n p in
  Permutation (map snd c ++ placed m c) (map snd (snd (run m c)) ++ displaced m c ++ cleared m c).
Proof. exact C24_cache_conserved_proof. Qed.
Print Assumptions C24_cache_conserved.
Example C24_cache_conserved_case :
  let m := client (demo_joined true) 3 (ask_clear_ask 0%nat any) in
  (List.length (placed m []), List.length (snd (run m [])), List.length (displaced m []), List.length (cleared m [])) = (4, 2, 0, 2)%nat.
Proof. vm_compute. reflexivity. Qed.

(** The loops of [clear] and [Drop] succeed on every cache that queries leave behind. *)
Theorem C24_cache_drop_ok : forall (P : Prog) (Q : QFlag) (l : list (joined P Q * nat * prog P Q unit)),
  distinct_vtables P -> flags_eq (Q := Q) -> cache_drop (after_all l []) = Done tt.
Proof. exact C24_cache_drop_ok_proof. Qed.
Print Assumptions C24_cache_drop_ok.
Example C24_cache_drop_ok_case :
  cache_drop (after_all [(demo_joined true, 3%nat, Ask (RStat 0%nat any hp) (fun _ => Ret tt)); (swapping (atk_pair 5) true, 3%nat, Ask (RStat 0%nat (@Aggregate intQ 1) hp) (fun _ => Ret tt))] []) = Done tt.
Proof. vm_compute. reflexivity. Qed.

(** A single thread never overwrites an entry, so nothing is forgotten. *)
Theorem C24_cache_alone_lossless : forall (P : Prog) (Q : QFlag) (j : joined P Q) (l : list (nat * prog P Q unit)) (n : nat) (A : Type) (p : prog P Q A),
  distinct_vtables P -> flags_eq (Q := Q) -> j_cached j = true -> stats_kept j ->
  displaced (client j n p) (after j l []) = [].
Proof. exact C24_cache_alone_lossless_proof. Qed.
Print Assumptions C24_cache_alone_lossless.
Example C24_cache_alone_lossless_case :
  let m := client (demo_joined true) 3 (ask_hp 0%nat any) in
  (List.length (placed m []), List.length (displaced m [])) = (2, 0)%nat.
Proof. vm_compute. reflexivity. Qed.

(** Two threads asking the same question at the same time forget a buffer; so does a stream
    that puts another stat in place. *)
Theorem C24_cache_refuted :
  (exists (P : Prog) (Q : QFlag) (j : joined P Q) (p : prog P Q Z) m m' c,
     distinct_vtables P /\ flags_eq (Q := Q) /\ j_cached j = true /\ stats_kept j /\
     steps ([client j 3 p; client j 3 p], []) ([m; m'], c) /\ forgotten m' c <> []) /\
  (exists (P : Prog) (Q : QFlag) (j : joined P Q) (p : prog P Q (option Z * option Z)) c,
     distinct_vtables P /\ flags_eq (Q := Q) /\ displaced (client j 3 p) c <> []).
Proof. exact C24_cache_refuted_proof. Qed.
Print Assumptions C24_cache_refuted.
Example C24_cache_refuted_case : see_race (demo_joined true) [0; 1; 0; 1; 0; 1; 0]%nat = ([Some 4549; None], 1%nat).
Proof. vm_compute. reflexivity. Qed.

(** Starting a query loses a buffer exactly when there is a table of defaults. *)
Theorem C24_query_start_lost_iff : forall (P : Prog) (Q : QFlag) (w : world P Q) s b lost,
  start_value w s = Done (b, lost) -> (lost = [] <-> w_defaults w = None).
Proof. exact C24_query_start_lost_iff_proof. Qed.
Print Assumptions C24_query_start_lost_iff.
Example C24_query_start_lost_iff_case :
  omap (fun r => List.length (snd r)) (start_value demo_world hp) = Done 2%nat /\ omap (fun r => List.length (snd r)) (start_value bare_world hp) = Done 0%nat.
Proof. split; vm_compute; reflexivity. Qed.
