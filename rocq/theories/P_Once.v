(** C71: between two clearings of the cache nothing is computed twice. *)
From Coq Require Import ZArith List Bool String.
From Verif Require Import M_Outcome M_Value M_Qualifier M_Stat M_HashMap M_Pair M_Defaults M_Querier S_Pair S_StatMap S_Querier S_Demo S_DemoQuery S_Once L_Demo L_DemoQuery L_DemoQuery2 L_Once L_Once2.
Import ListNotations.

(** Code that does not clear the cache, through a querier whose streams do not either: no
    question is computed twice, even when questions ask further questions and even when the code
    panics in the end; nothing is computed that is in the cache already, whatever history filled
    it; and if the code ends without a panic, everything it computed is in the cache. *)
Theorem C71_once : forall (P : Prog) (Q : QFlag) (j : joined P Q) (l : list (nat * prog P Q unit)) (n : nat) (A : Type) (p : prog P Q A) (o : outcome A) (c' : cache P Q),
  distinct_vtables P -> flags_eq (Q := Q) -> j_cached j = true -> stats_kept j -> never_clears j -> no_wipe p ->
  run (client j n p) (after j l []) = (o, c') -> o <> NoFuel ->
  NoDup (missed (client j n p) (after j l [])) /\
  (forall k, In k (missed (client j n p) (after j l [])) -> hget key_eqb (after j l []) k = None) /\
  (forall a, o = Done a -> forall k, In k (missed (client j n p) (after j l [])) -> hget key_eqb c' k <> None).
Proof. exact C71_once_proof. Qed.
Print Assumptions C71_once.
Example C71_once_case :
  (* the stat of entity 0 asks for that of entity 1 *)
  see_missed (demo_joined true) 3 (hp_of [0; 1; 0; 4; 1]%nat any) [] = [(0, true); (1, true); (4, true)]%nat /\
  see_missed (demo_joined true) 3 (hp_of [0; 1; 0; 4; 1]%nat any) (after (demo_joined true) [(3, hp_of [1] any)]%nat []) = [(0, true); (4, true)]%nat /\
  fst (run (client (demo_joined true) 3 (hp_of [0; 1; 0; 4; 1]%nat any)) []) = Done tt /\
  never_clears (demo_joined true) /\ stats_kept (demo_joined true).
Proof. split; [vm_compute; reflexivity|]. split; [vm_compute; reflexivity|]. split; [vm_compute; reflexivity|]. split; [apply demo_no_wipe|apply demo_kept]. Qed.

(** The same for a whole history of programs that end without a panic. *)
Theorem C71_history : forall (P : Prog) (Q : QFlag) (j : joined P Q) (l0 l : list (nat * prog P Q unit)),
  distinct_vtables P -> flags_eq (Q := Q) -> j_cached j = true -> stats_kept j -> never_clears j ->
  Forall (fun t => no_wipe (snd t)) l -> all_done j l (after j l0 []) ->
  NoDup (missed_all j l (after j l0 [])) /\
  (forall k, In k (missed_all j l (after j l0 [])) -> hget key_eqb (after j l0 []) k = None).
Proof. exact C71_history_proof. Qed.
Print Assumptions C71_history.
Example C71_history_case :
  see_missed_all (demo_joined true) [(3, hp_of [1] any); (3, hp_of [0; 1] any); (3, hp_of [0; 4] any)]%nat [] = [(1, true); (0, true); (4, true)]%nat /\
  all_done (demo_joined true) [(3, hp_of [1] any); (3, hp_of [0; 1] any); (3, hp_of [0; 4] any)]%nat [].
Proof. split; [vm_compute; reflexivity|]. split; [vm_compute; reflexivity|]. split; [vm_compute; reflexivity|]. split; [vm_compute; reflexivity|exact I]. Qed.

(** A question that is in the cache costs one look: nothing is computed and the cache is left
    alone. *)
Theorem C71_hit : forall (P : Prog) (Q : QFlag) (j : joined P Q) n e x s b (c : cache P Q),
  j_cached j = true -> hget key_eqb c (e, x, s) = Some b ->
  missed (client j (S n) (p_query e x s)) c = [] /\ snd (run (client j (S n) (p_query e x s)) c) = c.
Proof. exact C71_hit_proof. Qed.
Print Assumptions C71_hit.
Example C71_hit_case :
  see_missed (demo_joined true) 3 (p_query 0%nat any hp) (after (demo_joined true) [(3, hp_of [0] any)]%nat []) = [].
Proof. vm_compute. reflexivity. Qed.

(** One that is not, and is answered, was computed. *)
Theorem C71_miss : forall (P : Prog) (Q : QFlag) (j : joined P Q) n e x s (c : cache P Q) v,
  j_cached j = true -> hget key_eqb c (e, x, s) = None ->
  fst (run (client j (S n) (p_query e x s)) c) = Done (Some v) ->
  In (e, x, s) (missed (client j (S n) (p_query e x s)) c).
Proof. exact C71_miss_proof. Qed.
Print Assumptions C71_miss.
Example C71_miss_case :
  see_missed (demo_joined true) 3 (p_query 0%nat any hp) (after (demo_joined true) [(3, hp_of [1] any)]%nat []) = [(0, true)]%nat.
Proof. vm_compute. reflexivity. Qed.

(** Threads sharing the cache, in any order of their steps: a thread that has ended computed
    nothing twice, and nothing that was there when the threads started. So when all have ended a
    question was computed at most once per thread. *)
Theorem C71_threads : forall (P : Prog) (Q : QFlag) (j : joined P Q) (A : Type) (l : list (nat * prog P Q unit)) (ts : list (nat * prog P Q A)) lg ms c,
  distinct_vtables P -> flags_eq (Q := Q) -> j_cached j = true -> stats_kept j -> never_clears j -> Forall (fun t => no_wipe (snd t)) ts ->
  logged (map (fun t => client j (fst t) (snd t)) ts, after j l []) lg (ms, c) ->
  (forall i m o, nth_error ms i = Some m -> finished m o -> o <> NoFuel ->
     NoDup (by_thread i lg) /\ forall k, In k (by_thread i lg) -> hget key_eqb (after j l []) k = None) /\
  ((forall i m, nth_error ms i = Some m -> exists o, finished m o /\ o <> NoFuel) -> forall k, times k lg <= List.length ts).
Proof. exact C71_threads_proof. Qed.
Print Assumptions C71_threads.
Example C71_threads_case :
  see_log (demo_joined true) [(3%nat, ask_hp 0%nat any); (3%nat, ask_hp 0%nat any)] [0; 1; 0; 0; 0; 1; 1; 1; 1; 1]%nat = [(0, (0, true)); (1, (0, true)); (0, (1, true))]%nat /\
  logged (map (fun t => client (demo_joined true) (fst t) (snd t)) [(3%nat, ask_hp 0%nat any); (3%nat, ask_hp 0%nat any)], [])
    (schedule_log [0; 1; 0; 0; 0; 1; 1; 1; 1; 1]%nat (map (fun t => client (demo_joined true) (fst t) (snd t)) [(3%nat, ask_hp 0%nat any); (3%nat, ask_hp 0%nat any)], []))
    (schedule [0; 1; 0; 0; 0; 1; 1; 1; 1; 1]%nat (map (fun t => client (demo_joined true) (fst t) (snd t)) [(3%nat, ask_hp 0%nat any); (3%nat, ask_hp 0%nat any)], [])).
Proof. split; [vm_compute; reflexivity|apply schedule_logged]. Qed.

(** But not at most once altogether: the lock is not held while a stat is computed, so two
    threads that ask the same question at the same time both compute it. *)
Theorem C71_threads_refuted :
  exists (P : Prog) (Q : QFlag) (j : joined P Q) (A : Type) (ts : list (nat * prog P Q A)) lg ms c k,
    distinct_vtables P /\ flags_eq (Q := Q) /\ j_cached j = true /\ stats_kept j /\ never_clears j /\ Forall (fun t => no_wipe (snd t)) ts /\
    logged (map (fun t => client j (fst t) (snd t)) ts, []) lg (ms, c) /\
    (forall m, In m ms -> exists o, finished m o /\ o <> NoFuel) /\ times k lg = 2%nat.
Proof. exact C71_threads_refuted_proof. Qed.
Print Assumptions C71_threads_refuted.
Example C71_threads_refuted_case :
  see_log (demo_joined true) [(3%nat, ask_hp 0%nat any); (3%nat, ask_hp 0%nat any)] [0; 1; 0; 1; 0; 1; 0; 1; 0; 1; 0; 1]%nat =
    [(0, (0, true)); (1, (0, true)); (0, (1, true)); (1, (1, true))]%nat.
Proof. vm_compute. reflexivity. Qed.

(** Nor if a stream puts the pair of another stat in place of its own: the answer is filed under
    the other stat, and the question is computed every time. *)
Theorem C71_swapped_refuted :
  exists (P : Prog) (Q : QFlag) (j : joined P Q) n (p : prog P Q unit) c,
    distinct_vtables P /\ flags_eq (Q := Q) /\ j_cached j = true /\ never_clears j /\ no_wipe p /\
    run (client j n p) [] = (Done tt, c) /\ ~ NoDup (missed (client j n p) []).
Proof. exact C71_swapped_refuted_proof. Qed.
Print Assumptions C71_swapped_refuted.
Example C71_swapped_refuted_case :
  see_missed (swapping (atk_pair 5) true) 3 (hp_of [0; 0; 1; 0]%nat any) [] = [(0, true); (0, true); (1, true); (0, true)]%nat.
Proof. vm_compute. reflexivity. Qed.
