(** C61: the lock of the cache in small steps. *)
From Coq Require Import ZArith List Bool.
From Verif Require Import M_Outcome M_Value M_Types M_Qualifier M_Stat M_HashMap M_Pair M_Defaults M_Querier M_Lock
  S_Pair S_StatMap S_Querier S_Demo S_DemoQuery S_Poison S_Lock L_Querier4 L_DemoQuery L_Lock.
Import ListNotations.
Local Open Scope Z_scope.

(** The map is never changed while another thread is at it: a thread with a guard for writing is
    the only one with a guard, and the lock knows the guards that are out. *)
Theorem C61_exclusive : forall (P : Prog) (Q : QFlag) (ca da : buffer P -> bool) (A : Type) (ms : list (act P Q A)) (c : cache P Q) ts s,
  lsteps ca da (map TFree ms, unlocked c) (ts, s) ->
  l_race s = false /\ alone may_write may_read ts /\
  l_readers s = List.length (filter may_read ts) /\ l_writer s = existsb may_write ts.
Proof. exact C61_exclusive_proof. Qed.
Print Assumptions C61_exclusive.
(** Seven rounds in, the first two threads hold guards for reading, the third none; nothing is answered yet. *)
Example C61_exclusive_case :
  see_lock never never [ask_hp 0%nat any; ask_clear_ask 0%nat any; ask_hp 1%nat any] (rounds 3 7) =
    ([None; None; None], [true; true; false], 0%nat) /\
  lsteps never never (map (fun p => TFree (client (demo_joined true) 3 p)) [ask_hp 0%nat any; ask_clear_ask 0%nat any; ask_hp 1%nat any], unlocked [])
    (lschedule never never (rounds 3 7) (map (fun p => TFree (client (demo_joined true) 3 p)) [ask_hp 0%nat any; ask_clear_ask 0%nat any; ask_hp 1%nat any], unlocked [])).
Proof. split; [vm_compute; reflexivity|apply lschedule_steps]. Qed.

(** Whatever the interleaving, the threads have done what they would have done had each
    operation on the cache been a single step, in some order. *)
Theorem C61_atomic : forall (P : Prog) (Q : QFlag) (ca da : buffer P -> bool) (A : Type) (ms : list (act P Q A)) (c : cache P Q) ts s,
  lsteps ca da (map TFree ms, unlocked c) (ts, s) -> steps (ms, c) (map left ts, l_map s).
Proof. exact C61_atomic_proof. Qed.
Print Assumptions C61_atomic.
(** And every such order can happen. *)
Theorem C61_all_orders : forall (P : Prog) (Q : QFlag) (ca da : buffer P -> bool) (A : Type) (ms ms' : list (act P Q A)) (c c' : cache P Q),
  (forall b, ca b = false) -> (forall b, da b = false) ->
  (steps (ms, c) (ms', c') <-> lsteps ca da (map TFree ms, unlocked c) (map TFree ms', unlocked c')).
Proof. exact C61_all_orders_proof. Qed.
Print Assumptions C61_all_orders.
Example C61_atomic_case :
  see_lock never never [ask_hp 0%nat any; ask_clear_ask 0%nat any] (rounds 2 60) = ([Some 4549; Some 4549], [false; false], 2%nat) /\
  see_threads [(3%nat, ask_hp 0%nat any); (3%nat, ask_clear_ask 0%nat any)] (demo_joined true) (rounds 2 20) = ([Some 4549; Some 4549], 2%nat).
Proof. split; vm_compute; reflexivity. Qed.

(** As long as no clone and no drop of a value asks the cache: until all threads have ended one
    of them can go on, whatever queries, streams and nested queries they run. *)
Theorem C61_no_deadlock : forall (P : Prog) (Q : QFlag) (ca da : buffer P -> bool) (A : Type) (ms : list (act P Q A)) (c : cache P Q) ts s,
  (forall b, ca b = false) -> (forall b, da b = false) ->
  lsteps ca da (map TFree ms, unlocked c) (ts, s) -> forallb ended ts = true \/ exists z, one_lstep ca da (ts, s) z.
Proof. exact C61_no_deadlock_proof. Qed.
Print Assumptions C61_no_deadlock.
Theorem C61_finite : forall (P : Prog) (Q : QFlag) (ca da : buffer P -> bool) (A : Type) (states : nat -> list (thread P Q A) * lstate P Q),
  ~ forall i, one_lstep ca da (states i) (states (S i)).
Proof. exact C61_finite_proof. Qed.
Print Assumptions C61_finite.
Example C61_no_deadlock_case :
  all_wait never never (lschedule never never (rounds 2 20) (map (fun p => TFree (client (demo_joined true) 3 p)) [ask_hp 0%nat any; ask_clear_ask 0%nat any], unlocked [])) = false /\
  all_wait never never (lschedule never never (rounds 2 60) (map (fun p => TFree (client (demo_joined true) 3 p)) [ask_hp 0%nat any; ask_clear_ask 0%nat any], unlocked [])) = true.
Proof. split; vm_compute; reflexivity. Qed.

(** The answers are those without a cache. *)
Theorem C61_answers : forall (P : Prog) (Q : QFlag) (ca da : buffer P -> bool) (j : joined P Q) (A : Type) (qs : list (nat * prog P Q A)) ts s,
  distinct_vtables P -> flags_eq (Q := Q) -> j_cached j = true -> stats_kept j ->
  lsteps ca da (map (fun q => TFree (client j (fst q) (snd q))) qs, unlocked []) (ts, s) ->
  forall i q m o, nth_error qs i = Some q -> nth_error ts i = Some (TFree m) -> finished m o ->
  same_as (fun n => fst (run (client (uncached j) n (snd q)) [])) (fst q) o.
Proof. exact C61_answers_proof. Qed.
Print Assumptions C61_answers.
Example C61_answers_case :
  see_lock never never [ask_hp 0%nat any; ask_hp 0%nat any; ask_clear_ask 1%nat any] (rounds 3 60) = ([Some 4549; Some 4549; Some 130], [false; false; false], 2%nat) /\
  see_hp (uncached (demo_joined true)) 3 0%nat any = see_hp (demo_joined true) 3 0%nat any.
Proof. split; vm_compute; reflexivity. Qed.

(** A clone that asks the cache, or a drop that does, ends in a deadlock: threads are left that
    have not ended and none can go on. *)
Theorem C61_reentry_refuted :
  (exists (ca : buffer demo -> bool) (qs : list (dprog Z)) z,
    lsteps ca never (map (fun p => TFree (client (demo_joined true) 3 p)) qs, unlocked []) z /\
    forallb ended (fst z) = false /\ all_wait ca never z = true) /\
  (exists (da : buffer demo -> bool) (qs : list (dprog Z)) z,
    lsteps never da (map (fun p => TFree (client (demo_joined true) 3 p)) qs, unlocked []) z /\
    forallb ended (fst z) = false /\ all_wait never da z = true).
Proof. exact C61_reentry_refuted_proof. Qed.
Print Assumptions C61_reentry_refuted.
Example C61_reentry_case :
  see_lock (asks_at 130) never [ask_hp 0%nat any; ask_hp 1%nat any] (rounds 2 30) = ([None; None], [false; true], 0%nat) /\
  see_lock never (asks_at 4549) [ask_clear_ask 0%nat any; ask_hp 1%nat any] (rounds 2 30) = ([None; Some 130], [true; false], 2%nat).
Proof. split; vm_compute; reflexivity. Qed.
