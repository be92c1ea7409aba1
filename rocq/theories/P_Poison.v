(** C57: panics and the lock of the cache. *)
From Coq Require Import ZArith List Bool Permutation.
From Verif Require Import M_Outcome M_Value M_Types M_Qualifier M_Stat M_HashMap M_Pair M_Defaults M_Querier M_Poison
  S_Pair S_StatMap S_Querier S_Demo S_DemoQuery S_Poison L_Querier4 L_DemoQuery L_Poison.
Import ListNotations.
Local Open Scope Z_scope.

(** Panics of streams and arithmetic (clones and drops apart) never poison the lock: threads do
    what they do in the model without poisoning. *)
Theorem C57_user_panics_harmless : forall (P : Prog) (Q : QFlag) (A : Type) (ts ms : list (act P Q A)) (c : cache P Q) st lg,
  psteps never never (ts, PCache c false) lg (ms, st) -> pc_poisoned st = false /\ steps (ts, c) (ms, pc_map st).
Proof. exact C57_user_panics_harmless_proof. Qed.
Print Assumptions C57_user_panics_harmless.
Example C57_user_panics_harmless_case :
  see_poison never never (PCache [] false) [Some 1; Some 0; None; Some 0]%nat = ([Done 130; Done 4549; Done 0; Done 4549], false, 2%nat) /\
  fst (prun never never (client (demo_joined true) 3 (Ask (RStat 0%nat any hp) (fun _ => Stop (Panics PUser) : dprog Z))) (PCache [] false)) = Panics PUser /\
  pc_poisoned (snd (prun never never (client (demo_joined true) 3 (Ask (RStat 0%nat any hp) (fun _ => Stop (Panics PUser) : dprog Z))) (PCache [] false))) = false.
Proof. repeat split; vm_compute; reflexivity. Qed.

(** Whatever clones and drops panic, in any interleaving, a thread that ends with a value ends
    with the value it gets without a cache. *)
Theorem C57_answers_right : forall (P : Prog) (Q : QFlag) (cp dp : buffer P -> bool) (j : joined P Q) (A : Type) (ts : list (nat * prog P Q A)) ms st lg,
  distinct_vtables P -> flags_eq (Q := Q) -> j_cached j = true -> stats_kept j ->
  psteps cp dp (map (fun t => client j (fst t) (snd t)) ts, PCache [] false) lg (ms, st) ->
  forall i t m a, nth_error ts i = Some t -> nth_error ms i = Some m -> finished m (Done a) ->
  exists n, fst (run (client (uncached j) n (snd t)) []) = Done a.
Proof. exact C57_answers_right_proof. Qed.
Print Assumptions C57_answers_right.
Example C57_answers_right_case :
  see_poison (panics_at 4549) never (PCache [] false) [Some 1; Some 1; Some 0]%nat = ([Done 130; Done 130; Panics PUser], true, 1%nat).
Proof. vm_compute. reflexivity. Qed.

(** Every buffer put into the cache is dropped at most once in its life, the final drop of the
    cache included, even if drops panic: poisoning keeps the half-dropped entries away. *)
Theorem C57_dropped_once : forall (P : Prog) (Q : QFlag) (cp dp : buffer P -> bool) (A : Type) (ts ms : list (act P Q A)) st lg,
  psteps cp dp (ts, PCache [] false) lg (ms, st) ->
  exists rest, Permutation (l_placed lg) (l_dropped lg ++ final_drop dp st ++ rest).
Proof. exact C57_dropped_once_proof. Qed.
Print Assumptions C57_dropped_once.
Example C57_dropped_once_case :
  see_poison never (panics_at 4549) (PCache [] false) [Some 1; Some 0; None; Some 1]%nat = ([Done 130; Done 4549; Panics PUser; Panics PUnwrap], true, 2%nat) /\
  List.length (final_drop (panics_at 4549) (snd (prun never (panics_at 4549) (client (demo_joined true) 3 (ask_clear_ask 0%nat any)) (PCache [] false)))) = 0%nat /\
  List.length (final_drop never (snd (prun never never (client (demo_joined true) 3 (ask_clear_ask 0%nat any)) (PCache [] false)))) = 2%nat.
Proof. repeat split; vm_compute; reflexivity. Qed.

(** A poisoned lock is never repaired: its entries stay as they are, every cached query about a
    marked entity and every [clear] panics. *)
Theorem C57_poison_is_permanent : forall (P : Prog) (Q : QFlag) (cp dp : buffer P -> bool) (A : Type) (ts ms : list (act P Q A)) (c : cache P Q) st lg,
  psteps cp dp (ts, PCache c true) lg (ms, st) -> st = PCache c true /\ lg = no_log.
Proof. exact C57_poison_is_permanent_proof. Qed.
Print Assumptions C57_poison_is_permanent.
Theorem C57_poisoned_queries_panic : forall (P : Prog) (Q : QFlag) (cp dp : buffer P -> bool) (j : joined P Q) n e x s (c : cache P Q),
  j_cached j = true -> w_entities (j_world j) e <> None -> fits s ->
  prun cp dp (client j (S n) (p_query e x s)) (PCache c true) = (Panics PUnwrap, PCache c true) /\
  prun cp dp (client j n (Wipe (Ret tt))) (PCache c true) = (Panics PUnwrap, PCache c true).
Proof. exact C57_poisoned_queries_panic_proof. Qed.
Print Assumptions C57_poisoned_queries_panic.
Example C57_poisoned_case :
  see_poison never never (PCache [] true) [Some 1; None; Some 9]%nat = ([Panics PUnwrap; Panics PUnwrap; Done (-1)], true, 0%nat).
Proof. vm_compute. reflexivity. Qed.

(** One value whose clone panics once disables the cache for good: later queries about other
    entities, which would succeed on a fresh cache, and [clear] panic. *)
Theorem C57_clone_panic_refuted :
  exists (cp : buffer demo -> bool) (p : dprog Z),
  let first := prun cp never (client (demo_joined true) 3 p) (PCache [] false) in
  fst first = Panics PUser /\ pc_poisoned (snd first) = true /\
  fst (prun cp never (client (demo_joined true) 3 (ask_hp 1%nat any)) (snd first)) = Panics PUnwrap /\
  fst (prun cp never (client (demo_joined true) 3 (Wipe (Ret 0))) (snd first)) = Panics PUnwrap /\
  fst (prun cp never (client (demo_joined true) 3 (ask_hp 1%nat any)) (PCache [] false)) = Done 130.
Proof. exact C57_clone_panic_refuted_proof. Qed.
Print Assumptions C57_clone_panic_refuted.
