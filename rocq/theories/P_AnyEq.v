(** C68: the cache under any behaviour of the flags' [Hash], [Eq], [Clone] and [Drop]. *)
From Coq Require Import ZArith List Bool Permutation.
From Verif Require Import M_Outcome M_Value M_Types M_Qualifier M_Stat M_HashMap M_Pair M_Defaults M_Querier M_Poison M_AnyEq
  S_Pair S_StatMap S_Querier S_Demo S_DemoQuery S_Poison S_AnyEq L_Querier4 L_DemoQuery L_DemoQuery2 L_Poison L_Demo L_AnyEq2.
Import ListNotations.
Local Open Scope Z_scope.

(** No thread comes to undefined behaviour, however the flags compare, hash, clone and drop,
    whatever panics, and whichever queriers of sound code share the cache. *)
Theorem C68_queries_safe : forall (P : Prog) (Q : QFlag) (cp dp : buffer P -> bool) (A : Type) (ts : list (@asker P Q A)) ms st lg,
  distinct_vtables P -> Forall asks_soundly ts ->
  whim_steps cp dp (map asking ts, PCache [] false) lg (ms, st) ->
  forall m o, In m ms -> finished m o -> o <> UB.
Proof. exact C68_queries_safe_proof. Qed.
Print Assumptions C68_queries_safe.
Example C68_queries_safe_case :
  stats_kept bare_demo /\ relations_kept bare_demo /\ defaults_typed (j_world bare_demo) /\ code_sound bare_demo /\
  see_any bare_demo (PCache [] false) [(0%nat, any, List.repeat all_equal 9); (0%nat, @Aggregate intQ 1, List.repeat all_equal 9); (1%nat, any, [eq_panics])]
    = ([Some (Done 4335); Some (Done 4335); Some (Panics PUser)], false, 2%nat).
Proof. split; [apply bare_kept|]. split; [apply bare_kept|]. split; [exact I|]. split; [exact bare_sound|]. vm_compute. reflexivity. Qed.

(** Flags decide only between queries: every entry was stored for its entity and its stat, and a
    look-up finds nothing else. *)
Theorem C68_entries_origin : forall (P : Prog) (Q : QFlag) (cp dp : buffer P -> bool) (A : Type) (ts ms : list (act P Q A)) st l,
  distinct_vtables P -> any_hist cp dp (ts, PCache [] false) l (ms, st) ->
  forall e x s b, In ((e, x, s), b) (pc_map st) -> In (e, s, b) l.
Proof. exact C68_entries_origin_proof. Qed.
Print Assumptions C68_entries_origin.
Theorem C68_hit_origin : forall (P : Prog) (Q : QFlag) (cp dp : buffer P -> bool) (w : whim Q) (A : Type) e x s (f : option (buffer P) -> act P Q A) st m' st' lg,
  distinct_vtables P -> whim_step cp dp w (AGet (e, x, s) f) st = Some (m', st', lg) ->
  (exists p, m' = AFail (Panics p)) \/ m' = f None \/ exists b x', m' = f (Some b) /\ In ((e, x', s), b) (pc_map st).
Proof. exact C68_hit_origin_proof. Qed.
Print Assumptions C68_hit_origin.
Example C68_origin_case :
  see_any (demo_joined true) (PCache [] false) [(0%nat, any, List.repeat all_equal 9); (1%nat, any, List.repeat all_equal 9); (5%nat, any, List.repeat all_equal 9)]
    = see_any (demo_joined true) (PCache [] false) [(0%nat, any, List.repeat fair 9); (1%nat, any, List.repeat fair 9); (5%nat, any, List.repeat fair 9)] /\
  see_any (demo_joined true) (PCache [] false) [(0%nat, any, List.repeat none_equal 9); (0%nat, any, List.repeat none_equal 9)] = ([Some (Done 4549); Some (Done 4549)], false, 4%nat).
Proof. split; vm_compute; reflexivity. Qed.

(** Clearing or dropping the cache calls every buffer's own drop function. *)
Theorem C68_drop_typed : forall (P : Prog) (Q : QFlag) (cp dp : buffer P -> bool) (A : Type) (ts : list (@asker P Q A)) ms st lg,
  distinct_vtables P -> whim_steps cp dp (map asking ts, PCache [] false) lg (ms, st) -> cache_drop (pc_map st) = Done tt.
Proof. exact C68_drop_typed_proof. Qed.
Print Assumptions C68_drop_typed.
Example C68_drop_typed_case :
  option_map (fun r => (List.length (pc_map (snd r)), cache_drop (pc_map (snd r)))) (any_go never never (List.repeat none_equal 9) (client (demo_joined true) 3 (ask_hp 0%nat any)) (PCache [] false))
    = Some (2%nat, Done tt) /\ distinct_vtables demo.
Proof. split; [vm_compute; reflexivity|exact demo_distinct]. Qed.

(** Every buffer placed in the cache is dropped at most once, the final drop included. *)
Theorem C68_dropped_once : forall (P : Prog) (Q : QFlag) (cp dp : buffer P -> bool) (A : Type) (ts ms : list (act P Q A)) st lg,
  whim_steps cp dp (ts, PCache [] false) lg (ms, st) ->
  exists rest, Permutation (l_placed lg) (l_dropped lg ++ final_drop dp st ++ rest).
Proof. exact C68_dropped_once_proof. Qed.
Print Assumptions C68_dropped_once.
Example C68_dropped_once_case :
  see_any bare_demo (PCache [] false) [(1%nat, any, List.repeat fair 9); (0%nat, any, List.repeat fair 2 ++ [rehash_panics]); (0%nat, any, List.repeat fair 9)]
    = ([Some (Done 23); Some (Panics PUser); Some (Panics PUnwrap)], true, 0%nat) /\
  option_map (fun r => List.length (final_drop never (snd r))) (any_go never never (List.repeat none_equal 9) (client bare_demo 3 (ask_hp 0%nat any)) (PCache [] false)) = Some 2%nat.
Proof. split; vm_compute; reflexivity. Qed.

(** With flags that behave, this is the cache of the other properties. *)
Theorem C68_lawful_same : forall (P : Prog) (Q : QFlag) (cp dp : buffer P -> bool) (w : whim Q) (A : Type) (m : act P Q A) st,
  distinct_vtables P -> flags_eq (Q := Q) -> NoDup (map fst (pc_map st)) -> behaves m (pc_map st) w ->
  whim_step cp dp w m st = pstep cp dp m st /\
  forall m' st' lg, pstep cp dp m st = Some (m', st', lg) -> NoDup (map fst (pc_map st')).
Proof. exact C68_lawful_same_proof. Qed.
Print Assumptions C68_lawful_same.
Example C68_lawful_same_case :
  see_any (demo_joined true) (PCache [] false) [(1%nat, any, List.repeat fair 9); (0%nat, any, List.repeat fair 9); (0%nat, any, List.repeat fair 9)] = ([Some (Done 130); Some (Done 4549); Some (Done 4549)], false, 2%nat) /\
  see_poison never never (PCache [] false) [Some 1; Some 0; Some 0]%nat = ([Done 130; Done 4549; Done 4549], false, 2%nat).
Proof. split; vm_compute; reflexivity. Qed.

(** The answers do depend on the flags: if all are equal, the answer to one query is given for
    another. *)
Theorem C68_answers_refuted :
  exists (ws : list (whim intQ)) (e : entity) (x y : qquery intQ) st,
  any_go never never ws (client (demo_joined true) 3 (ask_hp e x)) (PCache [] false) = Some (fst (run (client (uncached (demo_joined true)) 3 (ask_hp e x)) []), st) /\
  option_map fst (any_go never never ws (client (demo_joined true) 3 (ask_hp e y)) st) <> Some (fst (run (client (uncached (demo_joined true)) 3 (ask_hp e y)) [])) /\
  option_map fst (any_go never never ws (client (demo_joined true) 3 (ask_hp e y)) st) = Some (fst (run (client (uncached (demo_joined true)) 3 (ask_hp e x)) [])).
Proof. exact C68_answers_refuted_proof. Qed.
Print Assumptions C68_answers_refuted.
Example C68_answers_refuted_case :
  fst (fst (see_any (demo_joined true) (PCache [] false) [(0%nat, any, List.repeat all_equal 9); (0%nat, @Aggregate intQ 1, List.repeat all_equal 9)])) = [Some (Done 4549); Some (Done 4549)] /\
  fst (fst (see_any (demo_joined true) (PCache [] false) [(0%nat, any, List.repeat fair 9); (0%nat, @Aggregate intQ 1, List.repeat fair 9)])) = [Some (Done 4549); Some (Done 4649)].
Proof. split; vm_compute; reflexivity. Qed.
