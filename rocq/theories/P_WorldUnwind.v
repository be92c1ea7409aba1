(** C73: worlds after calls that panicked and were caught. *)
From Coq Require Import ZArith List Bool String.
From Verif Require Import M_Outcome M_Value M_Types M_Qualifier M_Search M_Stat M_StatMap M_Unwind M_HashMap M_Pair M_Defaults M_Registry M_Querier M_World M_WorldUnwind
  S_Pair S_StatMap S_Defaults S_Querier S_Demo S_DemoDefaults S_DemoQuery S_World S_Registry S_WorldUnwind L_Demo L_WorldUnwind.
Import ListNotations.
Local Open Scope Z_scope.

(** Each resource holds what its own calls made of it, those that panicked included; it exists
    exactly if there was such a call, even one that panicked. *)
Theorem C73_resources : forall (P : Prog) (Q : QFlag) (N : StatNames P) (o_size o_align : vty P -> Z) (l : list (wop P Q * residue P)) (r : resources P Q),
  c_run N o_size o_align no_resources l = Done r ->
  (r_defaults r = None <-> default_calls (map fst l) = []) /\
  (content (r_relations r) = relations_pushed (map fst l) /\ (r_relations r = None <-> relations_pushed (map fst l) = [])) /\
  (content (r_names r) = rops_run N (types_registered (map fst l)) /\ (r_names r = None <-> types_registered (map fst l) = [])) /\
  (r_cache r = None <-> ~ In WCache (map fst l)).
Proof. exact C73_resources_proof. Qed.
Print Assumptions C73_resources.
Example C73_resources_case :
  c_sizes [w_hp 5; @WRegister demo intQ Hp; @WRegister demo intQ Atk; w_rel 1; WClear; w_rel 2] = Done (Some 3%nat, Some 1%nat, Some 2%nat, None) /\
  c_sizes [WCache; w_ask_panic 0%nat] = Done (None, None, None, Some 1%nat).
Proof. split; vm_compute; reflexivity. Qed.

(** If patches follow insertions, the table of defaults is the map of what was inserted, with
    patches applied as far as they came; it can be read, queried and dropped. *)
Theorem C73_defaults : forall (P : Prog) (Q : QFlag) (N : StatNames P) (o_size o_align : vty P -> Z) (l : list (wop P Q * residue P)) (r : resources P Q),
  distinct_vtables P -> backed (default_calls (map fst l)) -> c_run N o_size o_align no_resources l = Done r ->
  (exists sp, dcaught_run no_defaults (caught_defaults l) sp /\ forall s, fits s -> d_get (content (r_defaults r)) s = Done (or_default s (sp s))) /\
  (exists dropped, d_drop (content (r_defaults r)) = Done dropped /\ map DVal dropped = map snd (content (r_defaults r))) /\
  forall sc, defaults_typed (j_world (querier_of r sc)).
Proof. exact C73_defaults_proof. Qed.
Print Assumptions C73_defaults.
Example C73_defaults_case :
  c_see plain_scene [w_hp 5; WClear; w_min_hp 2; @WRegister demo intQ Alive; w_hp 7; w_max_hp 60] 0%nat = Done (Some (Quad 7 (-1000) 60 1)).
Proof. vm_compute. reflexivity. Qed.

(** Calls have no undefined behaviour of their own, whatever panicked before: only a query can,
    and C43 says when it does not. *)
Theorem C73_defined : forall (P : Prog) (Q : QFlag) (N : StatNames P) (o_size o_align : vty P -> Z) (l : list (wop P Q * residue P)),
  distinct_vtables P -> flags_eq (Q := Q) -> backed (default_calls (map fst l)) -> Forall (fun c => decent (fst c)) l ->
  c_run N o_size o_align no_resources l = UB ->
  exists l1 sc n p u l2 r, l = l1 ++ (WQuery sc n p, u) :: l2 /\ c_run N o_size o_align no_resources l1 = Done r /\ fst (w_query r sc n p) = UB.
Proof. exact C73_defined_proof. Qed.
Print Assumptions C73_defined.
Example C73_defined_case : c_sizes [WCache; w_seed 0%nat 42; w_hp 1; w_min_hp 0; w_ask_panic 1%nat; WClear; WQueryClear] = Done (None, Some 1%nat, None, Some 0%nat).
Proof. vm_compute. reflexivity. Qed.

(** Queries that panicked leave nothing wrong in the cache: if since it was last emptied there
    were only queries in the same scene, panicking or not, code returns what it returns without a
    cache. *)
Theorem C73_fresh : forall (P : Prog) (Q : QFlag) (N : StatNames P) (o_size o_align : vty P -> Z) (l1 l2 : list (wop P Q * residue P)) (o : wop P Q) (u : residue P)
    (r : resources P Q) (sc : scene P Q) (n : nat) (A : Type) (p : prog P Q A),
  distinct_vtables P -> flags_eq (Q := Q) ->
  c_run N o_size o_align no_resources (l1 ++ (o, u) :: l2) = Done r ->
  empties o -> Forall (fun c => changes_nothing sc (fst c)) l2 -> stats_kept (querier_of r sc) ->
  same_as (fun n => fst (run (client (uncached (querier_of r sc)) n p) [])) n (fst (w_query r sc n p)).
Proof. exact C73_fresh_proof. Qed.
Print Assumptions C73_fresh.
Example C73_fresh_case :
  c_see demo_scene [WCache; w_hp 5; w_ask_panic 0%nat; w_hp 7; w_rel 100; WClear; w_ask_panic 0%nat; @WRegister demo intQ Hp; w_ask_panic 1%nat] 0%nat = Done (Some (num 108)) /\
  c_see demo_scene [WCache; w_hp 5; w_ask_panic 0%nat; w_hp 7; w_rel 100] 0%nat = Done (Some (num 6)).
Proof. split; vm_compute; reflexivity. Qed.

(** Without panics the histories are those of C52. *)
Theorem C73_same : forall (P : Prog) (Q : QFlag) (N : StatNames P) (o_size o_align : vty P -> Z) (l : list (wop P Q * residue P)) (r0 r : resources P Q),
  w_run N o_size o_align r0 (map fst l) = Done r -> c_run N o_size o_align r0 l = Done r.
Proof. exact C73_same_proof. Qed.
Print Assumptions C73_same.
Example C73_same_case : w_ends [w_hp 5; WCache; w_rel 1; WClear] = Done tt /\ c_sizes [w_hp 5; WCache; w_rel 1; WClear] = Done (None, Some 1%nat, Some 1%nat, Some 0%nat).
Proof. split; vm_compute; reflexivity. Qed.

(** "A call that panics leaves the world as it was" is false: the names before the clash stay. *)
Theorem C73_atomic_refuted : exists (l : list dop_w) (o : dop_w) (n : string),
  w_ends l = Done tt /\ w_ends (l ++ [o]) = Panics PDuplicate /\ c_name l n = Done None /\ c_name (l ++ [o]) n = Done (Some (Atk, 0)).
Proof. exact C73_atomic_refuted_proof. Qed.
Print Assumptions C73_atomic_refuted.
