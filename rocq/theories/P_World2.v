(** C52: defaults of a world after any calls. *)
From Coq Require Import ZArith List Bool String.
From Verif Require Import M_Outcome M_Value M_Types M_Qualifier M_Search M_Stat M_StatMap M_HashMap M_Pair M_Defaults M_Registry M_Querier M_World
  S_Pair S_StatMap S_Defaults S_Defaults2 S_Querier S_Demo S_DemoDefaults S_DemoQuery S_World L_World2.
Import ListNotations.
Local Open Scope Z_scope.

(** A query for a stat that nothing contributes to returns the type's default if no call named the
    stat, else the value registered last with the later patches applied; it is undefined exactly if
    there were only patches. *)
Theorem C52_defaults_any : forall (P : Prog) (Q : QFlag) (N : StatNames P) (o_size o_align : vty P -> Z) (l : list (wop P Q)) (r : resources P Q)
    (sc : scene P Q) (n : nat) e x s,
  distinct_vtables P -> relations_pushed l = [] -> plain sc -> sc_entities sc e <> None -> fits s ->
  w_run N o_size o_align no_resources l = Done r -> content (r_cache r) = [] ->
  (Forall (fun c => call_stat c <> s) (default_calls l) ->
     fst (w_query r sc (S n) (p_query e x s)) = Done (Some (sv_default (VT P (vt_value P (si_ty s)))))) /\
  (forall l1 v l2, default_calls l = l1 ++ DInsert s v :: l2 -> (forall w, ~ In (DInsert s w) l2) ->
     exists v', patched s l2 v v' /\ fst (w_query r sc (S n) (p_query e x s)) = Done (Some v')) /\
  (fst (w_query r sc (S n) (p_query e x s)) = UB <-> orphaned (default_calls l) s).
Proof. exact C52_defaults_any_proof. Qed.
Print Assumptions C52_defaults_any.
Example C52_defaults_any_case :
  w_see plain_scene [w_min_hp 2; WCache; w_hp 5; w_max_hp 60] 0%nat = Done (Some (Quad 5 (-1000) 60 1)) /\
  w_see plain_scene [w_min_hp 2; w_hp 5; w_min_hp 3] 0%nat = Done (Some (Quad 5 3 1000 1)) /\
  w_see plain_scene [@WRegister demo intQ Hp] 0%nat = Done (Some (Quad 0 (-2147483648) 2147483647 1)) /\
  w_see plain_scene [w_min_hp 2] 0%nat = UB.
Proof. repeat split; vm_compute; reflexivity. Qed.
