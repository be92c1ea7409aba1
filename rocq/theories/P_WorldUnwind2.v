(** C73 without asking that patches follow insertions. *)
From Coq Require Import ZArith List Bool String.
From Verif Require Import M_Outcome M_Value M_Types M_Qualifier M_Search M_Stat M_StatMap M_Unwind M_HashMap M_Pair M_Defaults M_Registry M_Querier M_World M_WorldUnwind
  S_Pair S_StatMap S_Defaults S_Querier S_Demo S_DemoDefaults S_DemoQuery S_World S_Registry S_WorldUnwind S_WorldUnwind2 L_Demo L_WorldUnwind2.
Import ListNotations.
Local Open Scope Z_scope.

(** After any calls, panics caught: a stat nothing was stored for has its type's default, one that
    was given a value has it with the patches that came later, and reading one whose first patch
    that came through met nothing is undefined. Dropping the table is undefined exactly if there is one. *)
Theorem C73_defaults_any : forall (P : Prog) (Q : QFlag) (N : StatNames P) (o_size o_align : vty P -> Z) (l : list (wop P Q * residue P)) (r : resources P Q),
  distinct_vtables P -> c_run N o_size o_align no_resources l = Done r ->
  exists sp, slot_run o_size o_align untouched (caught_defaults l) sp /\
  (forall s, fits s -> d_get (content (r_defaults r)) s = read_slot s (sp s)) /\
  (Forall (fun c => fits (call_stat c)) (default_calls (map fst l)) ->
   (d_drop (content (r_defaults r)) = UB <-> exists s, sp s = Misused) /\
   ((forall s, sp s <> Misused) -> exists dropped, d_drop (content (r_defaults r)) = Done dropped /\ map DVal dropped = map snd (content (r_defaults r)))).
Proof. exact C73_defaults_any_proof. Qed.
Print Assumptions C73_defaults_any.
Example C73_defaults_any_case :
  c_see plain_scene [w_min_hp 2; WClear; w_hp 5; w_max_hp 60] 0%nat = Done (Some (Quad 5 (-1000) 60 1)) /\
  c_drops [w_min_hp 2; WClear; w_hp 5] = Done 1%nat /\ c_drops [w_min_hp 2; WClear] = UB.
Proof. repeat split; vm_compute; reflexivity. Qed.

(** A history is undefined exactly if it comes to a query that is, or to a patch of a stat that holds
    an operation instead of a value. *)
Theorem C73_ub_iff : forall (P : Prog) (Q : QFlag) (N : StatNames P) (o_size o_align : vty P -> Z) (l : list (wop P Q * residue P)),
  distinct_vtables P -> flags_eq (Q := Q) -> Forall (fun c => decent (fst c)) l ->
  (c_run N o_size o_align no_resources l = UB <->
   exists l1 o u l2 r, l = l1 ++ (o, u) :: l2 /\ c_run N o_size o_align no_resources l1 = Done r /\
   ((exists sc n p, o = WQuery sc n p /\ fst (w_query r sc n p) = UB) \/
    (exists s op sp, default_calls [o] = [DPatch s op] /\ fits s /\ slot_run o_size o_align untouched (caught_defaults l1) sp /\ sp s = Misused))).
Proof. exact C73_ub_iff_proof. Qed.
Print Assumptions C73_ub_iff.
Example C73_ub_iff_case :
  c_ends [w_min_hp 2; WClear; w_max_hp 5] = UB /\ c_ends [w_min_hp 2; WClear; w_hp 1; w_max_hp 5] = Done tt /\
  c_ends [w_min_hp 2; w_ask_panic 0%nat] = UB.
Proof. repeat split; vm_compute; reflexivity. Qed.
