(** C23 and C24 for all histories of registrations. *)
From Coq Require Import ZArith List Bool.
From Verif Require Import M_Outcome M_Value M_Types M_Stat M_StatMap M_HashMap M_Qualifier M_Search M_Pair M_Defaults M_Querier
  S_StatMap S_Defaults S_Defaults2 S_Demo S_DemoDefaults S_DemoQuery S_DemoGame2 L_StatMap3 L_Demo L_Defaults2.
Import ListNotations.
Local Open Scope Z_scope.

(** Registering is undefined exactly when a stat that was patched before is patched again without
    ever having been given a value; otherwise it succeeds. *)
Theorem C23_ub_iff :
  forall (P : Prog) (o_size o_align : vty P -> Z) (l : list (dcall P)),
  distinct_vtables P -> Forall (fit_call o_size o_align) l ->
  (d_run o_size o_align [] l = UB <-> exists l1 s op l2, l = l1 ++ DPatch s op :: l2 /\ orphaned l1 s) /\
  (d_run o_size o_align [] l <> UB -> exists d lost, d_run o_size o_align [] l = Done (d, lost)).
Proof. exact C23_ub_iff_proof. Qed.
Print Assumptions C23_ub_iff.
(** Patched, then given a value, then patched: well. Patched twice: not. *)
Example C23_ub_iff_case :
  Forall (fit_call op_size op_align) [dmin_hp (-5); dput_atk 3; dput_hp 7; dmin_hp 1] /\
  defaults_ok [dmin_hp (-5); dput_atk 3; dput_hp 7; dmin_hp 1] = Done 1%nat /\
  dget_hp (demo_defaults [dmin_hp (-5); dput_atk 3; dput_hp 7; dmin_hp 1]) = Done (Quad 7 1 1000 1) /\
  defaults_ok [dmin_hp (-5); dput_atk 3; dmin_hp 1; dput_hp 7] = UB.
Proof.
  split; [|vm_compute; repeat split].
  repeat constructor; cbn; intros v; eexists; reflexivity.
Qed.
(** Whatever else was registered: a stat never named has its type's default, a stat given a value the
    last one given with the later patches applied, and reading a stat that was only patched is undefined. *)
Theorem C23_any_history :
  forall (P : Prog) (o_size o_align : vty P -> Z) (l : list (dcall P)) (d : defaults P) (lost : list (dbuf P)) (s : inst P),
  distinct_vtables P -> fits s -> d_run o_size o_align [] l = Done (d, lost) ->
  (Forall (fun c => call_stat c <> s) l -> d_get d s = Done (sv_default (VT P (vt_value P (si_ty s))))) /\
  (forall l1 v l2, l = l1 ++ DInsert s v :: l2 -> (forall w, ~ In (DInsert s w) l2) -> exists v', patched s l2 v v' /\ d_get d s = Done v') /\
  (d_get d s = UB <-> orphaned l s) /\ (d_get_dyn d s = UB <-> orphaned l s).
Proof. exact C23_any_history_proof. Qed.
Print Assumptions C23_any_history.
Example C23_any_history_case :
  orphaned [dmin_hp (-5); dput_atk 3] hp /\ ~ orphaned [dmin_hp (-5); dput_hp 7] hp /\
  dget_hp (demo_defaults [dmin_hp (-5); dput_atk 3]) = UB /\ dget_hp (demo_defaults [dput_atk 3]) = Done (sv_default (VT demo VNum)).
Proof.
  split; [split; [exists (@OMin (VT demo VNum) (-5)); left; reflexivity|intros v [H|[H|[]]]; discriminate]|].
  split; [intros [_ H]; eapply H; right; left; reflexivity|]. split; vm_compute; reflexivity.
Qed.
(** Dropping the table is undefined exactly when it holds a stat that was only patched; otherwise it
    releases every value it holds, once. *)
Theorem C24_defaults_drop_iff :
  forall (P : Prog) (o_size o_align : vty P -> Z) (l : list (dcall P)) (d : defaults P) (lost : list (dbuf P)),
  distinct_vtables P -> Forall (fun c => fits (call_stat c)) l -> d_run o_size o_align [] l = Done (d, lost) ->
  (d_drop d = UB <-> exists s, orphaned l s) /\
  ((forall s, ~ orphaned l s) -> exists dropped, d_drop d = Done dropped /\ map DVal dropped = map snd d).
Proof. exact C24_defaults_drop_iff_proof. Qed.
Print Assumptions C24_defaults_drop_iff.
Example C24_defaults_drop_iff_case :
  ddrop_count (demo_defaults [dmin_hp (-5); dput_atk 3]) = UB /\ ddrop_count (demo_defaults [dmin_hp (-5); dput_atk 3; dput_hp 7]) = Done 2%nat.
Proof. split; vm_compute; reflexivity. Qed.
(** And so is every query of it. *)
Theorem C23_query_orphaned :
  forall (P : Prog) (Q : QFlag) (o_size o_align : vty P -> Z) (l : list (dcall P)) (d : defaults P) (lost : list (dbuf P)) (s : inst P) (j : joined P Q) n e x c,
  distinct_vtables P -> fits s -> d_run o_size o_align [] l = Done (d, lost) -> orphaned l s ->
  w_defaults (j_world j) = Some d -> w_entities (j_world j) e <> None -> (j_cached j = true -> hget key_eqb c (e, x, s) = None) ->
  fst (run (client j (S n) (p_query e x s)) c) = UB /\
  forall e', w_entities (j_world j) e' <> None -> fst (run (client j (S n) (p_relation e e' x s)) c) = UB.
Proof. exact C23_query_orphaned_proof. Qed.
Print Assumptions C23_query_orphaned.
Example C23_query_orphaned_case :
  fits hp /\ orphaned [dmin_hp (-5)] hp /\ see_eval orphan_querier 1 0%nat any = UB.
Proof.
  split; [reflexivity|].
  split; [split; [exists (@OMin (VT demo VNum) (-5)); left; reflexivity|intros v [H|[]]; discriminate]|]. vm_compute. reflexivity.
Qed.
