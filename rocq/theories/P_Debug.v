(** C60: the [Debug] implementations. *)
From Coq Require Import ZArith String List Bool Sorted.
From Verif Require Import M_Outcome M_Value M_Types M_Qualifier M_Search M_Stat M_HashMap M_StatMap M_Pair M_Defaults M_Registry M_Querier M_Poison M_Debug
  S_Search S_StatMap S_Pair S_Defaults S_Demo S_DemoDefaults S_Registry S_Querier S_DemoQuery S_Poison S_Debug L_Debug.
Import ListNotations.
Local Open Scope Z_scope.

(** A map prints each of its bindings once, in ascending order, the value as its own type prints it. *)
Theorem C60_map : forall (P : Prog) (Q : QFlag) (bs : list comparison -> bsres) (N : StatNames P) (show : forall t : vty P, val (VT P t) -> outcome string),
  bs_contract bs -> distinct_vtables P -> lawful_ord (q_cmp Q) ->
  forall (l : list (mop P Q)) (m : map_t P Q), Forall tsingle l -> mops_run bs [] l = Done m ->
  exists (sp : tmap P Q) (items : list (shown (qualifier Q))), tspec_run empty_tmap l sp /\
    map_debug N show m = listing N show items /\
    StronglySorted (fun a b => key_cmp (i_stat a) (i_key a) (i_stat b) (i_key b) = Lt) items /\
    forall s q v, In (Shown q s v) items <-> sp s q = Some v.
Proof. exact C60_map_proof. Qed.
Print Assumptions C60_map.
Example C60_map_case :
  see_map [put_hp fire 7; put_alive none true; put_atk ice 3; put_hp none 5] =
  Done [(0, 2, "Atk", "3"); (0, 0, "Alive", "true"); (0, 0, "Hp", ".."); (0, 1, "Hp", "7")]%string.
Proof. vm_compute. reflexivity. Qed.

(** After any history, bulk insertions of repeated keys included, printing is free of undefined
    behaviour, and it writes all entries if the names and the values print. *)
Theorem C60_map_safe : forall (P : Prog) (Q : QFlag) (bs : list comparison -> bsres) (N : StatNames P) (show : forall t : vty P, val (VT P t) -> outcome string),
  bs_contract bs -> distinct_vtables P -> lawful_ord (q_cmp Q) -> printing_safe N show ->
  forall (l : list (mop P Q)) (m : map_t P Q), Forall sound_op l -> mops_run bs [] l = Done m ->
  map_debug N show m <> UB /\
  (printable N show -> exists r, map_debug N show m = Done r /\ map (fun p => fst (fst p)) r = map e_qual m).
Proof. exact C60_map_safe_proof. Qed.
Print Assumptions C60_map_safe.
Example C60_map_safe_case :
  see_map [extend_hp [(ice, 0, num 7); (ice, 0, num 3); (none, 1, num 5)]; put_alive none false] =
  Done [(0, 0, "Alive", "false"); (0, 2, "Hp", "7"); (0, 2, "Hp", "3"); (0, 0, "MaxHp", "..")]%string /\
  see_map [put_atk none 7; put_hp fire 13; put_alive none true] = Panics PUser.
Proof. vm_compute. repeat split. Qed.

(** The table of defaults prints each registered value once, if patched stats were inserted before. *)
Theorem C60_defaults : forall (P : Prog) (o_size o_align : vty P -> Z) (N : StatNames P) (show : forall t : vty P, val (VT P t) -> outcome string)
    (l : list (dcall P)) (d : defaults P) (lost : list (dbuf P)),
  distinct_vtables P -> inserted_first l -> d_run o_size o_align [] l = Done (d, lost) ->
  exists (sp : dmap P) (items : list (shown unit)), dspec_run no_defaults l sp /\
    defaults_debug N show d = (let! r := listing N show items in Done (map (fun p => (snd (fst p), snd p)) r)) /\
    NoDup (map i_stat items) /\ forall s v, In (Shown tt s v) items <-> sp s = Some v.
Proof. exact C60_defaults_proof. Qed.
Print Assumptions C60_defaults.
Example C60_defaults_case :
  see_defaults [dput_hp 7; dput_atk 13; dmin_hp 1; dput_atk 3] = Done [("Hp", "7"); ("Atk", "3")]%string.
Proof. vm_compute. reflexivity. Qed.

(** After patching a stat that was not inserted ([register_stat_min] alone), printing the table is
    undefined behaviour: the stored operation is formatted as a value. *)
Theorem C60_defaults_refuted : forall (P : Prog) (o_size o_align : vty P -> Z) (N : StatNames P) (show : forall t : vty P, val (VT P t) -> outcome string)
    (l : list (dcall P)) (d : defaults P) (lost : list (dbuf P)) (s : inst P) (op : stat_op (VT P (vt_value P (si_ty s)))) v',
  distinct_vtables P -> inserted_first l -> d_run o_size o_align [] l = Done (d, lost) -> printable N show ->
  hget inst_eqb d s = None -> fits s ->
  write_to op (sv_default (VT P (vt_value P (si_ty s)))) = Done v' ->
  validate (o_size (vt_value P (si_ty s))) (o_align (vt_value P (si_ty s))) = Done tt ->
  exists d', d_patch o_size o_align d s op = Done d' /\ defaults_debug N show d' = UB.
Proof. exact C60_defaults_refuted_proof. Qed.
Print Assumptions C60_defaults_refuted.
Example C60_defaults_refuted_case :
  see_defaults [dput_atk 3; dmin_hp 1] = UB.
Proof. vm_compute. reflexivity. Qed.

(** Whatever the interleaving and whichever clones and drops panicked: a cache that is not poisoned
    prints each entry once, with the answer to its question; a poisoned one panics (so values that a
    panicking [clear] has dropped are not read). *)
Theorem C60_cache : forall (P : Prog) (Q : QFlag) (N : StatNames P) (show : forall t : vty P, val (VT P t) -> outcome string)
    (cp dp : buffer P -> bool) (j : joined P Q) (A : Type) (ts : list (nat * prog P Q A)) ms st lg,
  distinct_vtables P -> flags_eq (Q := Q) -> j_cached j = true -> stats_kept j ->
  psteps cp dp (map (fun t => client j (fst t) (snd t)) ts, PCache [] false) lg (ms, st) ->
  if pc_poisoned st then cache_debug N show st = Panics PUnwrap
  else exists items : list (shown (entity * qquery Q)),
    cache_debug N show st = (let! r := listing N show items in Done (map (fun p => (fst (fst (fst p)), snd (fst (fst p)), snd (fst p), snd p)) r)) /\
    NoDup (map (fun i => (i_key i, i_stat i)) items) /\
    (forall e x s, hget key_eqb (pc_map st) (e, x, s) <> None <-> exists v, In (Shown (e, x) s v) items) /\
    forall e x s v, In (Shown (e, x) s v) items -> exists n, fst (run (client (uncached j) n (p_query e x s)) []) = Done (Some v).
Proof. exact C60_cache_proof. Qed.
Print Assumptions C60_cache.
Example C60_cache_case :
  see_cache false [(3%nat, Ask (RStat 0%nat any hp) (fun _ => Ret tt))] = Done [(1%nat, any, "Hp", ".."); (0%nat, any, "Hp", "..")]%string /\
  see_cache true [(3%nat, Ask (RStat 0%nat any hp) (fun _ => Ret tt))] = Panics PUnwrap.
Proof. vm_compute. repeat split. Qed.

(** Without any assumption on the streams, and with several queriers: no undefined behaviour. *)
Theorem C60_cache_safe : forall (P : Prog) (Q : QFlag) (N : StatNames P) (show : forall t : vty P, val (VT P t) -> outcome string)
    (cp dp : buffer P -> bool) (A : Type) (ts : list (joined P Q * nat * prog P Q A)) ms st lg,
  distinct_vtables P -> flags_eq (Q := Q) -> printing_safe N show ->
  psteps cp dp (map (fun t => client (fst (fst t)) (snd (fst t)) (snd t)) ts, PCache [] false) lg (ms, st) ->
  cache_debug N show st <> UB.
Proof. exact C60_cache_safe_proof. Qed.
Print Assumptions C60_cache_safe.
Example C60_cache_safe_case :
  cache_debug demoN demo_show (PCache (after_all [(demo_joined true, 3%nat, Ask (RStat 0%nat any hp) (fun _ => Ret tt));
    (swapping (atk_pair 3) true, 3%nat, Ask (RStat 0%nat (@Aggregate intQ 1) hp) (fun _ => Ret tt))] []) false) =
  Done [(1%nat, any, "Hp", ".."); (0%nat, any, "Hp", ".."); (0%nat, @Aggregate intQ 1, "Atk", "3")]%string.
Proof. vm_compute. reflexivity. Qed.

(** A pair prints the name of its stat and its value. *)
Theorem C60_pair : forall (P : Prog) (N : StatNames P) (show : forall t : vty P, val (VT P t) -> outcome string) (p : pair P),
  pair_ok p -> fits (p_stat p) -> exists v, p = Pair (p_stat p) (Buf (vt_value P (si_ty (p_stat p))) v) /\
  pair_debug N show p = let! n := sn_name N (si_ty (p_stat p)) (si_index (p_stat p)) in let! d := show _ v in Done (n, d).
Proof. exact C60_pair_proof. Qed.
Print Assumptions C60_pair.
Example C60_pair_case :
  see_pair (hp_pair 7) = Done ("Hp", "7")%string /\ see_pair (atk_pair 13) = Panics PUser.
Proof. vm_compute. repeat split. Qed.

(** The registry prints the index registered under each name. *)
Theorem C60_registry : forall (P : Prog) (N : StatNames P) (l : list (rop P)) n i,
  In (n, i) (registry_debug (rops_run N l)) <-> exists T, reg_get (rops_run N l) n = Some (Inst T i).
Proof. exact C60_registry_proof. Qed.
Print Assumptions C60_registry.
Example C60_registry_case :
  registry_debug (rops_run demoN [RRegister (Hp : sty demo); RReplace (Atk : sty demo)]) = [("Hp", 1); ("MaxHp", 1); ("Atk", 0); ("Def", 2)]%string.
Proof. vm_compute. reflexivity. Qed.
