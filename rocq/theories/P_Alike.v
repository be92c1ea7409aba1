(** C67 for the cache and the table of defaults: tables that compare equal. *)
From Coq Require Import ZArith List Bool.
From Verif Require Import M_Outcome M_Value M_Types M_Qualifier M_Search M_Stat M_StatMap M_HashMap M_Pair M_Defaults M_Querier M_Poison M_AnyEq M_VTable
  S_Pair S_StatMap S_Defaults S_Querier S_Demo S_DemoQuery S_Poison S_AnyEq S_VTable S_Alike L_Alike.
Import ListNotations.
Local Open Scope Z_scope.

(** What the following theorems ask of a program is that tables lying together are for one value type. *)
Theorem C67_alike_crates : forall c : crate, like_tables (prog_of c) <-> same_values c.
Proof. exact C67_alike_crates_proof. Qed.
Print Assumptions C67_alike_crates.

(** Threads sharing a cache come to no undefined behaviour, and all entries are dropped as what they are. *)
Theorem C67_cache_safe : forall (P : Prog) (Q : QFlag) (cp dp : buffer P -> bool) (A : Type) (ts : list (@asker P Q A)) ms st lg,
  like_tables P -> whim_steps cp dp (map asking ts, PCache [] false) lg (ms, st) ->
  (Forall asks_soundly ts -> forall m o, In m ms -> finished m o -> o <> UB) /\ cache_drop (pc_map st) = Done tt.
Proof. exact C67_cache_safe_proof. Qed.
Print Assumptions C67_cache_safe.
(** Stats with merged tables share answers, as they share entries of maps; others do not. *)
Example C67_cache_safe_case : like_tables (prog_of merged) /\
  msee (mdefaults [mdefault 0 5]) (mdefaults [mdefault 1 7]) 0 1 = (Done (Some (num 5)), Done (Some (num 5))) /\
  msee (mdefaults [mdefault 0 5]) (mdefaults [mdefault 3 7]) 0 3 = (Done (Some (num 5)), Done (Some (num 7))).
Proof. split; [exact merged_alike|]. vm_compute. split; reflexivity. Qed.

(** Every entry, and everything a look-up finds, was stored for the entity and for a stat that
    compares equal. *)
Theorem C67_cache_origin : forall (P : Prog) (Q : QFlag) (cp dp : buffer P -> bool) (A : Type) (ts ms : list (act P Q A)) st l,
  any_hist cp dp (ts, PCache [] false) l (ms, st) ->
  (forall e x s b, In ((e, x, s), b) (pc_map st) -> exists s', alike s' s /\ In (e, s', b) l) /\
  forall w e x s (f : option (buffer P) -> act P Q A) m' st' lg, whim_step cp dp w (AGet (e, x, s) f) st = Some (m', st', lg) ->
    (exists p, m' = AFail (Panics p)) \/ m' = f None \/ exists b s', m' = f (Some b) /\ alike s' s /\ In (e, s', b) l.
Proof. exact C67_cache_origin_proof. Qed.
Print Assumptions C67_cache_origin.

(** Registering defaults, reading, querying and dropping them is defined if patches follow
    insertions for stats that compare equal. *)
Theorem C67_defaults_safe : forall (P : Prog) (o_size o_align : vty P -> Z) (l : list (dcall P)),
  like_tables P -> alike_first l -> Forall sound_call l ->
  d_run o_size o_align [] l <> UB /\
  forall d lost, d_run o_size o_align [] l = Done (d, lost) ->
  (forall s, d_get d s <> UB /\ (fits s -> exists v, d_get d s = Done v) /\ (forall s', alike s s' -> (hget inst_eqb d s = None <-> hget inst_eqb d s' = None))) /\
  (exists dropped, d_drop d = Done dropped /\ map DVal dropped = map snd d) /\
  forall (Q : QFlag) (w : world P Q), w_defaults w = Some d -> defaults_typed w.
Proof. exact C67_defaults_safe_proof. Qed.
Print Assumptions C67_defaults_safe.
Example C67_defaults_safe_case :
  mget (mdefaults [mdefault 0 5; mraise 1 2; mdefault 3 9]) 1 = Done (Quad 5 2 1000 1) /\
  mget (mdefaults [mdefault 0 5; mdefault 1 7]) 0 = Done (num 7) /\ mget (mdefaults [mdefault 0 5]) 3 = Done (sv_default (VT demo VNum)).
Proof. vm_compute. repeat split. Qed.
