(** Panics while the lock of the cache is held (src/cache.rs). The cache is a
    [std::sync::RwLock]: a panic of code that holds it for writing poisons it, and every later
    [read().unwrap()] or [write().unwrap()] panics. The code run under the lock that a user writes
    is [Clone] (64 for writing, 81 for reading) and [Drop] (87, 96) of stat values; M_Querier.v
    takes them not to panic. Panics of streams happen with the lock released. *)
From Coq Require Import ZArith List Bool.
From Verif Require Import M_Outcome M_Value M_Qualifier M_Stat M_HashMap M_Pair M_Defaults M_Querier.
Import ListNotations.

Section Poison.
  Variable P : Prog.
  Variable Q : QFlag.
  (** Which values panic when cloned and when dropped. *)
  Variable clone_panics : buffer P -> bool.
  Variable drop_panics : buffer P -> bool.

  Record pcache : Type := PCache { pc_map : cache P Q; pc_poisoned : bool }.
  (** Buffers moved into the cache, dropped by it, and displaced (forgotten) by one operation. *)
  Record plog : Type := PLog { l_placed : list (buffer P); l_dropped : list (buffer P); l_forgotten : list (buffer P) }.
  Definition no_log : plog := PLog [] [] [].

  (** [for (k, v) in cache.iter_mut() { drop_buffer(v) }] (86-88, 95-97): the values whose drop
      was begun, and whether one panicked. *)
  Fixpoint drop_loop (l : list (buffer P)) : list (buffer P) * bool :=
    match l with
    | [] => ([], false)
    | b :: l' => if drop_panics b then ([b], true) else (b :: fst (drop_loop l'), snd (drop_loop l'))
    end.

  (** One operation on the cache by a thread; [None] if the thread has ended.
      - [try_get_cached_dyn] (67-82): a panic under the read guard does not poison.
      - [cache_pair] (56-65): the receiver [write().unwrap()] is evaluated before the argument
        [pair.clone_buffer()], so the clone is made with the lock held for writing.
      - [clear] (84-90): on a panic the entries, some of them dropped, are still in the map. *)
  Definition pstep {A} (m : act P Q A) (st : pcache) : option (act P Q A * pcache * plog) :=
    match m with
    | ARet _ | AFail _ => None
    | AGet k f =>
        if pc_poisoned st then Some (AFail (Panics PUnwrap), st, no_log)
        else match hget key_eqb (pc_map st) k with
             | Some b => if clone_panics b then Some (AFail (Panics PUser), st, no_log) else Some (f (Some b), st, no_log)
             | None => Some (f None, st, no_log)
             end
    | APut k b f =>
        if pc_poisoned st then Some (AFail (Panics PUnwrap), st, no_log)
        else if clone_panics b then Some (AFail (Panics PUser), PCache (pc_map st) true, no_log)
        else let r := hput key_eqb (pc_map st) k b in
             Some (f, PCache (fst r) false, PLog [b] [] (in_olist (snd r)))
    | AClear f =>
        if pc_poisoned st then Some (AFail (Panics PUnwrap), st, no_log)
        else let d := drop_loop (map snd (pc_map st)) in
             if snd d then Some (AFail (Panics PUser), PCache (pc_map st) true, PLog [] (fst d) [])
             else Some (f, PCache [] false, PLog [] (fst d) [])
    end.

  Definition log_app (a b : plog) : plog :=
    PLog (l_placed a ++ l_placed b) (l_dropped a ++ l_dropped b) (l_forgotten a ++ l_forgotten b).
  (** Threads in any interleaving, with what became of the buffers on the way. *)
  Inductive psteps {A} : list (act P Q A) * pcache -> plog -> list (act P Q A) * pcache -> Prop :=
  | psteps_refl : forall s, psteps s no_log s
  | psteps_one : forall l1 m l2 st m' st' lg lg' s,
      pstep m st = Some (m', st', lg) -> psteps (l1 ++ m' :: l2, st') lg' s -> psteps (l1 ++ m :: l2, st) (log_app lg lg') s.

  (** [Drop for StatCache] (93-99): [write().unwrap()] panics on a poisoned lock, before anything
      is dropped. *)
  Definition final_drop (st : pcache) : list (buffer P) :=
    if pc_poisoned st then [] else fst (drop_loop (map snd (pc_map st))).

  (** One thread alone. *)
  Fixpoint prun {A} (m : act P Q A) (st : pcache) : outcome A * pcache :=
    match m with
    | ARet a => (Done a, st)
    | AFail o => (abort o, st)
    | AGet k f =>
        if pc_poisoned st then (Panics PUnwrap, st)
        else match hget key_eqb (pc_map st) k with
             | Some b => if clone_panics b then (Panics PUser, st) else prun (f (Some b)) st
             | None => prun (f None) st
             end
    | APut k b f =>
        if pc_poisoned st then (Panics PUnwrap, st)
        else if clone_panics b then (Panics PUser, PCache (pc_map st) true)
        else prun f (PCache (fst (hput key_eqb (pc_map st) k b)) false)
    | AClear f =>
        if pc_poisoned st then (Panics PUnwrap, st)
        else if snd (drop_loop (map snd (pc_map st))) then (Panics PUser, PCache (pc_map st) true)
        else prun f (PCache [] false)
    end.
End Poison.
Arguments PCache {P Q}.
Arguments pc_map {P Q}.
Arguments pc_poisoned {P Q}.
Arguments PLog {P}.
Arguments l_placed {P}.
Arguments l_dropped {P}.
Arguments l_forgotten {P}.
Arguments no_log {P}.
Arguments drop_loop {P}.
Arguments pstep {P Q} _ _ {A}.
Arguments psteps {P Q} _ _ {A}.
Arguments log_app {P}.
Arguments final_drop {P Q}.
Arguments prun {P Q} _ _ {A}.
