(** The cache under any [Hash], [Eq], [Clone] and [Drop] of the qualifier flags (src/cache.rs).
    [QualifierFlag] (src/qualifier.rs:16) asks for [Ord + Hash + Clone] and safe code may implement
    them in any way: inconsistent with each other, different at every call, panicking.
    [FxHashMap] is the hash table of std: [get] and [insert] hash the key, compare it with the
    keys of some slots (those whose stored hash leads the search to them) and take the first for
    which the comparison returns true. Which slots these are is up to the hashes, so it is left
    open; that a slot is only taken after its comparison returned true is what is assumed of
    std. *)
From Coq Require Import ZArith List Bool.
From Verif Require Import M_Outcome M_Value M_Qualifier M_Stat M_HashMap M_Pair M_Defaults M_Querier M_Poison.
Import ListNotations.

Section AnyEq.
  Variable P : Prog.
  Variable Q : QFlag.
  Variable clone_panics : buffer P -> bool.
  Variable drop_panics : buffer P -> bool.
  Notation qq := (qquery Q).

  (** What the flags' functions do in the course of one operation on the cache. *)
  Record whim : Type := Whim {
    (** [query.clone()] (src/cache.rs:77, src/querier.rs:287): [None] if it panics *)
    w_clone : qq -> option qq;
    (** hashing the key and searching: [None] if [hash] panics, else the slots compared *)
    w_slots : option (list nat);
    (** making room before an insertion hashes every key again: [Some l] if that panics, where
        only the entries [l] are still in the table (std drops the others, and a [Buffer] has
        no drop glue) *)
    w_rehash : option (list nat);
    (** the [i]th call of [eq] on flags: [None] if it panics *)
    w_eq : nat -> qcar Q -> qcar Q -> option bool;
    (** dropping a key that is not needed panics *)
    w_drop : bool
  }.

  (** Derived [PartialEq] of [QualifierQuery] (src/qualifier.rs:153-166) and of [CachedEntry]
      (src/cache.rs:11-16): fields in order, stopping at the first difference. [i] is the number
      of calls of [eq] so far. *)
  Definition any_query_eq (w : whim) (i : nat) (a b : qq) : option bool * nat :=
    match a, b with
    | Aggregate s, Aggregate s' => (w_eq w i s s', S i)
    | Exact n l, Exact n' l' =>
        match w_eq w i n n' with
        | Some true => (w_eq w (S i) l l', S (S i))
        | o => (o, S i)
        end
    | _, _ => (Some false, i)
    end.
  Definition any_entry_eq (w : whim) (i : nat) (a b : key P Q) : option bool * nat :=
    let '(e, x, s) := a in let '(e', x', s') := b in
    if Nat.eqb e e' then
      match any_query_eq w i x x' with
      | (Some true, i') => (Some (inst_eqb s s'), i')
      | r => r
      end
    else (Some false, i).
  (** The search: [Some o] with the slot found if any, [None] if a comparison panics. *)
  Fixpoint any_find (w : whim) (i : nat) (c : cache P Q) (k : key P Q) (slots : list nat) : option (option nat) :=
    match slots with
    | [] => Some None
    | n :: slots' =>
        match nth_error c n with
        | None => any_find w i c k slots'
        | Some (k', _) =>
            match any_entry_eq w i k k' with
            | (None, _) => None
            | (Some true, _) => Some (Some n)
            | (Some false, i') => any_find w i' c k slots'
            end
        end
    end.
  (** [HashMap::insert] into slot [n]: the key stays, the value is replaced. *)
  Fixpoint set_slot (c : cache P Q) (n : nat) (b : buffer P) : cache P Q :=
    match c, n with
    | [], _ => []
    | (k, _) :: c', O => (k, b) :: c'
    | kb :: c', S n' => kb :: set_slot c' n' b
    end.
  (** The entries of [c] in the slots [l] (a slot named twice counts once). *)
  Definition left_in (c : cache P Q) (l : list nat) : cache P Q :=
    flat_map (fun n => match nth_error c n with Some kb => [kb] | None => [] end) (nodup PeanoNat.Nat.eq_dec l).
  Definition slot_value (c : cache P Q) (n : nat) : list (buffer P) :=
    match nth_error c n with Some (_, b) => [b] | None => [] end.

  Definition with_query (k : key P Q) (x : qq) : key P Q := let '(e, _, s) := k in (e, x, s).
  Definition key_query (k : key P Q) : qq := let '(_, x, _) := k in x.

  (** One operation of a thread, as [pstep] of M_Poison.v. The buffers in the log: [l_placed] are
      the clones made for the cache, [l_forgotten] those that are neither in the cache nor dropped.
      - [try_get_cached_dyn] (67-82): reading never poisons.
      - [cache_pair] (56-65): the query is cloned by the caller before the lock is taken, the value
        under the lock; then the key is hashed, room is made, the table is searched. A panic in
        any of these poisons the lock. When the key is present the new key is dropped.
      - [clear] (84-90): drops the values, then [HashMap::clear] drops the keys, emptying the
        table even if one of them panics. *)
  Definition whim_step (w : whim) {A} (m : act P Q A) (st : pcache P Q) : option (act P Q A * pcache P Q * plog P) :=
    match m with
    | ARet _ | AFail _ => None
    | AGet k f =>
        if pc_poisoned st then Some (AFail (Panics PUnwrap), st, no_log)
        else match w_clone w (key_query k) with
        | None => Some (AFail (Panics PUser), st, no_log)
        | Some x =>
            match w_slots w with
            | None => Some (AFail (Panics PUser), st, no_log)
            | Some l =>
                match any_find w 0 (pc_map st) (with_query k x) l with
                | None => Some (AFail (Panics PUser), st, no_log)
                | Some o =>
                    let found := match o with Some n => hd_error (slot_value (pc_map st) n) | None => None end in
                    if match found with Some b => clone_panics b | None => false end || w_drop w
                    then Some (AFail (Panics PUser), st, no_log)
                    else Some (f found, st, no_log)
                end
            end
        end
    | APut k b f =>
        match w_clone w (key_query k) with
        | None => Some (AFail (Panics PUser), st, no_log)
        | Some x =>
            if pc_poisoned st then Some (AFail (Panics PUnwrap), st, no_log)
            else if clone_panics b then Some (AFail (Panics PUser), PCache (pc_map st) true, no_log)
            else
              let lost c := Some (AFail (Panics PUser), PCache c true, PLog [b] [] [b]) in
              match w_slots w with
              | None => lost (pc_map st)
              | Some l =>
                  match w_rehash w with
                  | Some r => lost (left_in (pc_map st) r)
                  | None =>
                      match any_find w 0 (pc_map st) (with_query k x) l with
                      | None => lost (pc_map st)
                      | Some (Some n) =>
                          let c := set_slot (pc_map st) n b in
                          let lg := PLog [b] [] (slot_value (pc_map st) n) in
                          if w_drop w then Some (AFail (Panics PUser), PCache c true, lg)
                          else Some (f, PCache c false, lg)
                      | Some None => Some (f, PCache (pc_map st ++ [(with_query k x, b)]) false, PLog [b] [] [])
                      end
                  end
              end
        end
    | AClear f =>
        if pc_poisoned st then Some (AFail (Panics PUnwrap), st, no_log)
        else let d := drop_loop drop_panics (map snd (pc_map st)) in
             if snd d then Some (AFail (Panics PUser), PCache (pc_map st) true, PLog [] (fst d) [])
             else if w_drop w then Some (AFail (Panics PUser), PCache [] true, PLog [] (fst d) [])
             else Some (f, PCache [] false, PLog [] (fst d) [])
    end.

  (** Threads in any interleaving, with a whim of its own for every operation. *)
  Inductive whim_steps {A} : list (act P Q A) * pcache P Q -> plog P -> list (act P Q A) * pcache P Q -> Prop :=
  | any_refl : forall s, whim_steps s no_log s
  | any_one : forall w l1 m l2 st m' st' lg lg' s,
      whim_step w m st = Some (m', st', lg) -> whim_steps (l1 ++ m' :: l2, st') lg' s ->
      whim_steps (l1 ++ m :: l2, st) (log_app lg lg') s.
End AnyEq.
Arguments Whim {Q}.
Arguments w_clone {Q}.
Arguments w_slots {Q}.
Arguments w_rehash {Q}.
Arguments w_eq {Q}.
Arguments w_drop {Q}.
Arguments any_query_eq {Q}.
Arguments any_entry_eq {P Q}.
Arguments any_find {P Q}.
Arguments set_slot {P Q}.
Arguments left_in {P Q}.
Arguments slot_value {P Q}.
Arguments with_query {P Q}.
Arguments key_query {P Q}.
Arguments whim_step {P Q} clone_panics drop_panics w {A}.
Arguments whim_steps {P Q} clone_panics drop_panics {A}.
