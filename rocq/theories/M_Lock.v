(** The lock of the cache in small steps (src/cache.rs). M_Querier.v takes each operation on the
    cache as one step; here taking a guard, working under it and dropping it are separate steps,
    and other threads may run in between. [std::sync::RwLock]: a guard for reading is given unless
    one for writing is out, a guard for writing is given if no guard is out, and a thread that is
    not given its guard waits. Which of the waiting threads is served first is left open.
    Panics under the lock are the subject of M_Poison.v and left out here. *)
From Coq Require Import List Bool.
From Verif Require Import M_Outcome M_Value M_Qualifier M_Stat M_HashMap M_Pair M_Defaults M_Querier.
Import ListNotations.

Section Lock.
  Variable P : Prog.
  Variable Q : QFlag.
  (** Values whose [Clone], and whose [Drop], ask the cache they are in (a query through a
      querier with this cache, or [clear]) before they return. The thread then waits for a guard
      while it holds one: with a guard for writing out no guard is given; with one for reading
      out the standard library leaves open whether a second is, and a query that misses asks for
      a guard for writing. *)
  Variable clone_asks : buffer P -> bool.
  Variable drop_asks : buffer P -> bool.

  (** Where a thread is. *)
  Inductive thread (A : Type) : Type :=
  | TFree (m : act P Q A)                                        (* holds no guard *)
  | TRead (k : key P Q) (f : option (buffer P) -> act P Q A)     (* 73-74: [read()] returned *)
  | TLook (o : option (buffer P)) (f : option (buffer P) -> act P Q A) (* 75-80: reference into the map held *)
  | TUnR (m : act P Q A)                                         (* value copied, guard not dropped *)
  | TWrite (k : key P Q) (b : buffer P) (f : act P Q A)          (* 57: [write()] returned *)
  | TInsert (k : key P Q) (b : buffer P) (c : cache P Q) (f : act P Q A) (* in [insert]; [c] is to be the new content *)
  | TClear (f : act P Q A)                                       (* 85: [write()] returned *)
  | TDrop (l : list (buffer P)) (f : act P Q A)                  (* 86-88: [l] still to be dropped *)
  | TUnW (m : act P Q A).                                        (* guard not dropped *)
  Arguments TFree {A}. Arguments TRead {A}. Arguments TLook {A}. Arguments TUnR {A}.
  Arguments TWrite {A}. Arguments TInsert {A}. Arguments TClear {A}. Arguments TDrop {A}. Arguments TUnW {A}.

  (** The map, the guards out, how many threads hold references into the map, whether the map is
      being changed, and whether it was ever changed while another thread was at it. *)
  Record lstate : Type := LState {
    l_map : cache P Q; l_readers : nat; l_writer : bool; l_looking : nat; l_torn : bool; l_race : bool }.
  Definition unlocked (c : cache P Q) : lstate := LState c 0 false 0 false false.
  Definition free (s : lstate) : bool := negb (l_writer s) && Nat.eqb (l_readers s) 0.

  (** One step of a thread; [None] if it has ended or waits. *)
  Definition lstep {A} (t : thread A) (s : lstate) : option (thread A * lstate) :=
    let '(LState c r w n torn race) := s in
    match t with
    | TFree (ARet _) | TFree (AFail _) => None
    (* try_get_cached_dyn (67-82) *)
    | TFree (AGet k f) => if w then None else Some (TRead k f, LState c (S r) w n torn race)
    | TRead k f => Some (TLook (hget key_eqb c k) f, LState c r w (S n) torn (race || torn))
    | TLook o f =>
        if match o with Some b => clone_asks b | None => false end then None
        else Some (TUnR (f o), LState c r w (pred n) torn race)
    | TUnR m => Some (TFree m, LState c (pred r) w n torn race)
    (* cache_pair (56-65): the argument is cloned with the guard held *)
    | TFree (APut k b f) => if free s then Some (TWrite k b f, LState c r true n torn race) else None
    | TWrite k b f =>
        if clone_asks b then None
        else Some (TInsert k b (fst (hput key_eqb c k b)) f, LState c r w n true (race || torn || negb (Nat.eqb n 0)))
    | TInsert k b c' f => Some (TUnW f, LState c' r w n false race)
    (* clear (84-90) *)
    | TFree (AClear f) => if free s then Some (TClear f, LState c r true n torn race) else None
    | TClear f => Some (TDrop (map snd c) f, LState c r w n true (race || torn || negb (Nat.eqb n 0)))
    | TDrop (b :: l) f => if drop_asks b then None else Some (TDrop l f, s)
    | TDrop [] f => Some (TUnW f, LState [] r w n false race)
    | TUnW m => Some (TFree m, LState c r false n torn race)
    end.

  Inductive lsteps {A} : list (thread A) * lstate -> list (thread A) * lstate -> Prop :=
  | lsteps_refl : forall s, lsteps s s
  | lsteps_one : forall l1 t l2 s t' s' z,
      lstep t s = Some (t', s') -> lsteps (l1 ++ t' :: l2, s') z -> lsteps (l1 ++ t :: l2, s) z.
End Lock.
Arguments TFree {P Q A}. Arguments TRead {P Q A}. Arguments TLook {P Q A}. Arguments TUnR {P Q A}.
Arguments TWrite {P Q A}. Arguments TInsert {P Q A}. Arguments TClear {P Q A}. Arguments TDrop {P Q A}. Arguments TUnW {P Q A}.
Arguments LState {P Q}. Arguments l_map {P Q}. Arguments l_readers {P Q}. Arguments l_writer {P Q}.
Arguments l_looking {P Q}. Arguments l_torn {P Q}. Arguments l_race {P Q}. Arguments unlocked {P Q}. Arguments free {P Q}.
Arguments lstep {P Q} clone_asks drop_asks {A}. Arguments lsteps {P Q} clone_asks drop_asks {A}.
