(** What the lock is for: nobody is at the map while it is changed, threads do what they would if
    every operation on the cache were one step, and none waits for ever. *)
From Coq Require Import ZArith List Bool.
From Verif Require Import M_Outcome M_Value M_Types M_Qualifier M_Stat M_HashMap M_Pair M_Defaults M_Querier M_Lock S_Querier S_Demo S_DemoQuery S_Poison.
Import ListNotations.
Local Open Scope Z_scope.

Section S.
  Context {P : Prog} {Q : QFlag}.
  (** Guards held. *)
  Definition may_read {A} (t : thread P Q A) : bool := match t with TRead _ _ | TLook _ _ | TUnR _ => true | _ => false end.
  Definition may_write {A} (t : thread P Q A) : bool :=
    match t with TWrite _ _ _ | TInsert _ _ _ _ | TClear _ | TDrop _ _ | TUnW _ => true | _ => false end.
  (** Reading the map, and changing it. *)
  Definition reads {A} (t : thread P Q A) : bool := match t with TLook _ _ => true | _ => false end.
  Definition writes {A} (t : thread P Q A) : bool := match t with TInsert _ _ _ _ | TDrop _ _ => true | _ => false end.
  (** Operations a thread has still to do: one that has its answer is done, one that has not
      changed the map is not. *)
  Definition left {A} (t : thread P Q A) : act P Q A :=
    match t with
    | TFree m => m
    | TRead k f => AGet k f
    | TLook o f => f o
    | TUnR m => m
    | TWrite k b f => APut k b f
    | TInsert k b _ f => APut k b f
    | TClear f => AClear f
    | TDrop _ f => AClear f
    | TUnW m => m
    end.
  Definition ended {A} (t : thread P Q A) : bool := match t with TFree (ARet _) | TFree (AFail _) => true | _ => false end.
  (** At most one thread where [p], and then none where [q]. *)
  Definition alone {A} (p q : A -> bool) (l : list A) : Prop :=
    forall i j a b, nth_error l i = Some a -> nth_error l j = Some b -> p a = true -> i <> j -> p b = false /\ q b = false.
  Definition one_lstep {A} (ca da : buffer P -> bool) (s s' : list (thread P Q A) * lstate P Q) : Prop :=
    exists l1 t l2 t', fst s = l1 ++ t :: l2 /\ fst s' = l1 ++ t' :: l2 /\ lstep ca da t (snd s) = Some (t', snd s').
  (** Threads run by a schedule; a thread that cannot go on lets the others pass. *)
  Fixpoint lstep_nth {A} (ca da : buffer P -> bool) (i : nat) (l : list (thread P Q A)) (s : lstate P Q) : list (thread P Q A) * lstate P Q :=
    match l, i with
    | [], _ => ([], s)
    | t :: l', O => match lstep ca da t s with Some (t', s') => (t' :: l', s') | None => (t :: l', s) end
    | t :: l', S i' => let (r, s') := lstep_nth ca da i' l' s in (t :: r, s')
    end.
  Fixpoint lschedule {A} (ca da : buffer P -> bool) (is : list nat) (s : list (thread P Q A) * lstate P Q) : list (thread P Q A) * lstate P Q :=
    match is with [] => s | i :: is' => lschedule ca da is' (lstep_nth ca da i (fst s) (snd s)) end.
End S.

(** Base values answered so far, who holds a guard, and the size of the cache. *)
Definition see_lock (ca da : buffer demo -> bool) (ts : list (dprog Z)) (is : list nat) : list (option Z) * list bool * nat :=
  let s := lschedule ca da is (map (fun p => TFree (client (demo_joined true) 3 p)) ts, unlocked []) in
  (map (fun t => match t with TFree (ARet v) => Some v | _ => None end) (fst s),
   map (fun t => may_read t || may_write t) (fst s), List.length (l_map (snd s))).
(** Each of [n] threads in turn, [k] times. *)
Fixpoint rounds (n k : nat) : list nat := match k with O => [] | S k' => seq 0 n ++ rounds n k' end.
(** No thread can go on. *)
Definition all_wait {P Q A} (ca da : buffer P -> bool) (s : list (thread P Q A) * lstate P Q) : bool :=
  forallb (fun t => match lstep ca da t (snd s) with Some _ => false | None => true end) (fst s).
(** A number value whose clone (or drop) asks the cache when its base value is [x]. *)
Definition asks_at (x : Z) : buffer demo -> bool := panics_at x.
