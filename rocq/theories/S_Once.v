(** Specification for C71: which questions a run computes. A question [(entity, query, stat)] is
    computed when the cache is asked for it and has no answer: only then do the streams run
    (src/querier.rs:254-289). *)
From Coq Require Import ZArith List Bool PeanoNat.
From Verif Require Import M_Outcome M_Value M_Qualifier M_Stat M_HashMap M_Pair M_Defaults M_Querier S_Querier S_Demo S_DemoQuery.
Import ListNotations.

Section S.
  Context {P : Prog} {Q : QFlag}.
  (** The question a single step computes. *)
  Definition miss {A} (m : act P Q A) (c : cache P Q) : list (key P Q) :=
    match m with
    | AGet k _ => match hget key_eqb c k with Some _ => [] | None => [k] end
    | _ => []
    end.
  (** The questions computed by a thread alone, in order. *)
  Fixpoint missed {A} (m : act P Q A) (c : cache P Q) : list (key P Q) :=
    match m with
    | ARet _ | AFail _ => []
    | AGet k f => match hget key_eqb c k with Some _ => [] | None => [k] end ++ missed (f (hget key_eqb c k)) c
    | APut k b f => missed f (fst (hput key_eqb c k b))
    | AClear f => missed f []
    end.
  (** The questions computed by a history of programs run one after the other. *)
  Fixpoint missed_all (j : joined P Q) (l : list (nat * prog P Q unit)) (c : cache P Q) : list (key P Q) :=
    match l with
    | [] => []
    | (n, p) :: l' => missed (client j n p) c ++ missed_all j l' (snd (run (client j n p) c))
    end.
  (** Every program of a history ends without a panic. *)
  Fixpoint all_done (j : joined P Q) (l : list (nat * prog P Q unit)) (c : cache P Q) : Prop :=
    match l with
    | [] => True
    | (n, p) :: l' => fst (run (client j n p) c) = Done tt /\ all_done j l' (snd (run (client j n p) c))
    end.
  (** Threads taking steps in any order, with a log of who computed what. *)
  Inductive logged {A} : list (act P Q A) * cache P Q -> list (nat * key P Q) -> list (act P Q A) * cache P Q -> Prop :=
  | logged_refl : forall s, logged s [] s
  | logged_one : forall l1 m l2 c m' c' lg s,
      astep m c = Some (m', c') -> logged (l1 ++ m' :: l2, c') lg s ->
      logged (l1 ++ m :: l2, c) (map (fun k => (List.length l1, k)) (miss m c) ++ lg) s.
  (** What thread [i] computed. *)
  Definition by_thread (i : nat) (lg : list (nat * key P Q)) : list (key P Q) :=
    map snd (filter (fun p => Nat.eqb (fst p) i) lg).
  (** How often a question was computed, by anybody. *)
  Definition times (k : key P Q) (lg : list (nat * key P Q)) : nat :=
    List.length (filter (fun p => key_eqb k (snd p)) lg).
  (** No part of a querier's code clears the cache. *)
  Definition never_clears (j : joined P Q) : Prop := all_code (fun A p => no_wipe p) j.

  (** A schedule with its log. *)
  Fixpoint miss_nth {A} (i : nat) (l : list (act P Q A)) (c : cache P Q) : list (key P Q) :=
    match l, i with
    | [], _ => []
    | m :: _, O => miss m c
    | _ :: l', S i' => miss_nth i' l' c
    end.
  Fixpoint schedule_log {A} (is : list nat) (s : list (act P Q A) * cache P Q) : list (nat * key P Q) :=
    match is with
    | [] => []
    | i :: is' => map (fun k => (i, k)) (miss_nth i (fst s) (snd s)) ++ schedule_log is' (step_nth i (fst s) (snd s))
    end.
End S.

(** ** Observations for the examples *)
(** The entity of a question and whether it is about hp. *)
Definition see_key (k : key demo intQ) : nat * bool := (fst (fst k), inst_eqb (snd k) hp).
Definition see_missed {A} (j : joined demo intQ) (n : nat) (p : dprog A) (c : cache demo intQ) : list (nat * bool) :=
  map see_key (missed (client j n p) c).
Definition see_missed_all (j : joined demo intQ) (l : list (nat * dprog unit)) (c : cache demo intQ) : list (nat * bool) :=
  map see_key (missed_all j l c).
Definition see_log (j : joined demo intQ) (ts : list (nat * dprog Z)) (is : list nat) : list (nat * (nat * bool)) :=
  map (fun p => (fst p, see_key (snd p))) (schedule_log is (map (fun t => client j (fst t) (snd t)) ts, [])).
(** A program that ignores its answers: hp of several entities. *)
Fixpoint hp_of (l : list entity) (x : dquery) : dprog unit :=
  match l with [] => Ret tt | e :: l' => Ask (RStat e x hp) (fun _ => hp_of l' x) end.
