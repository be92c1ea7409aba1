(** What went into a [StatIntPercent], joined values included. *)
From Coq Require Import ZArith QArith List.
From Verif Require Import M_Outcome M_Value S_Totals S_FloatTotals.
Import ListNotations.

Section S.
  Context {S : StatValue}.
  (** How many of the values joined were never given a base. *)
  Fixpoint unbased (h : history S) : Z :=
    match h with
    | FromDefault => 1
    | FromBase _ => 0
    | Applied _ (OBase _) => 0
    | Applied h _ => unbased h
    | Joined h k => unbased h + unbased k
    end.
  (** Percentages multiply within a value, and add up between joined values. *)
  Fixpoint rate (per : mulT S -> Q) (h : history S) : Q :=
    match h with
    | FromDefault | FromBase _ => 1
    | Applied _ (OBase _) => 1
    | Applied h (OMul x) => rate per h * per x
    | Applied h _ => rate per h
    | Joined h k => rate per h + rate per k
    end.
End S.
Definition all_unbased {S : StatValue} (l : list (history S)) : Z := sum (map unbased l).
Definition all_rates {S : StatValue} (per : mulT S -> Q) (l : list (history S)) : Q := fold_right Qplus 0%Q (map (rate per) l).
(** [x] in the given scale. *)
Definition out_of (s x : Z) : Q := (inject_Z x / inject_Z s)%Q.
(** The multipliers of several stories, bases being multipliers. *)
Definition all_scales {S : StatValue} {A} (l : list (history S)) (mul : mulT S -> A) (base : baseT S -> A) : list A := flat_map (fun h => scales h mul base) l.
