(** What a stat that is no number is worth, read off everything that went into it. *)
From Coq Require Import ZArith List Bool.
From Verif Require Import M_Outcome M_Ints M_Value M_Types M_Stat S_Types S_Totals S_DemoGame.
From Verif Require Import M_Qualifier S_EndToEnd.
Import ListNotations.
Local Open Scope Z_scope.

Section Kinds.
  Context {S : StatValue} {A : Type}.
  (** What was set, a base counting as set; what was excluded; the bases alone. *)
  Definition sets (bit : bitT S -> A) (base : baseT S -> A) (h : history S) : list A :=
    gathered (fun o => match o with OOr x => [bit x] | OBase x => [base x] | _ => [] end) h.
  Definition bans (bit : bitT S -> A) (h : history S) : list A :=
    gathered (fun o => match o with ONot x => [bit x] | _ => [] end) h.
  Definition bases (base : baseT S -> A) (h : history S) : list A :=
    gathered (fun o => match o with OBase x => [base x] | _ => [] end) h.
End Kinds.

(** The flag [f] is in one of the sets. *)
Definition any_has {B F : Type} (mem : B -> F -> Prop) (l : list B) (f : F) : Prop := exists b, In b l /\ mem b f.

(** The last of the values whose priority is above [p] ([last]: or the same). *)
Fixpoint last_above {A : Type} (last : bool) (p : Z) (l : list (prio A)) : option A :=
  match l with
  | [] => None
  | x :: l => match last_above last p l with
              | Some a => Some a
              | None => if (if last then p <=? p_priority x else p <? p_priority x) then Some (p_value x) else None
              end
  end.

(** Example data: what the entity and its child carry. *)
Definition GF : StatValue := statFlags zflags.
Definition gf_logs : list (list (edit (solo GF) intQ)) :=
  [[grant GF 3; alter GF (@OOr GF 8)]; [alter GF (@ONot GF 2); alter GF (@OOr GF 6)]].
Definition gf_more : list (list (edit (solo GF) intQ)) :=
  [[grant GF 3; alter GF (@OOr GF 8); alter GF (@OOr GF 32)]; [alter GF (@OOr GF 6)]].
Definition EX : StatValue := statExists.
Definition ex_logs : list (list (edit (solo EX) intQ)) := [[grant EX false]; [alter EX (@OOr EX true)]].
Definition ON : StatValue := statOnce Z.
Definition on_logs (two : bool) : list (list (edit (solo ON) intQ)) :=
  [if two then [grant ON 5] else []; [alter ON (@OOr ON 7)]].
Definition PR : StatValue := prioritized Z 0 false.
Definition pr_logs : list (list (edit (solo PR) intQ)) := [[grant PR (Prio 5 9)]; [grant PR (Prio 7 1)]].
