(** Histories of one thread over a lock that may be poisoned, and demonstration data. *)
From Coq Require Import ZArith List Bool.
From Verif Require Import M_Outcome M_Value M_Types M_Qualifier M_Stat M_HashMap M_Pair M_Defaults M_Querier M_Poison S_Querier S_Demo S_DemoQuery.
Import ListNotations.
Local Open Scope Z_scope.

Section S.
  Context {P : Prog} {Q : QFlag}.
  Definition never : buffer P -> bool := fun _ => false.
  (** The state left by a sequence of programs, each of whose panics is caught. *)
  Fixpoint pafter (cp dp : buffer P -> bool) (j : joined P Q) (l : list (nat * prog P Q unit)) (st : pcache P Q) : pcache P Q :=
    match l with
    | [] => st
    | (n, p) :: l' => pafter cp dp j l' (snd (prun cp dp (client j n p) st))
    end.
End S.

(** A number value whose clone (or drop) panics when its base value is [x]. *)
Definition panics_at (x : Z) : buffer demo -> bool := fun b =>
  match b_ty b as t return val (VT demo t) -> bool with VNum => fun v => addend v =? x | VBool => fun _ => false end (b_val b).
(** Asking for hp of entities one after the other (or clearing), catching panics: the base values
    seen, whether the lock is poisoned, the entries. *)
Fixpoint see_poison (cp dp : buffer demo -> bool) (st : pcache demo intQ) (l : list (option entity)) : list (outcome Z) * bool * nat :=
  match l with
  | [] => ([], pc_poisoned st, List.length (pc_map st))
  | o :: l' =>
      let r := match o with
               | Some e => prun cp dp (client (demo_joined true) 3 (ask_hp e any)) st
               | None => prun cp dp (client (demo_joined true) 3 (Wipe (Ret 0))) st
               end in
      let t := see_poison cp dp (snd r) l' in (fst r :: fst (fst t), snd (fst t), snd t)
  end.
