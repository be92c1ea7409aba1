(** Modifiers that are granted and later removed. *)
From Coq Require Import ZArith List Bool Relations.
From Verif Require Import M_Outcome M_Value M_Qualifier M_Search M_Stat M_StatMap S_StatMap S_Totals S_EndToEnd.
Import ListNotations.

Section S.
  Context {P : Prog} {Q : QFlag}.
  Variables (q : qualifier Q) (s : inst P).

  (** Calls that make an entry under the key, and no other. *)
  Definition grants (o : mop P Q) : Prop :=
    match o with
    | MInsert q' s' _ => q' = q /\ s' = s
    | MInsertBase q' s' _ => q' = q /\ s' = s
    | MModify q' s' _ => q' = q /\ s' = s
    | MModifyWith q' s' _ => q' = q /\ s' = s
    | _ => False
    end.
  (** Calls that may make an entry under the key. *)
  Definition places (o : mop P Q) : Prop :=
    grants o \/ match o with MExtend U l => exists i v, In (q, i, v) l /\ s = Inst U i | _ => False end.
  (** Calls that may make, change or remove an entry under the key. *)
  Definition touches (o : mop P Q) : Prop :=
    places o \/
    match o with
    | MGetMut q' s' _ => q' = q /\ s' = s
    | MRemove q' s' => q' = q /\ s' = s
    | MIterMut s' _ => s' = s
    | MRemoveAll s' => s' = s
    | MClear => True
    | _ => False
    end.
End S.

(** The log [l'] is [l] with a modifier that is granted at some point under a key that is not in use,
    which no other call uses before it is removed. *)
Definition for_a_while {P : Prog} {Q : QFlag} (l l' : list (edit P Q)) : Prop :=
  exists q s e l1 l2 l3, l = l1 ++ l2 ++ l3 /\ l' = l1 ++ e :: l2 ++ ERemove q s :: l3 /\
  grants q s (method e) /\ account l1 s q = None /\ Forall (fun e => ~ places q s (method e)) l2.
(** Any number of them, one after another or at the same time. *)
Definition with_temporaries {P : Prog} {Q : QFlag} : list (edit P Q) -> list (edit P Q) -> Prop := clos_refl_trans _ for_a_while.
