(** What it means that more was granted to one entity than to another. *)
From Coq Require Import ZArith List Bool.
From Verif Require Import M_Outcome M_Value M_Qualifier M_Search M_Stat M_StatMap M_HashMap M_Pair M_Defaults M_Querier
  S_Totals S_EndToEnd S_Monotone.
Import ListNotations.

(** An entry is improved, put in or left out. *)
Definition entry_improved {S : StatValue} (O : merits S) (a b : option (history S)) : Prop :=
  match a, b with
  | Some h, Some k => improved O h k
  | None, Some k => improved O FromDefault k
  | Some h, None => improved O h FromDefault
  | None, None => True
  end.

Section Q.
  Context {P : Prog} {Q : QFlag} {S : StatValue}.
  Variables (s : inst P) (E : VT P (vt_value P (si_ty s)) = S) (O : merits S) (x : qquery Q).
  (** What a map with this log has of [s] for the query. *)
  Definition has_for (l : list (edit P Q)) (q : qualifier Q) : option (history S) := option_map (seen_as E) (account l s q).
  (** Maps are improved, put in or left out. *)
  Inductive logs_improved : list (list (edit P Q)) -> list (list (edit P Q)) -> Prop :=
  | li_none : logs_improved [] []
  | li_both l l' ll ll' : (forall q, qualifies_as q x = true -> entry_improved O (has_for l q) (has_for l' q)) ->
      logs_improved ll ll' -> logs_improved (l :: ll) (l' :: ll')
  | li_more l' ll ll' : (forall q, qualifies_as q x = true -> entry_improved O None (has_for l' q)) ->
      logs_improved ll ll' -> logs_improved ll (l' :: ll')
  | li_less l ll ll' : (forall q, qualifies_as q x = true -> entry_improved O (has_for l q) None) ->
      logs_improved ll ll' -> logs_improved (l :: ll) ll'.
  Definition start_of (g : game P Q) : history S := seen_as E (start (match g_defaults g with Some l => l | None => [] end) s).
End Q.
