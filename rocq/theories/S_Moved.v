(** The same grants, made somewhere else. *)
From Coq Require Import ZArith List Bool Permutation.
From Verif Require Import S_Types.
From Verif Require Import M_Outcome M_Value M_Qualifier M_Search M_Stat M_StatMap M_HashMap M_Pair M_Defaults M_Querier
  S_StatMap S_Defaults S_Defaults2 S_Querier S_Totals S_EndToEnd.
Import ListNotations.

Section S.
  Context {P : Prog} {Q : QFlag}.
  (** The maps with the logs [ll] have the same entries of [s] for the query as those with [ll'], on whichever of
      the maps and under whichever qualifiers. *)
  Definition same_grants (s : inst P) (x : qquery Q) (ll ll' : list (list (edit P Q))) : Prop :=
    exists sel sel', Forall2 (chosen s x) ll sel /\ Forall2 (chosen s x) ll' sel' /\
      Permutation (map snd (concat sel)) (map snd (concat sel')).
  (** Both entities exist, start from the same value and have the same entries. *)
  Definition moved (g g' : game P Q) (e e' : entity) (x : qquery Q) (s : inst P) : Prop :=
    exists ch ch', w_entities (j_world (g_querier g)) e = Some ch /\ w_entities (j_world (g_querier g')) e' = Some ch' /\
    start (match g_defaults g with Some l => l | None => [] end) s = start (match g_defaults g' with Some l => l | None => [] end) s /\
    same_grants s x (logs_for g e (or_nil ch)) (logs_for g' e' (or_nil ch')).
  (** The starting value and the entries are representable (S_Types). *)
  Definition starts_in (g : game P Q) (s : inst P) (Pv : val (VT P (vt_value P (si_ty s))) -> Prop) : Prop :=
    forall v, value_of (start (match g_defaults g with Some l => l | None => [] end) s) = Done v -> Pv v.
  Definition grants_in (g : game P Q) (e : entity) (x : qquery Q) (s : inst P) (Ev : step (VT P (vt_value P (si_ty s))) -> Prop) : Prop :=
    forall ch l q h v, w_entities (j_world (g_querier g)) e = Some ch -> In l (logs_for g e (or_nil ch)) ->
    qualifies_as q x = true -> account l s q = Some h -> value_of h = Done v -> Ev (SJoin v).
  Definition asked (g : game P Q) (e : entity) (x : qquery Q) (s : inst P) past n :=
    fst (run (client (g_querier g) (S n) (p_query e x s)) (after (g_querier g) past [])).
  Definition asked_eval (g : game P Q) (e : entity) (x : qquery Q) (s : inst P) past n :=
    fst (run (client (g_querier g) (S n) (p_query_eval e x s)) (after (g_querier g) past [])).
End S.
