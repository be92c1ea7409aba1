(** Two queries, the second of something more was granted to, and what they answer. *)
From Coq Require Import ZArith List Bool.
From Verif Require Import M_Outcome M_Value M_Qualifier M_Search M_Stat M_StatMap M_HashMap M_Pair M_Defaults M_Querier
  S_Search S_Pair S_StatMap S_Defaults S_Querier S_Totals S_EndToEnd S_Monotone S_MonoQuery.
Import ListNotations.

Definition value_as {S T : StatValue} (E : S = T) (v : val S) : val T := eq_rect S val v T E.

Section Q.
  Context {P : Prog} {Q : QFlag}.
  Variables (bs : list comparison -> bsres) (o_size o_align : vty P -> Z).
  (** Both games are set up, both entities exist, and the second has more of [s] for [x]. *)
  Definition granted_more (g g' : game P Q) e e' (x : qquery Q) (s : inst P) {T} (E : VT P (vt_value P (si_ty s)) = T) (O : merits T) : Prop :=
    set_up bs o_size o_align g /\ set_up bs o_size o_align g' /\ fits s /\
    exists ch ch', w_entities (j_world (g_querier g)) e = Some ch /\ w_entities (j_world (g_querier g')) e' = Some ch' /\
      improved O (start_of s E g) (start_of s E g') /\
      logs_improved s E O x (logs_for g e (or_nil ch)) (logs_for g' e' (or_nil ch')).
  (** Asked after [past], [query] answers [v] and [query_eval] answers [r]. *)
  Definition answers (g : game P Q) e (x : qquery Q) (s : inst P) past n v r : Prop :=
    fst (run (client (g_querier g) (S n) (p_query e x s)) (after (g_querier g) past [])) = Done (Some v) /\
    fst (run (client (g_querier g) (S n) (p_query_eval e x s)) (after (g_querier g) past [])) = Done (Some r).
End Q.
