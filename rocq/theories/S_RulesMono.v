(** More granted, with rules: what it means that nothing is lost in a game with rules. *)
From Coq Require Import ZArith List Bool.
From Verif Require Import M_Outcome M_Value M_Qualifier M_Search M_Stat M_StatMap M_HashMap M_Pair M_Defaults M_Querier
  S_Querier S_Totals S_EndToEnd S_Monotone S_MonoQuery S_Rules.
Import ListNotations.

(** Operations are improved, gains put in, losses left out. *)
Inductive ops_improved {S : StatValue} (O : merits S) : list (stat_op S) -> list (stat_op S) -> Prop :=
| oi_none : ops_improved O [] []
| oi_both o o' l l' : better_op O o o' -> ops_improved O l l' -> ops_improved O (o :: l) (o' :: l')
| oi_more o' l l' : gain O o' -> ops_improved O l l' -> ops_improved O l (o' :: l')
| oi_less o l l' : loss O o -> ops_improved O l l' -> ops_improved O (o :: l) l'.

Section S.
  Context {P : Prog} {Q : QFlag}.
  Notation VS s := (VT P (vt_value P (si_ty s))).
  (** For every stat, what improves it, and when a result is at least another. *)
  Variable O : forall s : inst P, merits (VS s).
  Variable le : forall s : inst P, outT (VS s) -> outT (VS s) -> Prop.
  (** The stats looked at. *)
  Variable among : inst P -> Prop.
  (** Improvements make the result no less (C75). *)
  Definition pays : Prop := forall s, among s -> forall (h k : history (VS s)) r r', improved (O s) h k -> worth h = Done r -> worth k = Done r' -> le s r r'.
  (** A rule about a stat looked at makes it follow another of lower rank, and more of that one is no loss. *)
  Definition fair (rank : inst P -> nat) (r : rule P Q) : Prop :=
    among (r_to r) -> exists to from at_ f, r = follows to from at_ f /\ among from /\ (rank from < rank to) /\ forall a b, le from a b -> ops_improved (O to) (f a) (f b).
  (** Maps are improved, put in or left out; the rules stay. *)
  Inductive causes_improved (s : inst P) (x : qquery Q) : list (cause P Q) -> list (cause P Q) -> Prop :=
  | ci_none : causes_improved s x [] []
  | ci_both l l' c c' : (forall q, qualifies_as q x = true -> entry_improved (O s) (account l s q) (account l' s q)) ->
      causes_improved s x c c' -> causes_improved s x (inl l :: c) (inl l' :: c')
  | ci_more l' c c' : (forall q, qualifies_as q x = true -> entry_improved (O s) None (account l' s q)) ->
      causes_improved s x c c' -> causes_improved s x c (inl l' :: c')
  | ci_less l c c' : (forall q, qualifies_as q x = true -> entry_improved (O s) (account l s q) None) ->
      causes_improved s x c c' -> causes_improved s x (inl l :: c) c'
  | ci_rule r c c' : causes_improved s x c c' -> causes_improved s x (inr r :: c) (inr r :: c').
  (** Every entity has at least as much of them. *)
  Definition better_off (g : game P Q) (l : list (law P Q)) (g' : game P Q) (l' : list (law P Q)) : Prop :=
    (forall s, among s -> improved (O s) (starting g s) (starting g' s)) /\
    forall e, match w_entities (j_world (g_querier g)) e, w_entities (j_world (g_querier g')) e with
              | Some ch, Some ch' => forall x s, among s -> causes_improved s x (causes g l e (or_nil ch)) (causes g' l' e (or_nil ch'))
              | None, None => True
              | _, _ => False
              end.
End S.

(** What improves a value of a type that is known to be [T], and results of such a type that are integers. *)
Definition merits_as {S T : StatValue} (E : S = T) (M : merits T) : merits S := eq_rect_r merits M E.
