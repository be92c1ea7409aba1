(** Maps and rules that have nothing to do with some questions. *)
From Coq Require Import ZArith List Bool.
From Verif Require Import M_Outcome M_Value M_Qualifier M_Search M_Stat M_StatMap M_HashMap M_Pair M_Defaults M_Querier
  S_StatMap S_Defaults S_Defaults2 S_Querier S_Totals S_EndToEnd S_Rules.
Import ListNotations.

Section S.
  Context {P : Prog} {Q : QFlag}.
  (** The questions looked at: about which stats of which entities, and for which qualifiers. *)
  Variable among : entity -> qquery Q -> inst P -> Prop.
  Definition looked_at (q : request P Q) : Prop := match q with RStat e x s => among e x s | _ => False end.
  (** To answer them, a rule asks nothing else. *)
  Definition self_contained (r : rule P Q) : Prop := forall e x, among e x (r_to r) -> only_asks looked_at (r_code r e x).
  (** Apart from maps that have no entries for the question and rules about other stats, which may be put in and
      left out anywhere, these are the same: maps have the same entries for the question. *)
  Inductive alike_for (x : qquery Q) (s : inst P) : list (cause P Q) -> list (cause P Q) -> Prop :=
  | af_none : alike_for x s [] []
  | af_map m m' c c' : (forall q, qualifies_as q x = true -> account m s q = account m' s q) -> alike_for x s c c' -> alike_for x s (inl m :: c) (inl m' :: c')
  | af_rule r c c' : alike_for x s c c' -> alike_for x s (inr r :: c) (inr r :: c')
  | af_map_left m c c' : (forall q, qualifies_as q x = true -> account m s q = None) -> alike_for x s c c' -> alike_for x s (inl m :: c) c'
  | af_map_right m c c' : (forall q, qualifies_as q x = true -> account m s q = None) -> alike_for x s c c' -> alike_for x s c (inl m :: c')
  | af_rule_left r c c' : r_to r <> s -> alike_for x s c c' -> alike_for x s (inr r :: c) c'
  | af_rule_right r c c' : r_to r <> s -> alike_for x s c c' -> alike_for x s c (inr r :: c').
  (** The stats asked about start from the same values, and the entities asked about have the same. *)
  Definition unaffected (g : game P Q) (l : list (law P Q)) (g' : game P Q) (l' : list (law P Q)) : Prop :=
    forall e x s, among e x s -> starting g s = starting g' s /\
      match w_entities (j_world (g_querier g)) e, w_entities (j_world (g_querier g')) e with
      | Some ch, Some ch' => alike_for x s (causes g l e (or_nil ch)) (causes g' l' e (or_nil ch'))
      | None, None => True
      | _, _ => False
      end.
  (** Run at some depth after whatever was asked before, the code ends like this; it may be a panic. *)
  Definition ends (j : joined P Q) past {A} (p : prog P Q A) (o : outcome A) : Prop :=
    o <> NoFuel /\ exists n, fst (run (client j n p) (after j past [])) = o.
End S.
