(** Relation queries over games with rules: what is worked out from the maps of two entities. *)
From Coq Require Import ZArith List Bool.
From Verif Require Import M_Outcome M_Value M_Qualifier M_Search M_Stat M_StatMap M_HashMap M_Pair M_Defaults M_Querier
  S_StatMap S_Defaults S_Defaults2 S_Querier S_Totals S_EndToEnd S_Rules.
Import ListNotations.

Section S.
  Context {P : Prog} {Q : QFlag}.
  Notation VS s := (VT P (vt_value P (si_ty s))).
  (** A tie about the stat [t_to]: code that is given the map of the one and of the other entity, may
      ask any questions and comes up with operations on the stat. *)
  Record tie : Type := {
    t_to : inst P;
    t_code : map_t P Q -> map_t P Q -> qquery Q -> prog P Q (list (stat_op (VS t_to)))
  }.
  (** Between two given maps it is a rule, of whatever entity. *)
  Definition tie_rule (t : tie) (m m' : map_t P Q) : rule P Q := {| r_to := t_to t; r_code := fun _ x => t_code t m m' x |}.
  (** [RelationStream::relation] (src/stream.rs:158-170, called at 215-235) of a component that streams a tie:
      [if let Some(v) = pair.is_then_cast(&to) { for op in code(&this, &other, qualifier, querier) { op.write_to(v) } }]. *)
  Variable T : StatTypes P.
  Definition tied (k : holder P Q) (t : tie) : Prop := forall m m' x, k_rel k m m' x = rule_stream T (tie_rule t m m') 0 x.
  (** The ties between [e] and [f], in the order in which their components were added: only where both have the component. *)
  Definition ties_of (k : holder P Q) (t : tie) (e f : entity) : list (rule P Q) :=
    match k_map k e, k_map k f with Some m, Some m' => [tie_rule t m m'] | _, _ => [] end.
  Definition ties (g : game P Q) (ts : list tie) (e f : entity) : list (rule P Q) :=
    flat_map (fun p => ties_of (fst p) (snd p) e f) (combine (g_rel g) ts).
  (** Everything that contributes to a relation query from [e] to [f]. *)
  Definition rel_causes (g : game P Q) (l : list (law P Q)) (ts : list tie) (e f : entity) : list (cause P Q) :=
    map (fun y => match y with inl p => inl (snd p) | inr r => inr r end) l ++ map inr (ties g ts e f).
  Definition tied_game (g : game P Q) (ts : list tie) : Prop :=
    Forall2 tied (g_rel g) ts /\ Forall (fun t => validate_stat T (si_ty (t_to t)) = Done tt) ts.
End S.
Arguments tie P Q : clear implicits.
