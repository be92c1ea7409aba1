(** Stats that follow from other stats: rules registered as global relations, next to maps. *)
From Coq Require Import ZArith List Bool.
From Verif Require Import M_Outcome M_Value M_Qualifier M_Search M_Stat M_StatMap M_HashMap M_Pair M_Defaults M_Querier
  S_StatMap S_Defaults S_Defaults2 S_Querier S_Totals S_EndToEnd.
Import ListNotations.

Section S.
  Context {P : Prog} {Q : QFlag}.
  Notation VS s := (VT P (vt_value P (si_ty s))).
  Notation story s := (history (VS s)).

  (** A rule about the stat [r_to]: code that may ask any questions and comes up with operations on it. *)
  Record rule : Type := {
    r_to : inst P;
    r_code : entity -> qquery Q -> prog P Q (list (stat_op (VS r_to)))
  }.
  (** The stream of a rule, registered with [register_stat_relation] (src/plugin.rs:76-83); [is_then_cast] is src/stat.rs:332-340:
      [if let Some(v) = pair.is_then_cast(&to) { for op in code(entity, qualifier, querier) { op.write_to(v) } }]. *)
  Variable T : StatTypes P.
  Definition rule_stream (r : rule) : gstream P Q := fun e x p =>
    pbind (of_outcome (pair_is_then_cast T p (r_to r))) (fun c =>
    match c with
    | None => Ret p
    | Some v =>
        pbind (r_code r e x) (fun l =>
        pbind (of_outcome (ofold (fun v o => write_to o v) v l)) (fun v' => Ret (pair_write p (si_ty (r_to r)) v')))
    end).
  (** The plain case: what another stat of some entity is worth, made into operations. *)
  Definition follows (to from : inst P) (at_ : entity -> qquery Q -> entity * qquery Q) (f : outT (VS from) -> list (stat_op (VS to))) : rule :=
    {| r_to := to;
       r_code := fun e x => pbind (p_query_eval (fst (at_ e x)) (snd (at_ e x)) from) (fun o =>
         Ret (match o with Some r => f r | None => [] end)) |}.

  (** What is registered as global relations: maps with their logs, and rules, in any order. *)
  Definition law : Type := (map_t P Q * list (edit P Q)) + rule.
  Variable bs : list comparison -> bsres.
  Definition law_stream (y : law) : gstream P Q := match y with inl p => everywhere bs (fst p) | inr r => rule_stream r end.
  Definition maps_in (l : list law) : list (map_t P Q * list (edit P Q)) := flat_map (fun y => match y with inl p => [p] | inr _ => [] end) l.
  Definition rules_in (l : list law) : list rule := flat_map (fun y => match y with inl _ => [] | inr r => [r] end) l.
  (** The querier of a game, with rules among its global maps. *)
  Definition with_rules (j : joined P Q) (l : list law) : joined P Q :=
    {| j_world := {| w_defaults := w_defaults (j_world j); w_relations := Some (map law_stream l);
                     w_entities := w_entities (j_world j); w_placeholder := w_placeholder (j_world j) |};
       j_cached := j_cached j; j_comp := j_comp j; j_child := j_child j; j_rel := j_rel j |}.
  Definition ruled (g : game P Q) (l : list law) : joined P Q := with_rules (g_querier g) l.

  (** Run at some depth after whatever was asked before, the code returns [a]. *)
  Definition yields (j : joined P Q) past {A} (p : prog P Q A) (a : A) : Prop :=
    exists n, fst (run (client j n p) (after j past [])) = Done a.

  (** Everything that contributes to a query about [e]: logs of maps, and rules. *)
  Definition cause : Type := list (edit P Q) + rule.
  Definition causes (g : game P Q) (l : list law) (e : entity) (ch : list entity) : list cause :=
    map (fun y => match y with inl p => inl (snd p) | inr r => inr r end) l ++
    map inl (flat_map (log_on e) (g_comp g) ++ flat_map (log_on e) (g_rel g) ++ flat_map (fun k => flat_map (fun d => log_on d k) ch) (g_child g)).
  (** The starting value: as the defaults were registered. *)
  Definition starting (g : game P Q) (s : inst P) : story s := start (match g_defaults g with Some l => l | None => [] end) s.
  (** [h] becomes [k] by the causes: entries are joined, and the operations applied that rules about
      [s] come up with when they ask the same game. *)
  Inductive leads (j : joined P Q) (e : entity) (x : qquery Q) (s : inst P) : story s -> list cause -> story s -> Prop :=
  | ld_none h : leads j e x s h [] h
  | ld_map h l hs c k : chosen s x l hs -> leads j e x s (fold_left Joined (map snd hs) h) c k -> leads j e x s h (inl l :: c) k
  | ld_rule h r (E : r_to r = s) ops c k : yields j [] (r_code r e x) ops ->
      leads j e x s (fold_left Applied (eq_rect (r_to r) (fun s => list (stat_op (VS s))) ops s E) h) c k -> leads j e x s h (inr r :: c) k
  | ld_other h r c k : r_to r <> s -> leads j e x s h c k -> leads j e x s h (inr r :: c) k.
  (** Stats can be ranked so that rules only ask about stats of lower rank than their own, and their
      code does not run forever by itself. *)
  Definition descends (rank : inst P -> nat) (r : rule) : Prop :=
    forall e x, only_asks (fun q => exists e' x' s', q = RStat e' x' s' /\ rank s' < rank (r_to r)) (r_code r e x) /\
                stops (fun o => o <> NoFuel) (r_code r e x).
  (** Where the game, the laws and the values of the program are in order. *)
  Definition lawful_game (o_size o_align : vty P -> Z) (g : game P Q) (l : list law) : Prop :=
    set_up bs o_size o_align g /\ g_global g = maps_in l /\ Forall (fun r => fits (r_to r) /\ validate_stat T (si_ty (r_to r)) = Done tt) (rules_in l).
End S.
Arguments rule P Q : clear implicits.
Arguments law P Q : clear implicits.
Arguments cause P Q : clear implicits.
