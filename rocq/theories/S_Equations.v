(** The rules of a game as equations between answers. *)
From Coq Require Import ZArith List Bool.
From Verif Require Import M_Outcome M_Value M_Qualifier M_Search M_Stat M_StatMap M_HashMap M_Pair M_Defaults M_Querier
  S_StatMap S_Defaults S_Querier S_Totals S_EndToEnd S_Rules.
Import ListNotations.

Section S.
  Context {P : Prog} {Q : QFlag}.
  Notation VS s := (VT P (vt_value P (si_ty s))).
  Notation story s := (history (VS s)).
  (** Some way to answer every question about stats: a value, no value, or a panic. *)
  Definition book : Type := forall (e : entity) (x : qquery Q) (s : inst P), outcome (option (val (VS s))).
  (** Code that is given these answers; other questions are not answered. *)
  Definition by_book (F : book) (r : request P Q) : outcome (raw r) :=
    match r return outcome (raw r) with
    | RStat e x s => let! o := F e x s in Done (option_map (Buf (vt_value P (si_ty s))) o)
    | RRel _ _ _ _ => NoFuel
    | RAttr _ _ => NoFuel
    end.
  (** What causes make of [h] when the rules are given these answers: entries are joined, the
      operations of rules about [s] are applied, and the first panic is the outcome. *)
  Inductive foretold (F : book) (e : entity) (x : qquery Q) (s : inst P) : story s -> list (@cause P Q) -> outcome (val (VS s)) -> Prop :=
  | ft_none h : foretold F e x s h [] (value_of h)
  | ft_map h l hs c o : chosen s x l hs -> foretold F e x s (fold_left Joined (map snd hs) h) c o -> foretold F e x s h (inl l :: c) o
  | ft_rule h r (E : r_to r = s) ops c o : oeval (by_book F) (r_code r e x) = Done ops ->
      foretold F e x s (fold_left Applied (eq_rect (r_to r) (fun s => list (stat_op (VS s))) ops s E) h) c o -> foretold F e x s h (inr r :: c) o
  | ft_panic h r c : r_to r = s -> (forall ops, oeval (by_book F) (r_code r e x) <> Done ops) ->
      foretold F e x s h (inr r :: c) (let! v := value_of h in let! _ := oeval (by_book F) (r_code r e x) in Done v)
  | ft_other h r c o : r_to r <> s -> foretold F e x s h c o -> foretold F e x s h (inr r :: c) o.
  (** The answers solve the equations of a game: entities have the value that everything that
      contributes to it makes of the starting value, given the same answers; others have none. *)
  Definition solves (g : game P Q) (l : list (law P Q)) (F : book) : Prop := forall e x s, fits s ->
    match w_entities (j_world (g_querier g)) e with
    | None => F e x s = Done None
    | Some ch => exists o, foretold F e x s (starting g s) (causes g l e (or_nil ch)) o /\ F e x s = let! v := o in Done (Some v)
    end.
  (** Questions (not just stats) can be ranked so that rules only ask questions of lower rank than the
      one they help to answer, and their code does not run forever by itself. *)
  Definition grounded (rank : entity -> qquery Q -> inst P -> nat) (r : rule P Q) : Prop :=
    forall e x, only_asks (fun q => exists e' x' s', q = RStat e' x' s' /\ rank e' x' s' < rank e x (r_to r)) (r_code r e x) /\
                stops (fun o => o <> NoFuel) (r_code r e x).
End S.
Arguments book P Q : clear implicits.
