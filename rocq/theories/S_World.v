(** What the resources of a world are meant to be after a history of calls. *)
From Coq Require Import ZArith List Bool String.
From Verif Require Import M_Outcome M_Value M_Types M_Qualifier M_Search M_Stat M_StatMap M_HashMap M_Pair M_Defaults M_Registry M_Querier M_World
  S_Querier S_Demo S_DemoDefaults S_DemoQuery S_Registry.
Import ListNotations.

Section S.
  Context {P : Prog} {Q : QFlag}.
  (** The calls concerning each resource. *)
  Definition default_calls (l : list (wop P Q)) : list (dcall P) :=
    flat_map (fun o => match o with
      | WDefault s v => [DInsert s v]
      | WMin s x => [DPatch s (OMin x)]
      | WMax s x => [DPatch s (OMax x)]
      | _ => [] end) l.
  Definition relations_pushed (l : list (wop P Q)) : list (gstream P Q) :=
    flat_map (fun o => match o with WRelation g => [g] | _ => [] end) l.
  Definition types_registered (l : list (wop P Q)) : list (rop P) :=
    flat_map (fun o => match o with WRegister T => [RRegister T] | _ => [] end) l.
  (** Empty if there is no such resource. *)
  Definition content {A} (o : option (list A)) : list A := match o with Some l => l | None => [] end.

  (** Calls that empty the cache. *)
  Definition empties (o : wop P Q) : Prop := match o with WClear | WCache | WQueryClear => True | _ => False end.
  (** Calls that leave everything a query in the scene depends on alone. *)
  Definition changes_nothing (sc : scene P Q) (o : wop P Q) : Prop :=
    match o with
    | WQuery sc' _ _ => sc' = sc
    | WRegister _ | WClear | WCache | WQueryClear => True
    | WDefault _ _ | WMin _ _ | WMax _ _ | WRelation _ | WSeed _ _ _ => False
    end.
  (** Calls that do not touch the cache other than by querying. *)
  Definition not_clearing (o : wop P Q) : Prop :=
    match o with WClear | WCache | WQueryClear | WSeed _ _ _ => False | _ => True end.
  (** A scene without streams. *)
  Definition plain (sc : scene P Q) : Prop := sc_comp sc = QUnit /\ sc_child sc = QUnit /\ sc_rel sc = QUnit.
End S.

(** Worlds for the examples: calls, then hp of an entity. *)
Local Open Scope Z_scope.
Definition dop_w : Type := wop demo intQ.
Definition w_hp (x : Z) : dop_w := @WDefault demo intQ hp (num x).
Definition w_min_hp (x : Z) : dop_w := @WMin demo intQ hp x.
Definition w_max_hp (x : Z) : dop_w := @WMax demo intQ hp x.
Definition w_rel (x : Z) : dop_w := @WRelation demo intQ (fun _ _ p => add_to_hp x p).
Definition demo_scene : scene demo intQ := {|
  sc_entities := w_entities demo_world; sc_placeholder := 77%nat;
  sc_comp := QLeaf body_gear; sc_child := QUnit; sc_rel := QUnit |}.
Definition plain_scene : scene demo intQ := {|
  sc_entities := w_entities demo_world; sc_placeholder := 77%nat; sc_comp := QUnit; sc_child := QUnit; sc_rel := QUnit |}.
Definition w_ask (e : entity) : dop_w := @WQuery demo intQ demo_scene 3 (pbind (ask_hp e any) (fun _ => Ret tt)).
Definition w_seed (e : entity) (x : Z) : dop_w := @WSeed demo intQ e any (@Pair demo hp (@Buf demo VNum (num x))).
Definition w_demo (l : list dop_w) : outcome (resources demo intQ) := w_run demoN (fun _ => 24) (fun _ => 8) no_resources l.
Definition w_see (sc : scene demo intQ) (l : list dop_w) (e : entity) : outcome (option (quad Z Z)) :=
  let! r := w_demo l in fst (w_query r sc 3 (p_query e any hp)).
(** Sizes of the tables of names, defaults and relations, and of the cache, if there are any. *)
Definition w_sizes (l : list dop_w) : outcome (option nat * option nat * option nat * option nat) :=
  let! r := w_demo l in
  Done (option_map (@List.length _) (r_names r), option_map (@List.length _) (r_defaults r),
        option_map (@List.length _) (r_relations r), option_map (@List.length _) (r_cache r)).
