(** C83: maps and rules about other stats change nothing. *)
From Coq Require Import ZArith List Bool.
From Verif Require Import S_Types.
From Verif Require Import M_Outcome M_Ints M_Value M_Types M_Qualifier M_Search M_Stat M_StatMap M_HashMap M_Pair M_Defaults M_Querier
  S_Search S_StatMap S_Pair S_Defaults S_Querier S_Totals S_EndToEnd S_Rules S_Unaffected S_Demo S_DemoDefaults S_DemoQuery S_DemoGame S_DemoRules S_DemoRulesMono S_DemoUnaffected
  L_Search L_Demo L_DemoQuery L_DemoGame L_Rules L_DemoRulesMono L_Unaffected L_DemoUnaffected.
Import ListNotations.
Local Open Scope Z_scope.

(** Questions, about any stats of any entities for any qualifiers, to answer which the rules ask nothing else. Whatever
    maps and rules there are that have nothing to do with them, and even if those panic or never end: every program that
    asks these questions ends alike, in a result or a panic. *)
Theorem C83_unaffected :
  forall (P : Prog) (Q : QFlag), lawful_ord (q_cmp Q) -> forall bs : list comparison -> bsres, bs_contract bs -> distinct_vtables P ->
  forall (T : StatTypes P) (o_size o_align : vty P -> Z), flags_eq (Q := Q) -> forall (among : entity -> qquery Q -> inst P -> Prop) (g g' : game P Q) l l',
  lawful_game T bs o_size o_align g l -> lawful_game T bs o_size o_align g' l' -> unaffected among g l g' l' ->
  (forall r, In (inr r) l \/ In (inr r) l' -> self_contained among r) ->
  forall A (p : prog P Q A) past past' o, only_asks (looked_at among) p -> (ends (ruled T bs g l) past p o <-> ends (ruled T bs g' l') past' p o).
Proof. exact @C83_unaffected_proof. Qed.
Print Assumptions C83_unaffected.
(** A rule by which health follows from itself: no answer for health, but constitution is as before. *)
Example C83_unaffected_case :
  lawful_game solo_types bs_new (fun _ => 24) (fun _ => 8) (party hero_logs) hero_laws /\ lawful_game solo_types bs_new (fun _ => 24) (fun _ => 8) (party hero_logs) stuck_laws /\
  unaffected not_health (party hero_logs) hero_laws (party hero_logs) stuck_laws /\
  (forall r, In (inr r) hero_laws \/ In (inr r) stuck_laws -> self_contained not_health r) /\
  party_eval hero_logs hero_laws constitution = Done (Some 10) /\ party_eval hero_logs stuck_laws constitution = Done (Some 10) /\
  party_eval hero_logs hero_laws health = Done (Some 207) /\ party_eval hero_logs stuck_laws health = NoFuel.
Proof.
  split; [apply hero_party; left; reflexivity|]. split; [exact stuck_lawful|]. split; [exact stuck_unaffected|]. split; [exact stuck_contained|].
  repeat split; vm_compute; reflexivity.
Qed.
(** More constitution while burning: health is as before while not. *)
Example C83_unaffected_case2 :
  lawful_game solo_types bs_new (fun _ => 24) (fun _ => 8) (party hot_logs) hero_laws /\
  unaffected plainly (party hero_logs) hero_laws (party hot_logs) hero_laws /\
  (forall r, In (inr r) hero_laws \/ In (inr r) hero_laws -> self_contained plainly r) /\
  party_eval hero_logs hero_laws health = Done (Some 207) /\ party_eval hot_logs hero_laws health = Done (Some 207) /\
  burning_eval hero_logs = Done (Some 707) /\ burning_eval hot_logs = Done (Some 5207).
Proof.
  split; [exact hot_lawful|]. split; [exact hot_unaffected|]. split; [exact hot_contained|]. repeat split; vm_compute; reflexivity.
Qed.
