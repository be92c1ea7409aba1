(** More of a stat is no loss to the stats that follow it by rules. *)
From Coq Require Import ZArith List Bool.
From Verif Require Import S_Types.
From Verif Require Import M_Outcome M_Ints M_Value M_Types M_Qualifier M_Search M_Stat M_StatMap M_HashMap M_Pair M_Defaults M_Querier
  S_Search S_StatMap S_Pair S_Defaults S_Querier S_Totals S_EndToEnd S_Monotone S_MonoQuery S_Rules S_RulesMono S_Demo S_DemoDefaults S_DemoQuery S_DemoGame S_DemoRules S_DemoRulesMono
  L_Search L_Demo L_DemoQuery L_DemoGame L_Rules L_RulesMono L_DemoRules L_DemoRulesMono.
Import ListNotations.
Local Open Scope Z_scope.

(** Two games with the same rules, in one of which everyone was granted at least as much of the stats
    looked at. If more of what a rule asks for makes it come up with no less, no result is less. *)
Theorem C81_more :
  forall (P : Prog) (Q : QFlag), lawful_ord (q_cmp Q) -> forall bs : list comparison -> bsres, bs_contract bs -> distinct_vtables P ->
  forall (T : StatTypes P) (o_size o_align : vty P -> Z) (O : forall s : inst P, merits (VT P (vt_value P (si_ty s))))
    (le : forall s : inst P, outT (VT P (vt_value P (si_ty s))) -> outT (VT P (vt_value P (si_ty s))) -> Prop) (among : inst P -> Prop)
    (g g' : game P Q) l l', flags_eq (Q := Q) -> lawful_game T bs o_size o_align g l -> lawful_game T bs o_size o_align g' l' ->
  pays O le among -> forall rank : inst P -> nat, (forall r, In (inr r) l -> fair O le among rank r) -> better_off O among g l g' l' ->
  forall e x s past past' r r', among s ->
  yields (ruled T bs g l) past (p_query_eval e x s) (Some r) -> yields (ruled T bs g' l') past' (p_query_eval e x s) (Some r') -> le s r r'.
Proof. exact @C81_more_proof. Qed.
Print Assumptions C81_more.
(** For [StatInt] with arithmetic that does not wrap around. *)
Theorem C81_StatInt :
  forall (P : Prog) (Q : QFlag) (bs : list comparison -> bsres) (T : StatTypes P) (o_size o_align : vty P -> Z),
  bs_contract bs -> distinct_vtables P -> lawful_ord (q_cmp Q) -> flags_eq (Q := Q) ->
  forall oc I (E : forall s : inst P, VT P (vt_value P (si_ty s)) = statInt oc I), keeps_order oc I ->
  forall (g g' : game P Q) l l' (rank : inst P -> nat) (among : inst P -> Prop),
  let O := fun s => merits_as (E s) (int_merits false oc I) in
  let le := fun s r r' => result_as (E s) r <= result_as (E s) r' in
  lawful_game T bs o_size o_align g l -> lawful_game T bs o_size o_align g' l' ->
  (forall r, In (inr r) l -> fair O le among rank r) -> better_off O among g l g' l' ->
  forall e x s past past' r r', among s ->
  yields (ruled T bs g l) past (p_query_eval e x s) (Some r) -> yields (ruled T bs g' l') past' (p_query_eval e x s) (Some r') ->
  result_as (E s) r <= result_as (E s) r'.
Proof. exact @C81_StatInt_proof. Qed.
Print Assumptions C81_StatInt.
(** One more point of constitution and one more level: 20 more health, by way of two rules. *)
Example C81_StatInt_case :
  lawful_game solo_types bs_new (fun _ => 24) (fun _ => 8) (party hero_logs) hero_laws /\
  lawful_game solo_types bs_new (fun _ => 24) (fun _ => 8) (party veteran_logs) hero_laws /\
  (forall r, In (inr r) hero_laws -> fair hero_merits hero_le (fun _ => True) hero_rank r) /\
  better_off hero_merits (fun _ => True) (party hero_logs) hero_laws (party veteran_logs) hero_laws /\
  party_eval hero_logs hero_laws health = Done (Some 207) /\ party_eval veteran_logs hero_laws health = Done (Some 227).
Proof.
  split; [apply hero_party; left; reflexivity|]. split; [apply veteran_party; left; reflexivity|]. split; [exact hero_fair|].
  split; [apply veteran_better; left; reflexivity|]. split; vm_compute; reflexivity.
Qed.

(** Not so for any rules: one that takes away health for constitution. *)
Theorem C81_costs_refuted :
  exists (g g' : game (solo SI) intQ) l, lawful_game solo_types bs_new (fun _ => 24) (fun _ => 8) g l /\ lawful_game solo_types bs_new (fun _ => 24) (fun _ => 8) g' l /\
  better_off hero_merits (fun _ => True) g l g' l /\
  fst (run (client (ruled solo_types bs_new g l) 3 (p_query_eval 0%nat (@Aggregate intQ 0) health)) []) = Done (Some (100 : outT SI)) /\
  fst (run (client (ruled solo_types bs_new g' l) 3 (p_query_eval 0%nat (@Aggregate intQ 0) health)) []) = Done (Some (99 : outT SI)).
Proof. exact C81_costs_refuted_proof. Qed.
Print Assumptions C81_costs_refuted.
