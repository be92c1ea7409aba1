(** More of a stat is no loss to what follows it by rules, for the same stat of other entities too. *)
From Coq Require Import ZArith List Bool.
From Verif Require Import S_Types.
From Verif Require Import M_Outcome M_Ints M_Value M_Types M_Qualifier M_Search M_Stat M_StatMap M_HashMap M_Pair M_Defaults M_Querier
  S_Search S_StatMap S_Pair S_Defaults S_Querier S_Totals S_EndToEnd S_Monotone S_MonoQuery S_Rules S_RulesMono S_RulesMonoAt
  S_Demo S_DemoDefaults S_DemoQuery S_DemoGame S_DemoRules S_DemoRulesMono S_DemoRulesMonoAt
  L_Search L_Demo L_DemoQuery L_DemoGame L_Rules L_RulesMonoAt L_DemoRulesMonoAt.
Import ListNotations.
Local Open Scope Z_scope.

(** C81_more with rules that may ask for a stat of another entity or for another qualifier, or for
    nothing, as long as questions can be ranked. *)
Theorem C81_more_at :
  forall (P : Prog) (Q : QFlag), lawful_ord (q_cmp Q) -> forall bs : list comparison -> bsres, bs_contract bs -> distinct_vtables P ->
  forall (T : StatTypes P) (o_size o_align : vty P -> Z) (O : forall s : inst P, merits (VT P (vt_value P (si_ty s))))
    (le : forall s : inst P, outT (VT P (vt_value P (si_ty s))) -> outT (VT P (vt_value P (si_ty s))) -> Prop) (among : inst P -> Prop)
    (g g' : game P Q) l l', flags_eq (Q := Q) -> lawful_game T bs o_size o_align g l -> lawful_game T bs o_size o_align g' l' ->
  pays O le among -> forall rank : entity -> qquery Q -> inst P -> nat, (forall r, In (inr r) l -> fair_at O le among rank r) -> better_off O among g l g' l' ->
  forall e x s past past' r r', among s ->
  yields (ruled T bs g l) past (p_query_eval e x s) (Some r) -> yields (ruled T bs g' l') past' (p_query_eval e x s) (Some r') -> le s r r'.
Proof. exact @C81_more_at_proof. Qed.
Print Assumptions C81_more_at.
(** For [StatInt] with arithmetic that does not wrap around. *)
Theorem C81_StatInt_at :
  forall (P : Prog) (Q : QFlag) (bs : list comparison -> bsres) (T : StatTypes P) (o_size o_align : vty P -> Z),
  bs_contract bs -> distinct_vtables P -> lawful_ord (q_cmp Q) -> flags_eq (Q := Q) ->
  forall oc I (E : forall s : inst P, VT P (vt_value P (si_ty s)) = statInt oc I), keeps_order oc I ->
  forall (g g' : game P Q) l l' (rank : entity -> qquery Q -> inst P -> nat) (among : inst P -> Prop),
  let O := fun s => merits_as (E s) (int_merits false oc I) in
  let le := fun s r r' => result_as (E s) r <= result_as (E s) r' in
  lawful_game T bs o_size o_align g l -> lawful_game T bs o_size o_align g' l' ->
  (forall r, In (inr r) l -> fair_at O le among rank r) -> better_off O among g l g' l' ->
  forall e x s past past' r r', among s ->
  yields (ruled T bs g l) past (p_query_eval e x s) (Some r) -> yields (ruled T bs g' l') past' (p_query_eval e x s) (Some r') ->
  result_as (E s) r <= result_as (E s) r'.
Proof. exact @C81_StatInt_at_proof. Qed.
Print Assumptions C81_StatInt_at.
(** Two more health for the first of a line: two more for everyone after it. *)
Example C81_StatInt_at_case :
  lawful_game solo_types bs_new (fun _ => 24) (fun _ => 8) (kin 7) kin_laws /\ lawful_game solo_types bs_new (fun _ => 24) (fun _ => 8) (kin 9) kin_laws /\
  (forall r, In (inr r) kin_laws -> fair_at hero_merits hero_le (fun _ => True) kin_rank r) /\
  better_off hero_merits (fun _ => True) (kin 7) kin_laws (kin 9) kin_laws /\
  kin_eval 7 0%nat = Done (Some 107) /\ kin_eval 9 0%nat = Done (Some 109) /\ kin_eval 7 2%nat = Done (Some 307) /\ kin_eval 9 2%nat = Done (Some 309).
Proof.
  split; [apply kin_lawful; vm_compute; reflexivity|]. split; [apply kin_lawful; vm_compute; reflexivity|]. split; [exact kin_fair|].
  split; [exact kin_better|]. repeat split; vm_compute; reflexivity.
Qed.
