(** C82 where questions are ranked instead of stats: rules may ask for their own stat of other entities. *)
From Coq Require Import ZArith List Bool Permutation.
From Verif Require Import S_Types.
From Verif Require Import M_Outcome M_Ints M_Value M_Types M_Qualifier M_Search M_Stat M_StatMap M_HashMap M_Pair M_Defaults M_Querier
  S_Search S_StatMap S_Pair S_Defaults S_Querier S_Totals S_EndToEnd S_Rules S_Reorder S_ReorderAt S_Demo S_DemoDefaults S_DemoQuery S_DemoGame S_DemoGame2 S_DemoMoved S_DemoRules S_DemoRulesMono S_DemoReorder S_RulesMonoAt S_DemoRulesMonoAt S_DemoReorderAt
  L_Search L_Demo L_DemoQuery L_DemoGame L_Rules L_Reorder L_DemoRulesMono L_ReorderAt L_DemoReorder L_DemoRulesMonoAt L_DemoReorderAt.
Import ListNotations.
Local Open Scope Z_scope.

(** Two games in which the entities have the same maps and rules, in any order. For value types that need
    no order (C08) and rules that set no base, no program gets another result in one than in the other,
    or an answer in only one of them; whatever was asked before. *)
Theorem C82_reordered_at :
  forall (P : Prog) (Q : QFlag), lawful_ord (q_cmp Q) -> forall bs : list comparison -> bsres, bs_contract bs -> distinct_vtables P ->
  forall (T : StatTypes P) (o_size o_align : vty P -> Z), flags_eq (Q := Q) -> forall (among : inst P -> Prop) (rank : entity -> qquery Q -> inst P -> nat) (g g' : game P Q) l l',
  lawful_game T bs o_size o_align g l -> lawful_game T bs o_size o_align g' l' -> reordered among g l g' l' ->
  (forall r, In (inr r) l \/ In (inr r) l' -> plain_at among rank r) ->
  (forall s, among s -> order_free (VT P (vt_value P (si_ty s))) (fun _ => True) (fun _ => True)) ->
  forall A (p : prog P Q A) past past' a, only_asks (about among) p -> (yields (ruled T bs g l) past p a <-> yields (ruled T bs g' l') past' p a).
Proof. exact @C82_reordered_at_proof. Qed.
Print Assumptions C82_reordered_at.
Theorem C82_order_free_types_at :
  forall (P : Prog) (Q : QFlag), lawful_ord (q_cmp Q) -> forall bs : list comparison -> bsres, bs_contract bs -> distinct_vtables P ->
  forall (T : StatTypes P) (o_size o_align : vty P -> Z), flags_eq (Q := Q) -> forall (among : inst P -> Prop) (rank : entity -> qquery Q -> inst P -> nat) (g g' : game P Q) l l',
  lawful_game T bs o_size o_align g l -> lawful_game T bs o_size o_align g' l' -> reordered among g l g' l' ->
  (forall r, In (inr r) l \/ In (inr r) l' -> plain_at among rank r) -> (forall s, among s -> needs_no_order (VT P (vt_value P (si_ty s)))) ->
  forall A (p : prog P Q A) past past' a, only_asks (about among) p -> (yields (ruled T bs g l) past p a <-> yields (ruled T bs g' l') past' p a).
Proof. exact C82_order_free_types_at_proof. Qed.
Print Assumptions C82_order_free_types_at.
(** Value types whose arithmetic may panic (C09): no program gets two different results. *)
Theorem C82_agree_at :
  forall (P : Prog) (Q : QFlag), lawful_ord (q_cmp Q) -> forall bs : list comparison -> bsres, bs_contract bs -> distinct_vtables P ->
  forall (T : StatTypes P) (o_size o_align : vty P -> Z), flags_eq (Q := Q) -> forall (among : inst P -> Prop) (rank : entity -> qquery Q -> inst P -> nat) (g g' : game P Q) l l',
  lawful_game T bs o_size o_align g l -> lawful_game T bs o_size o_align g' l' -> reordered among g l g' l' ->
  (forall r, In (inr r) l -> plain_at among rank r) -> (forall s, among s -> order_free_if_done (VT P (vt_value P (si_ty s))) (fun _ => True) (fun _ => True)) ->
  forall A (p : prog P Q A) past past' a a', only_asks (about among) p -> yields (ruled T bs g l) past p a -> yields (ruled T bs g' l') past' p a' -> a = a'.
Proof. exact @C82_agree_at_proof. Qed.
Print Assumptions C82_agree_at.
Theorem C82_checked_types_at :
  forall (P : Prog) (Q : QFlag), lawful_ord (q_cmp Q) -> forall bs : list comparison -> bsres, bs_contract bs -> distinct_vtables P ->
  forall (T : StatTypes P) (o_size o_align : vty P -> Z), flags_eq (Q := Q) -> forall (among : inst P -> Prop) (rank : entity -> qquery Q -> inst P -> nat) (g g' : game P Q) l l',
  lawful_game T bs o_size o_align g l -> lawful_game T bs o_size o_align g' l' -> reordered among g l g' l' ->
  (forall r, In (inr r) l -> plain_at among rank r) -> (forall s, among s -> agrees_in_any_order (VT P (vt_value P (si_ty s)))) ->
  forall A (p : prog P Q A) past past' a a', only_asks (about among) p -> yields (ruled T bs g l) past p a -> yields (ruled T bs g' l') past' p a' -> a = a'.
Proof. exact C82_checked_types_at_proof. Qed.
Print Assumptions C82_checked_types_at.
(** The entities in a line of C81_StatInt_at_case, with a rule that doubles the health of each, in two
    orders. *)
Example C82_checked_types_at_case :
  lawful_game solo_types bs_new (fun _ => 24) (fun _ => 8) (kin 7) doubled_laws /\ lawful_game solo_types bs_new (fun _ => 24) (fun _ => 8) (kin 7) doubled_laws' /\
  reordered (fun _ => True) (kin 7) doubled_laws (kin 7) doubled_laws' /\
  (forall r, In (inr r) doubled_laws -> plain_at (fun _ => True) kin_rank r) /\ agrees_in_any_order SI /\
  doubled_eval doubled_laws 2%nat = Done (Some 1456) /\ doubled_eval doubled_laws' 2%nat = Done (Some 1456).
Proof.
  split; [apply doubled_lawful; left; reflexivity|]. split; [apply doubled_lawful; right; reflexivity|]. split; [exact doubled_reordered|]. split; [exact doubled_plain|].
  split; [right; exists I32; left; reflexivity|]. split; vm_compute; reflexivity.
Qed.
