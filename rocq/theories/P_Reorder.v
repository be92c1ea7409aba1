(** C82: the order in which maps and rules are registered does not matter. *)
From Coq Require Import ZArith List Bool Permutation.
From Verif Require Import S_Types.
From Verif Require Import M_Outcome M_Ints M_Value M_Types M_Qualifier M_Search M_Stat M_StatMap M_HashMap M_Pair M_Defaults M_Querier
  S_Search S_StatMap S_Pair S_Defaults S_Querier S_Totals S_EndToEnd S_Rules S_Reorder S_Demo S_DemoDefaults S_DemoQuery S_DemoGame S_DemoGame2 S_DemoMoved S_DemoRules S_DemoRulesMono S_DemoReorder
  L_Search L_Demo L_DemoQuery L_DemoGame L_Rules L_Reorder L_DemoRulesMono L_DemoReorder.
Import ListNotations.
Local Open Scope Z_scope.

(** Two games in which the entities have the same maps and rules, in any order. For value types that need
    no order (C08) and rules that set no base, no program gets another result in one than in the other,
    or an answer in only one of them; whatever was asked before. *)
Theorem C82_reordered :
  forall (P : Prog) (Q : QFlag), lawful_ord (q_cmp Q) -> forall bs : list comparison -> bsres, bs_contract bs -> distinct_vtables P ->
  forall (T : StatTypes P) (o_size o_align : vty P -> Z), flags_eq (Q := Q) -> forall (among : inst P -> Prop) (rank : inst P -> nat) (g g' : game P Q) l l',
  lawful_game T bs o_size o_align g l -> lawful_game T bs o_size o_align g' l' -> reordered among g l g' l' ->
  (forall r, In (inr r) l \/ In (inr r) l' -> plain_rule among rank r) ->
  (forall s, among s -> order_free (VT P (vt_value P (si_ty s))) (fun _ => True) (fun _ => True)) ->
  forall A (p : prog P Q A) past past' a, only_asks (about among) p -> (yields (ruled T bs g l) past p a <-> yields (ruled T bs g' l') past' p a).
Proof. exact @C82_reordered_proof. Qed.
Print Assumptions C82_reordered.
Theorem C82_order_free_types :
  forall (P : Prog) (Q : QFlag), lawful_ord (q_cmp Q) -> forall bs : list comparison -> bsres, bs_contract bs -> distinct_vtables P ->
  forall (T : StatTypes P) (o_size o_align : vty P -> Z), flags_eq (Q := Q) -> forall (among : inst P -> Prop) (rank : inst P -> nat) (g g' : game P Q) l l',
  lawful_game T bs o_size o_align g l -> lawful_game T bs o_size o_align g' l' -> reordered among g l g' l' ->
  (forall r, In (inr r) l \/ In (inr r) l' -> plain_rule among rank r) -> (forall s, among s -> needs_no_order (VT P (vt_value P (si_ty s)))) ->
  forall A (p : prog P Q A) past past' a, only_asks (about among) p -> (yields (ruled T bs g l) past p a <-> yields (ruled T bs g' l') past' p a).
Proof. exact C82_order_free_types_proof. Qed.
Print Assumptions C82_order_free_types.
(** (82 + 100) * 2, wrapping around at 8 bits. *)
Example C82_order_free_types_case :
  let g := solo_game WI (here WI 5 77 90) in let l := [inr w_times; inr w_plus] in let l' := [inr w_plus; inr w_times] in
  lawful_game w_types bs_new (fun _ => 24) (fun _ => 8) g l /\ lawful_game w_types bs_new (fun _ => 24) (fun _ => 8) g l' /\ reordered (fun _ => True) g l g l' /\
  (forall r, In (inr r) l \/ In (inr r) l' -> plain_rule (fun _ => True) w_rank r) /\ needs_no_order WI /\
  w_eval l = Done (Some (364 - 256)) /\ w_eval l' = Done (Some (364 - 256)).
Proof.
  cbv zeta. split; [apply w_lawful; left; reflexivity|]. split; [apply w_lawful; right; reflexivity|]. split; [apply laws_reordered, perm_swap|].
  split; [intros r [[E|[E|[]]]|[E|[E|[]]]]; injection E as <-; apply w_plain; auto|].
  split; [left; exists true, {| i_ty := I8; i_flav := FWrapping |}; split; left; reflexivity|]. split; vm_compute; reflexivity.
Qed.

(** Value types whose arithmetic may panic (C09): no program gets two different results. *)
Theorem C82_agree :
  forall (P : Prog) (Q : QFlag), lawful_ord (q_cmp Q) -> forall bs : list comparison -> bsres, bs_contract bs -> distinct_vtables P ->
  forall (T : StatTypes P) (o_size o_align : vty P -> Z), flags_eq (Q := Q) -> forall (among : inst P -> Prop) (rank : inst P -> nat) (g g' : game P Q) l l',
  lawful_game T bs o_size o_align g l -> lawful_game T bs o_size o_align g' l' -> reordered among g l g' l' ->
  (forall r, In (inr r) l -> plain_rule among rank r) -> (forall s, among s -> order_free_if_done (VT P (vt_value P (si_ty s))) (fun _ => True) (fun _ => True)) ->
  forall A (p : prog P Q A) past past' a a', only_asks (about among) p -> yields (ruled T bs g l) past p a -> yields (ruled T bs g' l') past' p a' -> a = a'.
Proof. exact @C82_agree_proof. Qed.
Print Assumptions C82_agree.
Theorem C82_checked_types :
  forall (P : Prog) (Q : QFlag), lawful_ord (q_cmp Q) -> forall bs : list comparison -> bsres, bs_contract bs -> distinct_vtables P ->
  forall (T : StatTypes P) (o_size o_align : vty P -> Z), flags_eq (Q := Q) -> forall (among : inst P -> Prop) (rank : inst P -> nat) (g g' : game P Q) l l',
  lawful_game T bs o_size o_align g l -> lawful_game T bs o_size o_align g' l' -> reordered among g l g' l' ->
  (forall r, In (inr r) l -> plain_rule among rank r) -> (forall s, among s -> agrees_in_any_order (VT P (vt_value P (si_ty s)))) ->
  forall A (p : prog P Q A) past past' a a', only_asks (about among) p -> yields (ruled T bs g l) past p a -> yields (ruled T bs g' l') past' p a' -> a = a'.
Proof. exact C82_checked_types_proof. Qed.
Print Assumptions C82_checked_types.
Example C82_checked_types_case :
  lawful_game solo_types bs_new (fun _ => 24) (fun _ => 8) (party hero_logs) hero_laws /\ lawful_game solo_types bs_new (fun _ => 24) (fun _ => 8) (party hero_logs) hero_laws' /\
  reordered (fun _ => True) (party hero_logs) hero_laws (party hero_logs) hero_laws' /\ (forall r, In (inr r) hero_laws -> plain_rule (fun _ => True) hero_rank r) /\
  agrees_in_any_order SI /\ party_eval hero_logs hero_laws health = Done (Some 207) /\ party_eval hero_logs hero_laws' health = Done (Some 207).
Proof.
  split; [apply hero_party; left; reflexivity|]. split; [exact hero_turned|]. split; [apply laws_reordered, hero_laws_turned|]. split; [exact hero_plain|].
  split; [right; exists I32; left; reflexivity|]. split; vm_compute; reflexivity.
Qed.

(** It does matter for a rule that sets a base. *)
Theorem C82_base_refuted :
  exists (g : game (solo SI) intQ) l l', lawful_game solo_types bs_new (fun _ => 24) (fun _ => 8) g l /\ lawful_game solo_types bs_new (fun _ => 24) (fun _ => 8) g l' /\
  Permutation l l' /\
  fst (run (client (ruled solo_types bs_new g l) 3 (p_query_eval 0%nat (@Aggregate intQ 0) health)) []) = Done (Some (110 : outT SI)) /\
  fst (run (client (ruled solo_types bs_new g l') 3 (p_query_eval 0%nat (@Aggregate intQ 0) health)) []) = Done (Some (10 : outT SI)).
Proof. exact C82_base_refuted_proof. Qed.
Print Assumptions C82_base_refuted.
