(** How deep queries go inside queries. *)
From Coq Require Import ZArith List Bool Lia.
From Verif Require Import M_Outcome M_Ints M_Value M_Types M_Qualifier M_Search M_Stat M_StatMap M_HashMap M_Pair M_Defaults M_Querier
  S_Search S_StatMap S_Pair S_Defaults S_Querier S_Totals S_EndToEnd S_Rules S_Demo S_DemoDefaults S_DemoQuery S_DemoGame S_DemoRules
  L_Search L_Demo L_DemoQuery L_DemoGame L_Rules L_DemoRules L_Depth.
Import ListNotations.
Local Open Scope Z_scope.

(** When rules ask only about stats of lower rank than their own, code that asks about stats of rank
    below [n] comes to its end with at most [n] queries inside each other, whether or not there is a
    cache and whatever was asked before; and more room makes no difference. *)
Theorem C84_depth :
  forall (P : Prog) (Q : QFlag), lawful_ord (q_cmp Q) -> forall bs : list comparison -> bsres, bs_contract bs -> distinct_vtables P ->
  forall (T : StatTypes P) (o_size o_align : vty P -> Z), flags_eq (Q := Q) ->
  forall (g : game P Q) l (rank : inst P -> nat), lawful_game T bs o_size o_align g l ->
  (forall s (h : history (VT P (vt_value P (si_ty s)))), value_of h <> NoFuel) -> (forall r, In (inr r) l -> descends rank r) ->
  forall n A (p : prog P Q A) past,
  only_asks (fun q => exists e x s, q = RStat e x s /\ (rank s < n)%nat) p -> stops (fun o => o <> NoFuel) p ->
  fst (run (client (ruled T bs g l) n p) (after (ruled T bs g l) past [])) <> NoFuel /\
  forall m past', (n <= m)%nat ->
  fst (run (client (ruled T bs g l) m p) (after (ruled T bs g l) past' [])) = fst (run (client (ruled T bs g l) n p) (after (ruled T bs g l) past [])).
Proof. exact @C84_depth_proof. Qed.
Print Assumptions C84_depth.
(** Health follows from constitution, which follows from the level: three queries inside each other
    are needed and enough; for the level, one. *)
Example C84_depth_case :
  (forall r, In (inr r) hero_laws -> descends hero_rank r) /\ hero_rank health = 2%nat /\ hero_rank constitution = 1%nat /\ hero_rank level_stat = 0%nat /\
  only_asks (fun q => exists e x s, q = RStat e x s /\ (hero_rank s < 3)%nat) (p_query 0%nat (@Aggregate intQ 0) health) /\
  stops (fun o => o <> NoFuel) (p_query 0%nat (@Aggregate intQ 0) health) /\
  hero_eval 3 0 health = Done (Some 207) /\ hero_eval 2 0 health = NoFuel /\ hero_eval 9 0 health = Done (Some 207) /\
  hero_eval 2 0 constitution = Done (Some 10) /\ hero_eval 1 0 constitution = NoFuel /\ hero_eval 1 0 level_stat = Done (Some 3) /\ hero_eval 0 0 level_stat = NoFuel.
Proof.
  split; [exact hero_descends|]. do 3 (split; [reflexivity|]).
  split; [split; [exists 0%nat, (@Aggregate intQ 0), health; split; [reflexivity|cbn; lia]|intros v; exact Logic.I]|].
  split; [intros v; exact Logic.I|]. repeat split; vm_compute; reflexivity.
Qed.
