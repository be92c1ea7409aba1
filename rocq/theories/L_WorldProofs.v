From Coq Require Import ZArith List Bool String.
From Verif Require Import M_Outcome M_Value M_Types M_Qualifier M_Search M_Stat M_StatMap M_HashMap M_Pair M_Defaults M_Registry M_Querier M_World
  S_Pair S_StatMap S_Defaults S_Querier S_Demo S_DemoDefaults S_DemoQuery S_World L_StatMap3 L_HashMap L_Demo L_Defaults L_Querier L_Querier2 L_Querier3 L_Querier4 L_DemoQuery
  L_DefaultsProofs L_CacheProofs L_World.
Import ListNotations.
Local Open Scope Z_scope.

Lemma C54_fresh_after_clear_proof : forall (P : Prog) (Q : QFlag) (N : StatNames P) (o_size o_align : vty P -> Z) (l1 l2 : list (wop P Q)) (o : wop P Q) (r : resources P Q)
    (sc : scene P Q) (n : nat) (A : Type) (p : prog P Q A),
  distinct_vtables P -> flags_eq (Q := Q) ->
  w_run N o_size o_align no_resources (l1 ++ o :: l2) = Done r ->
  empties o -> Forall (changes_nothing sc) l2 -> stats_kept (querier_of r sc) ->
  same_as (fun n => fst (run (client (uncached (querier_of r sc)) n p) [])) n (fst (w_query r sc n p)).
Proof. exact (fun P Q N o_size o_align l1 l2 o r sc n A p Hd Hf => @fresh_after_l P Q N o_size o_align Hd Hf l1 l2 o r sc n A p). Qed.
