(** Relation queries over games with rules. *)
From Coq Require Import ZArith List Bool.
From Verif Require Import M_Outcome M_Ints M_Value M_Types M_Qualifier M_Search M_Stat M_StatMap M_HashMap M_Pair M_Defaults M_Querier
  S_Search S_StatMap S_Pair S_Defaults S_Querier S_Totals S_EndToEnd S_Rules S_Ties S_Demo S_DemoDefaults S_DemoQuery S_DemoGame S_DemoRules S_DemoTies
  L_DemoRules L_Ties L_DemoTies.
Import ListNotations.
Local Open Scope Z_scope.

(** The value of a relation query between two marked entities is the starting value, joined with
    the entries of the global maps and changed by what the global rules come up with, which see the
    placeholder instead of an entity, and then by what the ties come up with that hold between the
    maps of the one and of the other; nothing else contributes. Cached or not, whatever was asked before. *)
Theorem C85_relation :
  forall (P : Prog) (Q : QFlag), lawful_ord (q_cmp Q) -> forall bs : list comparison -> bsres, bs_contract bs -> distinct_vtables P ->
  forall (T : StatTypes P) (o_size o_align : vty P -> Z) (g : game P Q) l ts e f ce cf x s past v,
  flags_eq (Q := Q) -> lawful_game T bs o_size o_align g l -> tied_game T g ts -> fits s ->
  w_entities (j_world (g_querier g)) e = Some ce -> w_entities (j_world (g_querier g)) f = Some cf ->
  (yields (ruled T bs g l) past (p_relation e f x s) (Some v) <->
   exists k, leads (ruled T bs g l) (w_placeholder (j_world (g_querier g))) x s (starting g s) (rel_causes g l ts e f) k /\ value_of k = Done v).
Proof. exact @C85_relation_proof. Qed.
Print Assumptions C85_relation.
Theorem C85_eval :
  forall (P : Prog) (Q : QFlag), lawful_ord (q_cmp Q) -> forall bs : list comparison -> bsres, bs_contract bs -> distinct_vtables P ->
  forall (T : StatTypes P) (o_size o_align : vty P -> Z) (g : game P Q) l ts e f ce cf x s past r,
  flags_eq (Q := Q) -> lawful_game T bs o_size o_align g l -> tied_game T g ts -> fits s ->
  w_entities (j_world (g_querier g)) e = Some ce -> w_entities (j_world (g_querier g)) f = Some cf ->
  (yields (ruled T bs g l) past (p_relation_eval e f x s) (Some r) <->
   exists k, leads (ruled T bs g l) (w_placeholder (j_world (g_querier g))) x s (starting g s) (rel_causes g l ts e f) k /\ worth k = Done r).
Proof. exact @C85_eval_proof. Qed.
Print Assumptions C85_eval.
(** 100 for everyone, the level of the one and the constitution of the other: from 0 to 1, back, from
    0 to itself burning, and to an entity without a map. That health follows from constitution does
    not matter, since the placeholder has none. *)
Example C85_relation_case :
  lawful_game solo_types bs_new (fun _ => 24) (fun _ => 8) fight_game hero_laws /\ tied_game solo_types fight_game [strike] /\
  fight_eval 3 0%nat 1%nat 0 health = Done (Some (100 + 3 - 2)) /\ fight_eval 3 1%nat 0%nat 0 health = Done (Some (100 + 0 - 5)) /\
  fight_eval 3 0%nat 0%nat 1 health = Done (Some (100 + 3 - (5 + 50))) /\ fight_eval 3 0%nat 5%nat 0 health = Done (Some 100).
Proof. split; [exact fight_lawful|]. split; [exact fight_tied|]. repeat split; vm_compute; reflexivity. Qed.

(** There is no relation unless both entities are marked. *)
Theorem C85_unmarked :
  forall (P : Prog) (Q : QFlag) (bs : list comparison -> bsres), distinct_vtables P ->
  forall (T : StatTypes P) (o_size o_align : vty P -> Z) (g : game P Q) l e f x s past,
  flags_eq (Q := Q) -> lawful_game T bs o_size o_align g l -> fits s ->
  w_entities (j_world (g_querier g)) e = None \/ w_entities (j_world (g_querier g)) f = None ->
  yields (ruled T bs g l) past (p_relation e f x s) None.
Proof. exact @C85_unmarked_proof. Qed.
Print Assumptions C85_unmarked.
Example C85_unmarked_case :
  fight_eval 3 0%nat 2%nat 0 health = Done None /\ fight_eval 3 2%nat 0%nat 0 health = Done None /\ fight_eval 3 2%nat 2%nat 0 health = Done None.
Proof. repeat split; vm_compute; reflexivity. Qed.
