(** Stats that follow from other stats by rules. *)
From Coq Require Import ZArith List Bool.
From Verif Require Import M_Outcome M_Ints M_Value M_Types M_Qualifier M_Search M_Stat M_StatMap M_HashMap M_Pair M_Defaults M_Querier
  S_Search S_StatMap S_Pair S_Defaults S_Querier S_Totals S_EndToEnd S_Rules S_Demo S_DemoDefaults S_DemoQuery S_DemoGame S_DemoRules
  L_Search L_Demo L_DemoQuery L_DemoGame L_Rules L_DemoRules.
Import ListNotations.
Local Open Scope Z_scope.

(** The value of a query is the starting value, joined with the entries of the maps and changed by
    the operations that the rules come up with when they ask the same game, each in its turn; and
    whenever all of these exist, there is an answer. Cached or not, whatever was asked before. *)
Theorem C80_query :
  forall (P : Prog) (Q : QFlag), lawful_ord (q_cmp Q) -> forall bs : list comparison -> bsres, bs_contract bs -> distinct_vtables P ->
  forall (T : StatTypes P) (o_size o_align : vty P -> Z) (g : game P Q) l e ch x s past v,
  flags_eq (Q := Q) -> lawful_game T bs o_size o_align g l -> fits s -> w_entities (j_world (g_querier g)) e = Some ch ->
  (yields (ruled T bs g l) past (p_query e x s) (Some v) <->
   exists k, leads (ruled T bs g l) e x s (starting g s) (causes g l e (or_nil ch)) k /\ value_of k = Done v).
Proof. exact @C80_query_proof. Qed.
Print Assumptions C80_query.
Theorem C80_eval :
  forall (P : Prog) (Q : QFlag), lawful_ord (q_cmp Q) -> forall bs : list comparison -> bsres, bs_contract bs -> distinct_vtables P ->
  forall (T : StatTypes P) (o_size o_align : vty P -> Z) (g : game P Q) l e ch x s past r,
  flags_eq (Q := Q) -> lawful_game T bs o_size o_align g l -> fits s -> w_entities (j_world (g_querier g)) e = Some ch ->
  (yields (ruled T bs g l) past (p_query_eval e x s) (Some r) <->
   exists k, leads (ruled T bs g l) e x s (starting g s) (causes g l e (or_nil ch)) k /\ worth k = Done r).
Proof. exact @C80_eval_proof. Qed.
Print Assumptions C80_eval.
(** 10 health for each of 10 points of constitution, one of them for each of 3 levels: not without
    depth, and burning, there are 50 points more. *)
Example C80_query_case :
  lawful_game solo_types bs_new (fun _ => 24) (fun _ => 8) hero_game hero_laws /\
  hero_eval 3 0 health = Done (Some (100 + 10 * (5 + 2 + 3) + 7)) /\ hero_eval 3 0 constitution = Done (Some (3 + 5 + 2)) /\
  hero_eval 3 1 health = Done (Some 707) /\ hero_eval 2 0 health = NoFuel /\ hero_eval 1 0 level_stat = Done (Some 3).
Proof. split; [exact hero_lawful|]. repeat split; vm_compute; reflexivity. Qed.

(** What a rule comes up with that makes one stat follow another. *)
Theorem C80_follows :
  forall (P : Prog) (Q : QFlag) (bs : list comparison -> bsres), distinct_vtables P ->
  forall (T : StatTypes P) (o_size o_align : vty P -> Z) (g : game P Q) l past e x to from at_ f ops,
  flags_eq (Q := Q) -> lawful_game T bs o_size o_align g l ->
  (yields (ruled T bs g l) past (r_code (follows to from at_ f) e x) ops <->
   exists o, yields (ruled T bs g l) past (p_query_eval (fst (at_ e x)) (snd (at_ e x)) from) o /\ ops = match o with Some r => f r | None => [] end).
Proof. exact @C80_follows_proof. Qed.
Print Assumptions C80_follows.
Example C80_follows_case :
  additions (fst (run (client hero 2 (r_code tough 0%nat (@Aggregate intQ 0))) [])) = Some [100] /\
  additions (fst (run (client hero 2 (r_code tough 9%nat (@Aggregate intQ 0))) [])) = Some [].
Proof. split; vm_compute; reflexivity. Qed.

(** Rules of which none asks, by way of others, for what it is about: every query comes to an end. *)
Theorem C80_settles :
  forall (P : Prog) (Q : QFlag), lawful_ord (q_cmp Q) -> forall bs : list comparison -> bsres, bs_contract bs -> distinct_vtables P ->
  forall (T : StatTypes P) (o_size o_align : vty P -> Z) (g : game P Q) l (rank : inst P -> nat),
  flags_eq (Q := Q) -> lawful_game T bs o_size o_align g l ->
  (forall s (h : history (VT P (vt_value P (si_ty s)))), value_of h <> NoFuel) -> (forall r, In (inr r) l -> descends rank r) ->
  forall e x s past, exists n, fst (run (client (ruled T bs g l) n (p_query e x s)) (after (ruled T bs g l) past [])) <> NoFuel.
Proof. exact @C80_settles_proof. Qed.
Print Assumptions C80_settles.
(** The rules of the game are such; one that asks for its own stat is not and has no answer. *)
Example C80_settles_case :
  (forall r, In (inr r) hero_laws -> descends hero_rank r) /\ (forall h : history SI, value_of h <> NoFuel) /\
  fst (run (client (ruled solo_types bs_new hero_game (inr vain :: hero_laws)) 9 (p_query_eval 0%nat (@Aggregate intQ 0) health)) []) = NoFuel.
Proof. split; [exact hero_descends|]. split; [exact si_value|]. vm_compute. reflexivity. Qed.

(** A [StatInt] with overflow checks, with rules: everything added anywhere, also by rules, times
    everything multiplied anywhere, between the bounds given anywhere. *)
Theorem C80_StatInt_checked :
  forall (P : Prog) (Q : QFlag) (bs : list comparison -> bsres) (T : StatTypes P) (o_size o_align : vty P -> Z),
  bs_contract bs -> distinct_vtables P -> lawful_ord (q_cmp Q) -> flags_eq (Q := Q) ->
  forall (g : game P Q) l e ch x s past t (E : VT P (vt_value P (si_ty s)) = statInt true (prim t)) r,
  lawful_game T bs o_size o_align g l -> fits s -> w_entities (j_world (g_querier g)) e = Some ch ->
  yields (ruled T bs g l) past (p_query_eval e x s) (Some r) ->
  exists k, leads (ruled T bs g l) e x s (starting g s) (causes g l e (or_nil ch)) k /\
  let all := seen_as E k in
  result_as E r = bounded t (floors all same) (ceilings all same) (sum (gains all same same) * product (factors all same)).
Proof. exact @C80_StatInt_checked_proof. Qed.
Print Assumptions C80_StatInt_checked.
Example C80_StatInt_checked_case :
  let all := Joined (Joined (Joined (Applied (@FromDefault SI) (@OAdd SI 100)) (@FromBase SI 100)) (@FromBase SI 7)) (@FromDefault SI) in
  hero_eval 3 0 health = Done (Some (bounded I32 (floors all same) (ceilings all same) (sum (gains all same same) * product (factors all same)))) /\
  sum (gains all same same) = 207.
Proof. split; vm_compute; reflexivity. Qed.
