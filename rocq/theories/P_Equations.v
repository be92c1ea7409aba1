(** The answers are the one solution of the rules. *)
From Coq Require Import ZArith List Bool Lia.
From Verif Require Import M_Outcome M_Ints M_Value M_Types M_Qualifier M_Search M_Stat M_StatMap M_HashMap M_Pair M_Defaults M_Querier
  S_Search S_StatMap S_Pair S_Defaults S_Querier S_Totals S_EndToEnd S_Rules S_Equations S_Demo S_DemoDefaults S_DemoQuery S_DemoGame S_DemoRules S_DemoEquations
  L_Search L_Demo L_DemoQuery L_DemoGame L_Rules L_DemoRules L_Equations L_DemoEquations.
Import ListNotations.
Local Open Scope Z_scope.

(** When rules ask only questions of lower rank than the one they help to answer, where rank may depend
    on the stat, the entity and the qualifier, there are answers that solve the equations that the game
    and its rules are. *)
Theorem C87_exists :
  forall (P : Prog) (Q : QFlag), lawful_ord (q_cmp Q) -> forall bs : list comparison -> bsres, bs_contract bs -> distinct_vtables P ->
  forall (T : StatTypes P) (o_size o_align : vty P -> Z), flags_eq (Q := Q) ->
  forall (g : game P Q) l (rank : entity -> qquery Q -> inst P -> nat), lawful_game T bs o_size o_align g l -> (forall r, In (inr r) l -> grounded rank r) ->
  (forall s (h : history (VT P (vt_value P (si_ty s)))), value_of h <> NoFuel) ->
  exists F : book P Q, solves g l F.
Proof. exact @C87_exists_proof. Qed.
Print Assumptions C87_exists.
(** There is only one solution. *)
Theorem C87_unique :
  forall (P : Prog) (Q : QFlag), lawful_ord (q_cmp Q) -> forall bs : list comparison -> bsres, bs_contract bs -> distinct_vtables P ->
  forall (T : StatTypes P) (o_size o_align : vty P -> Z)
  (g : game P Q) l (rank : entity -> qquery Q -> inst P -> nat), lawful_game T bs o_size o_align g l -> (forall r, In (inr r) l -> grounded rank r) ->
  forall F G : book P Q, solves g l F -> solves g l G -> forall e x s, fits s -> F e x s = G e x s.
Proof. exact @C87_unique_proof. Qed.
Print Assumptions C87_unique.
(** Whatever code asks, it is told the solution: it ends as it would if it were handed the answers of
    the solution, in the same result or the same panic, with or without a cache and whatever was asked
    before. *)
Theorem C87_answers :
  forall (P : Prog) (Q : QFlag), lawful_ord (q_cmp Q) -> forall bs : list comparison -> bsres, bs_contract bs -> distinct_vtables P ->
  forall (T : StatTypes P) (o_size o_align : vty P -> Z), flags_eq (Q := Q) ->
  forall (g : game P Q) l (rank : entity -> qquery Q -> inst P -> nat), lawful_game T bs o_size o_align g l -> (forall r, In (inr r) l -> grounded rank r) ->
  (forall s (h : history (VT P (vt_value P (si_ty s)))), value_of h <> NoFuel) ->
  forall F : book P Q, solves g l F ->
  forall n A (p : prog P Q A) past,
  only_asks (fun q => exists e x s, q = RStat e x s /\ (rank e x s < n)%nat) p -> stops (fun o => o <> NoFuel) p ->
  fst (run (client (ruled T bs g l) n p) (after (ruled T bs g l) past [])) = oeval (by_book F) p.
Proof. exact @C87_answers_proof. Qed.
Print Assumptions C87_answers.
(** Entities in a line, each with 100 health, what it has of its own (7 for the first) and the health
    of the one before it: the rule asks for the stat that it is about, but for another entity. *)
Example C87_case :
  (forall r, In (inr r) heir_laws -> grounded in_line r) /\
  exists F : book (solo SI) intQ, solves heir_game heir_laws F /\
  oeval (by_book F) (p_query_eval 0%nat (@Aggregate intQ 0) health) = Done (Some 107) /\
  oeval (by_book F) (p_query_eval 1%nat (@Aggregate intQ 0) health) = Done (Some 207) /\
  oeval (by_book F) (p_query_eval 2%nat (@Aggregate intQ 0) health) = Done (Some 307) /\
  F 3%nat (@Aggregate intQ 0) health = Done None.
Proof. split; [exact heir_grounded|exact heir_solution]. Qed.

(** C84 for such rankings: code that asks questions of rank below [n] comes to its end with at most [n]
    queries inside each other. *)
Theorem C84_grounded :
  forall (P : Prog) (Q : QFlag), lawful_ord (q_cmp Q) -> forall bs : list comparison -> bsres, bs_contract bs -> distinct_vtables P ->
  forall (T : StatTypes P) (o_size o_align : vty P -> Z), flags_eq (Q := Q) ->
  forall (g : game P Q) l (rank : entity -> qquery Q -> inst P -> nat), lawful_game T bs o_size o_align g l ->
  (forall s (h : history (VT P (vt_value P (si_ty s)))), value_of h <> NoFuel) -> (forall r, In (inr r) l -> grounded rank r) ->
  forall n A (p : prog P Q A) past,
  only_asks (fun q => exists e x s, q = RStat e x s /\ (rank e x s < n)%nat) p -> stops (fun o => o <> NoFuel) p ->
  fst (run (client (ruled T bs g l) n p) (after (ruled T bs g l) past [])) <> NoFuel /\
  forall m past', (n <= m)%nat ->
  fst (run (client (ruled T bs g l) m p) (after (ruled T bs g l) past' [])) = fst (run (client (ruled T bs g l) n p) (after (ruled T bs g l) past [])).
Proof. exact @C84_grounded_proof. Qed.
Print Assumptions C84_grounded.
(** The third in the line needs three queries inside each other. *)
Example C84_grounded_case :
  heir_eval 3 2%nat = Done (Some 307) /\ heir_eval 2 2%nat = NoFuel /\ heir_eval 2 1%nat = Done (Some 207) /\ heir_eval 1 0%nat = Done (Some 107).
Proof. repeat split; vm_compute; reflexivity. Qed.

(** Without a ranking the equations do not determine the answers, and queries have none: where health
    is at least as great as it is, every health from 0 on solves the equations. *)
Theorem C87_any_rules_refuted :
  exists (P : Prog) (Q : QFlag) (T : StatTypes P) (o_size o_align : vty P -> Z) (g : game P Q) l (F G : book P Q) e x s,
  lawful_ord (q_cmp Q) /\ distinct_vtables P /\ flags_eq (Q := Q) /\ lawful_game T bs_new o_size o_align g l /\
  (forall s (h : history (VT P (vt_value P (si_ty s)))), value_of h <> NoFuel) /\ fits s /\
  solves g l F /\ solves g l G /\ F e x s <> G e x s /\
  forall n, ask (ruled T bs_new g l) n (p_query_eval e x s) = NoFuel.
Proof. exact idle_refutes. Qed.
Print Assumptions C87_any_rules_refuted.
