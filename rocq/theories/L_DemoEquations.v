(** Lemmas for the examples of equations. *)
From Coq Require Import ZArith List Bool Lia.
From Verif Require Import M_Outcome M_Ints M_Value M_Types M_Qualifier M_Search M_Stat M_StatMap M_HashMap M_Pair M_Defaults M_Querier
  S_Search S_StatMap S_Pair S_Defaults S_Querier S_Totals S_EndToEnd S_Rules S_Equations S_Demo S_DemoDefaults S_DemoQuery S_DemoGame S_DemoRules S_DemoEquations
  L_Search L_Demo L_DemoQuery L_DemoGame L_CacheProofs L_Querier2  L_Rules L_DemoRules L_Equations.
Import ListNotations.
Local Open Scope Z_scope.

Lemma heir_set_up : set_up bs_new (fun _ => 24) (fun _ => 8) heir_game.
Proof.
  assert (U : set_up bs_new (fun _ => 24) (fun _ => 8) (solo_game SI hero_logs)) by (apply solo_set_up; [repeat constructor|vm_compute; reflexivity]).
  constructor.
  - exact Logic.I.
  - reflexivity.
  - constructor; [|constructor]. split; [repeat constructor|]. split; [apply plain_unrepeated; reflexivity|]. exact birth_made.
  - reflexivity.
  - reflexivity.
  - reflexivity.
  - exact (u_logs _ _ _ _ U).
Qed.
Lemma heir_lawful : lawful_game solo_types bs_new (fun _ => 24) (fun _ => 8) heir_game heir_laws.
Proof. split; [exact heir_set_up|]. split; [reflexivity|]. cbn [rules_in heir_laws flat_map app]. constructor; [split; reflexivity|constructor]. Qed.
Lemma heir_grounded r : In (inr r) heir_laws -> grounded in_line r.
Proof.
  intros [E|[E|[]]]; [|discriminate]. injection E as <-. intros [|d] x; cbn [heir r_to r_code]; [split; exact Logic.I|]. split.
  - apply only_then; [apply only_eval|intros o; exact Logic.I]. exists d, x, health. split; [reflexivity|unfold in_line; lia].
  - apply stops_pbind; [apply stops_eval; exact si_eval|intros o; exact Logic.I].
Qed.
Lemma heir_solution :
  exists F : book (solo SI) intQ, solves heir_game heir_laws F /\
  oeval (by_book F) (p_query_eval 0%nat (@Aggregate intQ 0) health) = Done (Some 107) /\
  oeval (by_book F) (p_query_eval 1%nat (@Aggregate intQ 0) health) = Done (Some 207) /\
  oeval (by_book F) (p_query_eval 2%nat (@Aggregate intQ 0) health) = Done (Some 307) /\
  F 3%nat (@Aggregate intQ 0) health = Done None.
Proof.
  destruct (C87_exists_proof intQ_ord bs_new bs_new_contract (solo_distinct SI) solo_types (fun _ => 24) (fun _ => 8) intQ_flags
    heir_game heir_laws in_line heir_lawful heir_grounded (fun s h => si_value h)) as [F HF].
  exists F. split; [exact HF|].
  assert (K : forall e, (e < 3)%nat -> oeval (by_book F) (p_query_eval e (@Aggregate intQ 0) health) = heir_eval 3 e).
  { intros e L. symmetry. unfold heir_eval.
    refine (C87_answers_proof intQ_ord bs_new bs_new_contract (solo_distinct SI) solo_types (fun _ => 24) (fun _ => 8) intQ_flags
      heir_game heir_laws in_line heir_lawful heir_grounded (fun s h => si_value h) F HF 3 _ (p_query_eval e (@Aggregate intQ 0) health) [] _ _).
    - apply only_eval. exists e, (@Aggregate intQ 0), health. split; [reflexivity|exact L].
    - apply stops_eval. exact si_eval. }
  rewrite !K by lia. do 3 (split; [vm_compute; reflexivity|]). exact (HF 3%nat (@Aggregate intQ 0) health eq_refl).
Qed.
Lemma idle_set_up : set_up bs_new (fun _ => 24) (fun _ => 8) idle_game.
Proof.
  assert (U : set_up bs_new (fun _ => 24) (fun _ => 8) (solo_game SI [])) by (apply solo_set_up; [repeat constructor|vm_compute; reflexivity]).
  constructor.
  - exact Logic.I.
  - reflexivity.
  - constructor.
  - reflexivity.
  - reflexivity.
  - reflexivity.
  - exact (u_logs _ _ _ _ U).
Qed.
Lemma idle_lawful : lawful_game solo_types bs_new (fun _ => 24) (fun _ => 8) idle_game [inr idle].
Proof. split; [exact idle_set_up|]. split; [reflexivity|]. cbn [rules_in flat_map app]. constructor; [split; reflexivity|constructor]. Qed.
Lemma idle_max a b : a <= b -> i_max a b = b.
Proof. intros H. unfold i_max. destruct (Z.ltb_spec b a); lia. Qed.
Lemma idle_solved z : 0 <= z <= 2147483647 -> solves idle_game [inr idle] (idle_book z).
Proof.
  intros Hz [|e] x [[] i] Fs; [|reflexivity].
  change (exists o, foretold (idle_book z) 0%nat x (@Inst (solo SI) tt i) (starting idle_game (@Inst (solo SI) tt i)) [inr idle] o /\ idle_book z 0%nat x (@Inst (solo SI) tt i) = let! v := o in Done (Some v)).
  unfold idle_book. cbn [si_index]. destruct (Z.eqb_spec i 0) as [->|N].
  - eexists. split; [apply (ft_rule _ _ _ _ _ idle eq_refl [@OMin SI z])|].
    + cbn. unfold i_bound. cbn. do 4 f_equal. apply idle_max; lia.
    + apply ft_none.
    + cbn. do 2 f_equal. unfold q_min. cbn. f_equal; symmetry; apply idle_max; lia.
  - eexists. split; [apply ft_other; [|apply ft_none]|reflexivity]. intros E. apply N. injection E as <-. reflexivity.
Qed.
Lemma idle_endless n : ask (ruled solo_types bs_new idle_game [inr idle]) n (p_query_eval 0%nat (@Aggregate intQ 0) health) = NoFuel.
Proof.
  assert (K : answer (ruled solo_types bs_new idle_game [inr idle]) n (RStat 0%nat (@Aggregate intQ 0) health) = NoFuel); [|unfold ask; cbn; rewrite K; reflexivity].
  induction n as [|n IH]; [reflexivity|]. cbn. rewrite IH. reflexivity.
Qed.
Lemma idle_refutes :
  exists (P : Prog) (Q : QFlag) (T : StatTypes P) (o_size o_align : vty P -> Z) (g : game P Q) l (F G : book P Q) e x s,
  lawful_ord (q_cmp Q) /\ distinct_vtables P /\ flags_eq (Q := Q) /\ lawful_game T bs_new o_size o_align g l /\
  (forall s (h : history (VT P (vt_value P (si_ty s)))), value_of h <> NoFuel) /\ fits s /\
  solves g l F /\ solves g l G /\ F e x s <> G e x s /\
  forall n, ask (ruled T bs_new g l) n (p_query_eval e x s) = NoFuel.
Proof.
  exists (solo SI), intQ, solo_types, (fun _ => 24), (fun _ => 8), idle_game, [inr idle], (idle_book 0), (idle_book 5), 0%nat, (@Aggregate intQ 0), health.
  split; [exact intQ_ord|]. split; [apply solo_distinct|]. split; [exact intQ_flags|]. split; [exact idle_lawful|]. split; [exact (fun s h => si_value h)|]. split; [reflexivity|].
  split; [apply idle_solved; lia|]. split; [apply idle_solved; lia|]. split; [discriminate|exact idle_endless].
Qed.
