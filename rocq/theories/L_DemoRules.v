(** Lemmas for the examples of rules. *)
From Coq Require Import ZArith List Bool Lia.
From Verif Require Import M_Outcome M_Ints M_Value M_Types M_Qualifier M_Search M_Stat M_StatMap M_HashMap M_Pair M_Defaults M_Querier
  S_Search S_StatMap S_Pair S_Defaults S_Querier S_Totals S_EndToEnd S_Rules S_Demo S_DemoDefaults S_DemoQuery S_DemoGame S_DemoRules
  L_Querier2 L_DemoQuery2 L_DemoGame L_Rules.
Import ListNotations.
Local Open Scope Z_scope.

Lemma birth_made : mops_run bs_new [] (map method birth_log) = Done birth_map.
Proof.
  assert (H : solo_ok SI [birth_log] = true) by (vm_compute; reflexivity). unfold birth_map. unfold solo_ok in H. cbn [forallb] in H. unfold solo_run in *.
  destruct (mops_run bs_new [] (map method birth_log)); [reflexivity|discriminate H..].
Qed.
Lemma hero_set_up : set_up bs_new (fun _ => 24) (fun _ => 8) hero_game.
Proof.
  assert (U : set_up bs_new (fun _ => 24) (fun _ => 8) (solo_game SI hero_logs)) by (apply solo_set_up; [repeat constructor|vm_compute; reflexivity]).
  constructor.
  - exact Logic.I.
  - reflexivity.
  - constructor; [|constructor]. split; [repeat constructor|]. split; [apply plain_unrepeated; reflexivity|]. exact birth_made.
  - reflexivity.
  - reflexivity.
  - reflexivity.
  - exact (u_logs _ _ _ _ U).
Qed.
Lemma hero_lawful : lawful_game solo_types bs_new (fun _ => 24) (fun _ => 8) hero_game hero_laws.
Proof. split; [exact hero_set_up|]. split; [reflexivity|]. cbn [rules_in hero_laws flat_map app]. constructor; [split; reflexivity|]. constructor; [split; reflexivity|constructor]. Qed.

Section L.
  Context {P : Prog} {Q : QFlag}.
  Lemma only_then (R : request P Q -> Prop) {A B} (p : prog P Q A) (f : A -> prog P Q B) : only_asks R p -> (forall a, only_asks R (f a)) -> only_asks R (pbind p f).
  Proof. intros Hp Hf. induction p as [a|o|r k IH|k IH]; cbn [pbind only_asks] in *; [apply Hf|exact Logic.I|split; [apply Hp|intros v; apply IH, Hp]|apply IH, Hp]. Qed.
  Lemma only_done (R : request P Q -> Prop) {A} (o : outcome A) : only_asks R (of_outcome (P := P) (Q := Q) o).
  Proof. destruct o; exact Logic.I. Qed.
  Lemma only_eval (R : request P Q -> Prop) e x s : R (RStat e x s) -> only_asks R (p_query_eval e x s).
  Proof.
    intros H. unfold p_query_eval. apply only_then; [apply only_done|]. intros _. apply only_then; [split; [exact H|intros v; exact Logic.I]|].
    intros [v|]; [|exact Logic.I]. apply only_then; [apply only_done|intros r; exact Logic.I].
  Qed.
  Lemma stops_done {A} (o : outcome A) : o <> NoFuel -> stops (P := P) (Q := Q) (fun o => o <> NoFuel) (of_outcome o).
  Proof. intros H. destruct o; cbn; [exact Logic.I|discriminate|discriminate|contradiction H; reflexivity]. Qed.
  Lemma stops_eval e x (s : inst P) : (forall v, sv_eval (VT P (vt_value P (si_ty s))) v <> NoFuel) -> stops (P := P) (Q := Q) (fun o => o <> NoFuel) (p_query_eval e x s).
  Proof.
    intros H. unfold p_query_eval. apply stops_pbind.
    - apply stops_done, validate_fuel.
    - intros _. apply stops_pbind; [intros v; exact Logic.I|]. intros [v|]; [|exact Logic.I]. apply stops_pbind; [apply stops_done, H|intros r; exact Logic.I].
  Qed.
End L.
Lemma follows_descends {P : Prog} {Q : QFlag} (rank : inst P -> nat) to from at_ f : (rank from < rank to)%nat ->
  (forall v, sv_eval (VT P (vt_value P (si_ty from))) v <> NoFuel) -> descends (P := P) (Q := Q) rank (follows to from at_ f).
Proof.
  intros L H e x. cbn [follows r_to r_code]. split.
  - apply only_then; [apply only_eval; eauto|intros o; exact Logic.I].
  - apply stops_pbind; [apply stops_eval, H|intros o; exact Logic.I].
Qed.
Lemma si_eval (v : val SI) : sv_eval SI v <> NoFuel.
Proof.
  destruct (fuel_chk true I32 (addend v * mult v)) as [K _]. change (sv_eval SI v) with (let! p := chk true I32 (addend v * mult v) in Done (i_bound v p)).
  destruct (chk true I32 (addend v * mult v)); cbn [obind]; congruence.
Qed.
Lemma norm_fuel z : i_norm true (prim I32) z <> NoFuel.
Proof. exact (proj1 (fuel_chk true I32 z)). Qed.
Lemma si_value (h : history SI) : value_of h <> NoFuel.
Proof.
  induction h as [|b|h IH o|h IH k IK]; cbn [value_of]; try discriminate.
  - destruct (value_of h) as [v| | |]; cbn [obind]; try congruence. destruct o as [a|m|[]|[]|a|a|b]; cbn [write_to SI statInt sv_add sv_mul sv_min sv_max]; try discriminate.
    + unfold q_add, i_add. pose proof (norm_fuel (addend v + a)) as K. destruct (i_norm true (prim I32) (addend v + a)); cbn [obind]; congruence.
    + unfold i_mul. pose proof (norm_fuel (mult v * m)) as K. destruct (i_norm true (prim I32) (mult v * m)); cbn [obind]; congruence.
  - destruct (value_of h) as [v| | |]; cbn [obind]; try congruence. destruct (value_of k) as [w| | |]; cbn [obind]; try congruence.
    cbn [sv_join SI statInt]. unfold i_add, i_mul.
    pose proof (norm_fuel (addend v + addend w)) as K. destruct (i_norm true (prim I32) (addend v + addend w)); cbn [obind]; try congruence.
    pose proof (norm_fuel (mult v * mult w)) as K'. destruct (i_norm true (prim I32) (mult v * mult w)); cbn [obind]; congruence.
Qed.
Lemma hero_descends r : In (inr r) hero_laws -> descends hero_rank r.
Proof.
  intros [E|[E|[E|[]]]]; try discriminate; injection E as <-; apply follows_descends; try apply si_eval; cbn; lia.
Qed.
