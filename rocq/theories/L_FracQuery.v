(** Closed forms of queries over float stats of fractions. *)
From Coq Require Import ZArith QArith List Bool Sorted Lia.
From Verif Require Import S_Types L_Ints.
From Verif Require Import M_Outcome M_Ints M_Ratio M_Float M_Value M_Types M_Qualifier M_Search M_Stat M_StatMap M_HashMap M_Pair M_Defaults M_Querier
  S_Ratio S_Search S_Pair S_StatMap S_Defaults S_Querier S_Totals S_FloatTotals S_PctTotals S_FracTotals S_EndToEnd
  L_StatMap L_QueryProofs L_EndToEnd L_EndToEnd2 L_EndToEnd3 L_FracTotals L_FracTotals2 L_FracTotals3.
Import ListNotations.
Local Open Scope Z_scope.

Section Claims.
  Variables (P : Prog) (Q : QFlag) (bs : list comparison -> bsres) (o_size o_align : vty P -> Z).
  Notation VS s := (VT P (vt_value P (si_ty s))).

  Lemma C65_Fraction_StatFloat_checked_proof : bs_contract bs -> distinct_vtables P -> lawful_ord (q_cmp Q) -> flags_eq (Q := Q) ->
  forall (g : game P Q) e ch x s past t (E : VT P (vt_value P (si_ty s)) = statFloat (fracF true t)),
  set_up bs o_size o_align g -> fits s -> w_entities (j_world (g_querier g)) e = Some ch ->
  exists sel, Forall2 (chosen s x) (logs_for g e (or_nil ch)) sel /\
  let all := map (seen_as E) (stories g s sel) in
  Forall (reduced t) (all_gains all same same) -> Forall (reduced t) (all_factors all same) -> Forall (reduced t) (all_floors all same) -> Forall (reduced t) (all_ceilings all same) ->
  forall n r, fst (run (client (g_querier g) (S n) (p_query_eval e x s)) (after (g_querier g) past [])) = Done (Some r) ->
    reduced t (result_as E r) /\ (toQ (result_as E r) == qbounded t (all_floors all same) (all_ceilings all same) (qsum (all_gains all same same) * qproduct (all_factors all same)))%Q.
  Proof.
    intros C D OQ Hq g e ch x s past t E U F He. destruct (eval_done P Q bs o_size o_align C D OQ Hq _ g e ch x s past E U F He) as (sel & H1 & H2 & H3).
    exists sel. split; [exact H1|]. intros all F0 F1 F2 F3 n r Hr. fold all in H2, H3. specialize (H3 n r Hr).
    apply C59_Fraction_StatFloat_checked_proof in H3; unfold scales, floors, ceilings, gains, factors, all_scales, all_floors, all_ceilings, all_gains, all_factors, all, stories in *; cbn [map] in *; rewrite ?gathered_together in *; assumption.
  Qed.
  Lemma C65_Fraction_StatFloat_fits_proof : bs_contract bs -> distinct_vtables P -> lawful_ord (q_cmp Q) -> flags_eq (Q := Q) ->
  forall (g : game P Q) e ch x s past oc t D (E : VT P (vt_value P (si_ty s)) = statFloat (fracF oc t)),
  set_up bs o_size o_align g -> fits s -> w_entities (j_world (g_querier g)) e = Some ch ->
  exists sel, Forall2 (chosen s x) (logs_for g e (or_nil ch)) sel /\
  let all := map (seen_as E) (stories g s sel) in
  Forall (reduced t) (all_gains all same same) -> Forall (reduced t) (all_factors all same) -> Forall (reduced t) (all_floors all same) -> Forall (reduced t) (all_ceilings all same) ->
  Forall steady all -> adds_over t D (all_gains all same same) -> D * room_frac (all_factors all same) <= imax t ->
  room (scaled D (all_gains all same same)) * room_frac (all_factors all same) <= imax t ->
  forall n, exists r, fst (run (client (g_querier g) (S n) (p_query_eval e x s)) (after (g_querier g) past [])) = Done (Some r) /\
    reduced t (result_as E r) /\ (toQ (result_as E r) == qbounded t (all_floors all same) (all_ceilings all same) (qsum (all_gains all same same) * qproduct (all_factors all same)))%Q.
  Proof.
    intros C Dv OQ Hq g e ch x s past oc t D E U F He. destruct (eval_done P Q bs o_size o_align C Dv OQ Hq _ g e ch x s past E U F He) as (sel & H1 & H2 & H3).
    exists sel. split; [exact H1|]. intros all F0 F1 F2 F3 St HA HD HR n. fold all in H2, H3. specialize (H2 n).
    destruct (C59_Fraction_StatFloat_fits_proof oc t D (together all)) as (w & W & R & V);
      try (apply steady_together; exact St); try (unfold scales, floors, ceilings, gains, factors, all_scales, all_floors, all_ceilings, all_gains, all_factors, all, stories in *; cbn [map] in *; rewrite ?gathered_together in *; assumption).
    destruct (H2 w W) as (r & Hr & <-). exists r. split; [exact Hr|]. split; [exact R|]. unfold scales, floors, ceilings, gains, factors, all_scales, all_floors, all_ceilings, all_gains, all_factors, all, stories in *; cbn [map] in *; rewrite ?gathered_together in *; assumption.
  Qed.

  Lemma C65_Fraction_StatFloatAdditive_checked_proof : bs_contract bs -> distinct_vtables P -> lawful_ord (q_cmp Q) -> flags_eq (Q := Q) ->
  forall (g : game P Q) e ch x s past t (E : VT P (vt_value P (si_ty s)) = statFloatAdditive (fracF true t)),
  set_up bs o_size o_align g -> fits s -> w_entities (j_world (g_querier g)) e = Some ch ->
  exists sel, Forall2 (chosen s x) (logs_for g e (or_nil ch)) sel /\
  let all := map (seen_as E) (stories g s sel) in
  Forall (reduced t) (all_gains all same same) -> Forall (reduced t) (all_factors all same) -> Forall (reduced t) (all_floors all same) -> Forall (reduced t) (all_ceilings all same) ->
  forall n r, fst (run (client (g_querier g) (S n) (p_query_eval e x s)) (after (g_querier g) past [])) = Done (Some r) ->
    reduced t (result_as E r) /\ (toQ (result_as E r) == qbounded t (all_floors all same) (all_ceilings all same) (qsum (all_gains all same same) * (1 + qsum (all_factors all same))))%Q.
  Proof.
    intros C D OQ Hq g e ch x s past t E U F He. destruct (eval_done P Q bs o_size o_align C D OQ Hq _ g e ch x s past E U F He) as (sel & H1 & H2 & H3).
    exists sel. split; [exact H1|]. intros all F0 F1 F2 F3 n r Hr. fold all in H2, H3. specialize (H3 n r Hr).
    apply C59_Fraction_StatFloatAdditive_checked_proof in H3; unfold scales, floors, ceilings, gains, factors, all_scales, all_floors, all_ceilings, all_gains, all_factors, all, stories in *; cbn [map] in *; rewrite ?gathered_together in *; assumption.
  Qed.
  Lemma C65_Fraction_StatFloatAdditive_fits_proof : bs_contract bs -> distinct_vtables P -> lawful_ord (q_cmp Q) -> flags_eq (Q := Q) ->
  forall (g : game P Q) e ch x s past oc t D D' (E : VT P (vt_value P (si_ty s)) = statFloatAdditive (fracF oc t)),
  set_up bs o_size o_align g -> fits s -> w_entities (j_world (g_querier g)) e = Some ch ->
  exists sel, Forall2 (chosen s x) (logs_for g e (or_nil ch)) sel /\
  let all := map (seen_as E) (stories g s sel) in
  Forall (reduced t) (all_gains all same same) -> Forall (reduced t) (all_factors all same) -> Forall (reduced t) (all_floors all same) -> Forall (reduced t) (all_ceilings all same) ->
  Forall steady all -> adds_over t D (all_gains all same same) -> adds_over t D' (all_factors all same ++ [Frac 1 1]) -> D * D' <= imax t ->
  room (scaled D (all_gains all same same)) * room (scaled D' (all_factors all same ++ [Frac 1 1])) <= imax t ->
  forall n, exists r, fst (run (client (g_querier g) (S n) (p_query_eval e x s)) (after (g_querier g) past [])) = Done (Some r) /\
    reduced t (result_as E r) /\ (toQ (result_as E r) == qbounded t (all_floors all same) (all_ceilings all same) (qsum (all_gains all same same) * (1 + qsum (all_factors all same))))%Q.
  Proof.
    intros C Dv OQ Hq g e ch x s past oc t D D' E U F He. destruct (eval_done P Q bs o_size o_align C Dv OQ Hq _ g e ch x s past E U F He) as (sel & H1 & H2 & H3).
    exists sel. split; [exact H1|]. intros all F0 F1 F2 F3 St HA HB HD HR n. fold all in H2, H3. specialize (H2 n).
    destruct (C59_Fraction_StatFloatAdditive_fits_proof oc t D D' (together all)) as (w & W & R & V);
      try (apply steady_together; exact St); try (unfold scales, floors, ceilings, gains, factors, all_scales, all_floors, all_ceilings, all_gains, all_factors, all, stories in *; cbn [map] in *; rewrite ?gathered_together in *; assumption).
    destruct (H2 w W) as (r & Hr & <-). exists r. split; [exact Hr|]. split; [exact R|]. unfold scales, floors, ceilings, gains, factors, all_scales, all_floors, all_ceilings, all_gains, all_factors, all, stories in *; cbn [map] in *; rewrite ?gathered_together in *; assumption.
  Qed.

  Lemma C65_Fraction_StatMult_checked_proof : bs_contract bs -> distinct_vtables P -> lawful_ord (q_cmp Q) -> flags_eq (Q := Q) ->
  forall (g : game P Q) e ch x s past t (E : VT P (vt_value P (si_ty s)) = statMult (fracF true t)),
  set_up bs o_size o_align g -> fits s -> w_entities (j_world (g_querier g)) e = Some ch ->
  exists sel, Forall2 (chosen s x) (logs_for g e (or_nil ch)) sel /\
  let all := map (seen_as E) (stories g s sel) in
  Forall (reduced t) (all_scales all same same) -> Forall (reduced t) (all_floors all same) -> Forall (reduced t) (all_ceilings all same) ->
  forall n r, fst (run (client (g_querier g) (S n) (p_query_eval e x s)) (after (g_querier g) past [])) = Done (Some r) ->
    reduced t (result_as E r) /\ (toQ (result_as E r) == qbounded t (all_floors all same) (all_ceilings all same) (qproduct (all_scales all same same)))%Q.
  Proof.
    intros C D OQ Hq g e ch x s past t E U F He. destruct (eval_done P Q bs o_size o_align C D OQ Hq _ g e ch x s past E U F He) as (sel & H1 & H2 & H3).
    exists sel. split; [exact H1|]. intros all F0 F1 F2 n r Hr. fold all in H2, H3. specialize (H3 n r Hr).
    apply C59_Fraction_StatMult_checked_proof in H3; unfold scales, floors, ceilings, gains, factors, all_scales, all_floors, all_ceilings, all_gains, all_factors, all, stories in *; cbn [map] in *; rewrite ?gathered_together in *; assumption.
  Qed.
  Lemma C65_Fraction_StatMult_fits_proof : bs_contract bs -> distinct_vtables P -> lawful_ord (q_cmp Q) -> flags_eq (Q := Q) ->
  forall (g : game P Q) e ch x s past oc t (E : VT P (vt_value P (si_ty s)) = statMult (fracF oc t)),
  set_up bs o_size o_align g -> fits s -> w_entities (j_world (g_querier g)) e = Some ch ->
  exists sel, Forall2 (chosen s x) (logs_for g e (or_nil ch)) sel /\
  let all := map (seen_as E) (stories g s sel) in
  Forall (reduced t) (all_scales all same same) -> Forall (reduced t) (all_floors all same) -> Forall (reduced t) (all_ceilings all same) ->
  Forall steady all -> room_frac (all_scales all same same) <= imax t ->
  forall n, exists r, fst (run (client (g_querier g) (S n) (p_query_eval e x s)) (after (g_querier g) past [])) = Done (Some r) /\
    reduced t (result_as E r) /\ (toQ (result_as E r) == qbounded t (all_floors all same) (all_ceilings all same) (qproduct (all_scales all same same)))%Q.
  Proof.
    intros C Dv OQ Hq g e ch x s past oc t E U F He. destruct (eval_done P Q bs o_size o_align C Dv OQ Hq _ g e ch x s past E U F He) as (sel & H1 & H2 & H3).
    exists sel. split; [exact H1|]. intros all F0 F1 F2 St HR n. fold all in H2, H3. specialize (H2 n).
    destruct (C59_Fraction_StatMult_fits_proof oc t (together all)) as (w & W & R & V);
      try (apply steady_together; exact St); try (unfold scales, floors, ceilings, gains, factors, all_scales, all_floors, all_ceilings, all_gains, all_factors, all, stories in *; cbn [map] in *; rewrite ?gathered_together in *; assumption).
    destruct (H2 w W) as (r & Hr & <-). exists r. split; [exact Hr|]. split; [exact R|]. unfold scales, floors, ceilings, gains, factors, all_scales, all_floors, all_ceilings, all_gains, all_factors, all, stories in *; cbn [map] in *; rewrite ?gathered_together in *; assumption.
  Qed.
End Claims.
