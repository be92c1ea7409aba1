(** More closed forms of queries over entities carrying maps. *)
From Coq Require Import ZArith QArith Reals List Bool Sorted Lia.
From Flocq Require Import Core BinarySingleNaN.
From Verif Require Import S_Types L_Ints.
From Verif Require Import M_Outcome M_Ints M_Ratio M_Float M_Value M_Types M_Qualifier M_Search M_Stat M_StatMap M_HashMap M_Pair M_Defaults M_Querier
  S_Ratio S_Float S_Search S_Pair S_StatMap S_Defaults S_Querier S_Totals S_FloatTotals S_PctTotals S_EndToEnd
  L_Types3 L_StatMap L_QueryProofs L_Totals L_Totals2 L_FloatTotals2 L_FloatTotals3 L_PctTotals L_EndToEnd L_EndToEnd2.
Import ListNotations.
Local Open Scope Z_scope.

Lemma unbased_together {S : StatValue} (l : list (history S)) h : unbased (together (h :: l)) = all_unbased (h :: l).
Proof.
  unfold all_unbased. cbn [together map sum fold_right]. revert h. induction l as [|k l IH]; intros h; cbn [fold_left map sum fold_right]; [lia|].
  rewrite IH. cbn [unbased]. unfold sum in *. lia.
Qed.
Lemma rate_together {S : StatValue} per (l : list (history S)) h : (rate per (together (h :: l)) == all_rates per (h :: l))%Q.
Proof.
  unfold all_rates. cbn [together map fold_right]. revert h. induction l as [|k l IH]; intros h; cbn [fold_left map fold_right]; [symmetry; apply Qplus_0_r|].
  rewrite IH. cbn [rate]. ring.
Qed.

Section Claims.
  Variables (P : Prog) (Q : QFlag) (bs : list comparison -> bsres) (o_size o_align : vty P -> Z).
  Notation VS s := (VT P (vt_value P (si_ty s))).

  Lemma eval_done (C : bs_contract bs) (D : distinct_vtables P) (OQ : lawful_ord (q_cmp Q)) (Hq : flags_eq (Q := Q)) (T : StatValue) (g : game P Q) e ch x s past (E : VS s = T) : set_up bs o_size o_align g -> fits s -> w_entities (j_world (g_querier g)) e = Some ch ->
    exists sel, Forall2 (chosen s x) (logs_for g e (or_nil ch)) sel /\
    let all := map (seen_as E) (stories g s sel) in
    (forall n w, worth (together all) = Done w ->
      exists r, fst (run (client (g_querier g) (S n) (p_query_eval e x s)) (after (g_querier g) past [])) = Done (Some r) /\ result_as E r = w) /\
    (forall n r, fst (run (client (g_querier g) (S n) (p_query_eval e x s)) (after (g_querier g) past [])) = Done (Some r) -> worth (together all) = Done (result_as E r)).
  Proof.
    intros U F He. destruct (eval_as P Q bs o_size o_align C D OQ Hq T g e ch x s past E U F He) as (sel & H1 & H2). exists sel. split; [exact H1|].
    intros all. split.
    - intros n w W. specialize (H2 n). fold all in H2. rewrite W in H2. cbn [obind] in H2.
      destruct (fst (run (client (g_querier g) (S n) (p_query_eval e x s)) (after (g_querier g) past []))) as [[r|]| | |]; cbn [obind option_map] in H2; try discriminate.
      exists r. split; [reflexivity|]. injection H2 as H2. exact H2.
    - intros n r Hr. specialize (H2 n). rewrite Hr in H2. cbn [obind option_map] in H2. fold all in H2.
      destruct (worth (together all)) as [w| | |]; cbn [obind] in H2; try discriminate. injection H2 as ->. reflexivity.
  Qed.

  Lemma C65_StatInt_wrapping_proof : bs_contract bs -> distinct_vtables P -> lawful_ord (q_cmp Q) -> flags_eq (Q := Q) ->
    forall (g : game P Q) e ch x s past oc T (E : VS s = statInt oc T),
    set_up bs o_size o_align g -> fits s -> w_entities (j_world (g_querier g)) e = Some ch -> i_flav T = FWrapping \/ (i_flav T = FPrim /\ oc = false) ->
    exists sel, Forall2 (chosen s x) (logs_for g e (or_nil ch)) sel /\
    let all := map (seen_as E) (stories g s sel) in
    forall n, exists r, fst (run (client (g_querier g) (S n) (p_query_eval e x s)) (after (g_querier g) past [])) = Done (Some r) /\
        result_as E r = bounded (i_ty T) (all_floors all same) (all_ceilings all same) (wrap (i_ty T) (sum (all_gains all same same) * product (all_factors all same))).
  Proof.
    intros C D OQ Hq g e ch x s past oc T E U F He Pz0. destruct (eval_done C D OQ Hq _ g e ch x s past E U F He) as (sel & H1 & H2 & H3).
    exists sel. split; [exact H1|]. intros all. fold all in H2, H3.
    intros n. apply H2. rewrite C58_StatInt_wrapping_proof by assumption. unfold scales, floors, ceilings, gains, factors, all_scales, all_floors, all_ceilings, all_gains, all_factors, all, stories in *; cbn [map] in *; rewrite ?gathered_together in *. reflexivity.
  Qed.

  Lemma C65_StatIntPercentAdditive_fits_proof : bs_contract bs -> distinct_vtables P -> lawful_ord (q_cmp Q) -> flags_eq (Q := Q) ->
    forall (g : game P Q) e ch x s past oc T R scale z (E : VS s = statPctAdd oc T R scale),
    set_up bs o_size o_align g -> fits s -> w_entities (j_world (g_querier g)) e = Some ch -> from_i64 (i_ty T) scale = Done z -> 0 < z ->
    exists sel, Forall2 (chosen s x) (logs_for g e (or_nil ch)) sel /\
    let all := map (seen_as E) (stories g s sel) in
    Forall steady all -> Forall (z_ok T) (all_gains all same same) -> Forall (z_ok T) (all_factors all same) ->
    room (all_gains all same same) <= imax (i_ty T) -> room (all_factors all same) <= imax (i_ty T) ->
    z_ok T (z + sum (all_factors all same)) -> z_ok T (sum (all_gains all same same) * (z + sum (all_factors all same))) ->
    ~ round_overflows R (i_ty T) (sum (all_gains all same same) * (z + sum (all_factors all same))) z ->
    exists y, rounds_to R (sum (all_gains all same same) * (z + sum (all_factors all same))) z y /\
      forall n, exists r, fst (run (client (g_querier g) (S n) (p_query_eval e x s)) (after (g_querier g) past [])) = Done (Some r) /\
        result_as E r = bounded (i_ty T) (all_floors all same) (all_ceilings all same) y.
  Proof.
    intros C D OQ Hq g e ch x s past oc T R scale z E U F He Pz0 Pz1. destruct (eval_done C D OQ Hq _ g e ch x s past E U F He) as (sel & H1 & H2 & H3).
    exists sel. split; [exact H1|]. intros all. fold all in H2, H3.
    intros K0 K1 K2 K3 K4 K5 K6 K7. destruct (C58_StatIntPercentAdditive_fits_proof oc T R scale z (together all)) as (y & Y & W); [unfold scales, floors, ceilings, gains, factors, all_scales, all_floors, all_ceilings, all_gains, all_factors, all, stories in *; cbn [map] in *; rewrite ?gathered_together in *; try assumption; try (apply steady_together; assumption) ..|].
    exists y. split; [unfold scales, floors, ceilings, gains, factors, all_scales, all_floors, all_ceilings, all_gains, all_factors, all, stories in *; cbn [map] in *; rewrite ?gathered_together in *; exact Y|]. intros n. apply H2. rewrite W. unfold scales, floors, ceilings, gains, factors, all_scales, all_floors, all_ceilings, all_gains, all_factors, all, stories in *; cbn [map] in *; rewrite ?gathered_together in *. reflexivity.
  Qed.

  Lemma C65_StatIntFraction_fits_proof : bs_contract bs -> distinct_vtables P -> lawful_ord (q_cmp Q) -> flags_eq (Q := Q) ->
    forall (g : game P Q) e ch x s past oc T R (E : VS s = statIntFraction oc T R),
    set_up bs o_size o_align g -> fits s -> w_entities (j_world (g_querier g)) e = Some ch -> 
    exists sel, Forall2 (chosen s x) (logs_for g e (or_nil ch)) sel /\
    let all := map (seen_as E) (stories g s sel) in
    Forall steady all -> Forall (z_ok T) (all_gains all same same) -> Forall (reduced (i_ty T)) (all_factors all same) ->
    room (all_gains all same same) <= imax (i_ty T) -> room_frac (all_factors all same) <= imax (i_ty T) ->
    z_ok T (sum (all_gains all same same) * over (all_factors all same)) ->
    ~ round_overflows R (i_ty T) (sum (all_gains all same same) * over (all_factors all same)) (under (all_factors all same)) ->
    exists y, rounds_to R (sum (all_gains all same same) * over (all_factors all same)) (under (all_factors all same)) y /\
      forall n, exists r, fst (run (client (g_querier g) (S n) (p_query_eval e x s)) (after (g_querier g) past [])) = Done (Some r) /\
        result_as E r = bounded (i_ty T) (all_floors all same) (all_ceilings all same) y.
  Proof.
    intros C D OQ Hq g e ch x s past oc T R E U F He . destruct (eval_done C D OQ Hq _ g e ch x s past E U F He) as (sel & H1 & H2 & H3).
    exists sel. split; [exact H1|]. intros all. fold all in H2, H3.
    intros K0 K1 K2 K3 K4 K5 K6. destruct (C58_StatIntFraction_fits_proof oc T R (together all)) as (y & Y & W); [unfold scales, floors, ceilings, gains, factors, all_scales, all_floors, all_ceilings, all_gains, all_factors, all, stories in *; cbn [map] in *; rewrite ?gathered_together in *; try assumption; try (apply steady_together; assumption) ..|].
    exists y. split; [unfold scales, floors, ceilings, gains, factors, all_scales, all_floors, all_ceilings, all_gains, all_factors, all, stories in *; cbn [map] in *; rewrite ?gathered_together in *; exact Y|]. intros n. apply H2. rewrite W. unfold scales, floors, ceilings, gains, factors, all_scales, all_floors, all_ceilings, all_gains, all_factors, all, stories in *; cbn [map] in *; rewrite ?gathered_together in *. reflexivity.
  Qed.

  Lemma C65_StatIntPercent_proof : bs_contract bs -> distinct_vtables P -> lawful_ord (q_cmp Q) -> flags_eq (Q := Q) ->
    forall (g : game P Q) e ch x s past t R scale z (E : VS s = statPct true (prim t) R scale),
    set_up bs o_size o_align g -> fits s -> w_entities (j_world (g_querier g)) e = Some ch -> from_i64 t scale = Done z -> 0 < z ->
    exists sel, Forall2 (chosen s x) (logs_for g e (or_nil ch)) sel /\
    let all := map (seen_as E) (stories g s sel) in
    Forall (ity_ok t) (all_gains all same same) -> Forall (ity_ok t) (all_factors all same) ->
    let q := all_rates (S := statPct true (prim t) R scale) (out_of z) all in
    forall n r, fst (run (client (g_querier g) (S n) (p_query_eval e x s)) (after (g_querier g) past [])) = Done (Some r) ->
        exists y, rounds_to R ((all_unbased all + sum (all_gains all same same)) * Qnum q) (QDen q) y /\
          result_as E r = bounded t (all_floors all same) (all_ceilings all same) y.
  Proof.
    intros C D OQ Hq g e ch x s past t R scale z E U F He Pz0 Pz1. destruct (eval_done C D OQ Hq _ g e ch x s past E U F He) as (sel & H1 & H2 & H3).
    exists sel. split; [exact H1|]. intros all. fold all in H2, H3.
    intros K0 K1 q n r Hr. apply H3 in Hr. assert (G : Forall (ity_ok t) (gains (together all) same same) /\ Forall (ity_ok t) (factors (together all) same)) by (split; unfold scales, floors, ceilings, gains, factors, all_scales, all_floors, all_ceilings, all_gains, all_factors, all, stories in *; cbn [map] in *; rewrite ?gathered_together in *; assumption).
    destruct (C58_StatIntPercent_proof t R scale z (together all) (result_as E r) Pz0 Pz1 (proj1 G) (proj2 G) Hr) as (y & Y & W).
    exists y. split; [|rewrite W; unfold scales, floors, ceilings, gains, factors, all_scales, all_floors, all_ceilings, all_gains, all_factors, all, stories in *; cbn [map] in *; rewrite ?gathered_together in *; reflexivity].
    apply (C58_rate_any_form_proof R _ (rate (S := statPct true (prim t) R scale) (out_of z) (together all))).
    - unfold q, all, stories. cbn [map]. apply rate_together.
    - unfold all, stories in *. cbn [map] in *. rewrite unbased_together in Y. unfold all_gains. unfold gains in *. rewrite gathered_together in Y. exact Y.
  Qed.

  Lemma C65_StatFloat_proof : bs_contract bs -> distinct_vtables P -> lawful_ord (q_cmp Q) -> flags_eq (Q := Q) ->
    forall (g : game P Q) e ch x s past prec emax Hp He (E : VS s = statFloat (binF prec emax Hp He)),
    set_up bs o_size o_align g -> fits s -> w_entities (j_world (g_querier g)) e = Some ch -> 
    exists sel, Forall2 (chosen s x) (logs_for g e (or_nil ch)) sel /\
    let all := map (seen_as E) (stories g s sel) in
    summable (all_gains all same same) -> multipliable (all_factors all same) ->
    forall n, exists r a m, fst (run (client (g_querier g) (S n) (p_query_eval e x s)) (after (g_querier g) past [])) = Done (Some r) /\
        near_total (all_gains all same same) a /\ near_product (all_factors all same) m /\
        ext (result_as E r) = clamped (all_floors all same) (all_ceilings all same) (nearest prec emax (a * m)).
  Proof.
    intros C D OQ Hq g e ch x s past prec emax Hp Hx E U F He . destruct (eval_done C D OQ Hq _ g e ch x s past E U F He) as (sel & H1 & H2 & H3).
    exists sel. split; [exact H1|]. intros all. fold all in H2, H3.
    intros K0 K1 n. destruct (C59_StatFloat_proof prec emax Hp Hx (together all)) as (w & a & m & W & N1 & N2 & Y); [unfold scales, floors, ceilings, gains, factors, all_scales, all_floors, all_ceilings, all_gains, all_factors, all, stories in *; cbn [map] in *; rewrite ?gathered_together in *; assumption ..|].
    destruct (H2 n w W) as (r & Hr & Er). exists r, a, m. split; [exact Hr|]. pose proof (f_equal (fun r => ext r) Er) as Ee. cbv beta in Ee. unfold scales, floors, ceilings, gains, factors, all_scales, all_floors, all_ceilings, all_gains, all_factors, all, stories in *; cbn [map] in *; rewrite ?gathered_together in *. rewrite ?Ee. repeat split; assumption.
  Qed.

  Lemma C65_StatFloat_exact_proof : bs_contract bs -> distinct_vtables P -> lawful_ord (q_cmp Q) -> flags_eq (Q := Q) ->
    forall (g : game P Q) e ch x s past prec emax Hp He z (E : VS s = statFloat (binF prec emax Hp He)),
    set_up bs o_size o_align g -> fits s -> w_entities (j_world (g_querier g)) e = Some ch -> 
    exists sel, Forall2 (chosen s x) (logs_for g e (or_nil ch)) sel /\
    let all := map (seen_as E) (stories g s sel) in
    on_grid z (all_gains all same same) -> short (all_factors all same) ->
    forall n, exists r, fst (run (client (g_querier g) (S n) (p_query_eval e x s)) (after (g_querier g) past [])) = Done (Some r) /\
        ext (result_as E r) = clamped (all_floors all same) (all_ceilings all same) (nearest prec emax (total (all_gains all same same) * outcome_of (all_factors all same))).
  Proof.
    intros C D OQ Hq g e ch x s past prec emax Hp Hx z E U F He . destruct (eval_done C D OQ Hq _ g e ch x s past E U F He) as (sel & H1 & H2 & H3).
    exists sel. split; [exact H1|]. intros all. fold all in H2, H3.
    intros K0 K1 n. destruct (C59_StatFloat_exact_proof prec emax Hp Hx z (together all)) as (w & W & Y); [unfold scales, floors, ceilings, gains, factors, all_scales, all_floors, all_ceilings, all_gains, all_factors, all, stories in *; cbn [map] in *; rewrite ?gathered_together in *; assumption ..|].
    destruct (H2 n w W) as (r & Hr & Er). exists r. split; [exact Hr|]. pose proof (f_equal (fun r => ext r) Er) as Ee. cbv beta in Ee. unfold scales, floors, ceilings, gains, factors, all_scales, all_floors, all_ceilings, all_gains, all_factors, all, stories in *; cbn [map] in *; rewrite ?gathered_together in *. rewrite ?Ee. repeat split; assumption.
  Qed.

  Lemma C65_StatFloatAdditive_proof : bs_contract bs -> distinct_vtables P -> lawful_ord (q_cmp Q) -> flags_eq (Q := Q) ->
    forall (g : game P Q) e ch x s past prec emax Hp He (E : VS s = statFloatAdditive (binF prec emax Hp He)),
    set_up bs o_size o_align g -> fits s -> w_entities (j_world (g_querier g)) e = Some ch -> 
    exists sel, Forall2 (chosen s x) (logs_for g e (or_nil ch)) sel /\
    let all := map (seen_as E) (stories g s sel) in
    summable (all_gains all same same) -> summable (all_factors all same) ->
    forall n, exists r a m, fst (run (client (g_querier g) (S n) (p_query_eval e x s)) (after (g_querier g) past [])) = Done (Some r) /\
        near_total (all_gains all same same) a /\ near_total (all_factors all same) m /\
        ext (result_as E r) = clamped (all_floors all same) (all_ceilings all same) (nearest prec emax (a * nearest prec emax (m + 1))).
  Proof.
    intros C D OQ Hq g e ch x s past prec emax Hp Hx E U F He . destruct (eval_done C D OQ Hq _ g e ch x s past E U F He) as (sel & H1 & H2 & H3).
    exists sel. split; [exact H1|]. intros all. fold all in H2, H3.
    intros K0 K1 n. destruct (C59_StatFloatAdditive_proof prec emax Hp Hx (together all)) as (w & a & m & W & N1 & N2 & Y); [unfold scales, floors, ceilings, gains, factors, all_scales, all_floors, all_ceilings, all_gains, all_factors, all, stories in *; cbn [map] in *; rewrite ?gathered_together in *; assumption ..|].
    destruct (H2 n w W) as (r & Hr & Er). exists r, a, m. split; [exact Hr|]. pose proof (f_equal (fun r => ext r) Er) as Ee. cbv beta in Ee. unfold scales, floors, ceilings, gains, factors, all_scales, all_floors, all_ceilings, all_gains, all_factors, all, stories in *; cbn [map] in *; rewrite ?gathered_together in *. rewrite ?Ee. repeat split; assumption.
  Qed.

  Lemma C65_StatFloatAdditive_exact_proof : bs_contract bs -> distinct_vtables P -> lawful_ord (q_cmp Q) -> flags_eq (Q := Q) ->
    forall (g : game P Q) e ch x s past prec emax Hp He z z' (E : VS s = statFloatAdditive (binF prec emax Hp He)),
    set_up bs o_size o_align g -> fits s -> w_entities (j_world (g_querier g)) e = Some ch -> 
    exists sel, Forall2 (chosen s x) (logs_for g e (or_nil ch)) sel /\
    let all := map (seen_as E) (stories g s sel) in
    on_grid z (all_gains all same same) -> on_grid z' (b_one prec emax Hp He :: all_factors all same) ->
    forall n, exists r, fst (run (client (g_querier g) (S n) (p_query_eval e x s)) (after (g_querier g) past [])) = Done (Some r) /\
        ext (result_as E r) = clamped (all_floors all same) (all_ceilings all same) (nearest prec emax (total (all_gains all same same) * (1 + total (all_factors all same)))).
  Proof.
    intros C D OQ Hq g e ch x s past prec emax Hp Hx z z' E U F He . destruct (eval_done C D OQ Hq _ g e ch x s past E U F He) as (sel & H1 & H2 & H3).
    exists sel. split; [exact H1|]. intros all. fold all in H2, H3.
    intros K0 K1 n. destruct (C59_StatFloatAdditive_exact_proof prec emax Hp Hx z z' (together all)) as (w & W & Y); [unfold scales, floors, ceilings, gains, factors, all_scales, all_floors, all_ceilings, all_gains, all_factors, all, stories in *; cbn [map] in *; rewrite ?gathered_together in *; assumption ..|].
    destruct (H2 n w W) as (r & Hr & Er). exists r. split; [exact Hr|]. pose proof (f_equal (fun r => ext r) Er) as Ee. cbv beta in Ee. unfold scales, floors, ceilings, gains, factors, all_scales, all_floors, all_ceilings, all_gains, all_factors, all, stories in *; cbn [map] in *; rewrite ?gathered_together in *. rewrite ?Ee. repeat split; assumption.
  Qed.

  Lemma C65_StatMult_proof : bs_contract bs -> distinct_vtables P -> lawful_ord (q_cmp Q) -> flags_eq (Q := Q) ->
    forall (g : game P Q) e ch x s past prec emax Hp He (E : VS s = statMult (binF prec emax Hp He)),
    set_up bs o_size o_align g -> fits s -> w_entities (j_world (g_querier g)) e = Some ch -> 
    exists sel, Forall2 (chosen s x) (logs_for g e (or_nil ch)) sel /\
    let all := map (seen_as E) (stories g s sel) in
    multipliable (all_scales all same same) ->
    forall n, exists r m, fst (run (client (g_querier g) (S n) (p_query_eval e x s)) (after (g_querier g) past [])) = Done (Some r) /\ near_product (all_scales all same same) m /\
        ext (result_as E r) = clamped (all_floors all same) (all_ceilings all same) m.
  Proof.
    intros C D OQ Hq g e ch x s past prec emax Hp Hx E U F He . destruct (eval_done C D OQ Hq _ g e ch x s past E U F He) as (sel & H1 & H2 & H3).
    exists sel. split; [exact H1|]. intros all. fold all in H2, H3.
    intros K0 n. destruct (C59_StatMult_proof prec emax Hp Hx (together all)) as (w & m & W & N1 & Y); [unfold scales, floors, ceilings, gains, factors, all_scales, all_floors, all_ceilings, all_gains, all_factors, all, stories in *; cbn [map] in *; rewrite ?gathered_together in *; assumption ..|].
    destruct (H2 n w W) as (r & Hr & Er). exists r, m. split; [exact Hr|]. pose proof (f_equal (fun r => ext r) Er) as Ee. cbv beta in Ee. unfold scales, floors, ceilings, gains, factors, all_scales, all_floors, all_ceilings, all_gains, all_factors, all, stories in *; cbn [map] in *; rewrite ?gathered_together in *. rewrite ?Ee. repeat split; assumption.
  Qed.

  Lemma C65_StatMult_exact_proof : bs_contract bs -> distinct_vtables P -> lawful_ord (q_cmp Q) -> flags_eq (Q := Q) ->
    forall (g : game P Q) e ch x s past prec emax Hp He (E : VS s = statMult (binF prec emax Hp He)),
    set_up bs o_size o_align g -> fits s -> w_entities (j_world (g_querier g)) e = Some ch -> 
    exists sel, Forall2 (chosen s x) (logs_for g e (or_nil ch)) sel /\
    let all := map (seen_as E) (stories g s sel) in
    short (all_scales all same same) ->
    forall n, exists r, fst (run (client (g_querier g) (S n) (p_query_eval e x s)) (after (g_querier g) past [])) = Done (Some r) /\
        ext (result_as E r) = clamped (all_floors all same) (all_ceilings all same) (outcome_of (all_scales all same same)).
  Proof.
    intros C D OQ Hq g e ch x s past prec emax Hp Hx E U F He . destruct (eval_done C D OQ Hq _ g e ch x s past E U F He) as (sel & H1 & H2 & H3).
    exists sel. split; [exact H1|]. intros all. fold all in H2, H3.
    intros K0 n. destruct (C59_StatMult_exact_proof prec emax Hp Hx (together all)) as (w & W & Y); [unfold scales, floors, ceilings, gains, factors, all_scales, all_floors, all_ceilings, all_gains, all_factors, all, stories in *; cbn [map] in *; rewrite ?gathered_together in *; assumption ..|].
    destruct (H2 n w W) as (r & Hr & Er). exists r. split; [exact Hr|]. pose proof (f_equal (fun r => ext r) Er) as Ee. cbv beta in Ee. unfold scales, floors, ceilings, gains, factors, all_scales, all_floors, all_ceilings, all_gains, all_factors, all, stories in *; cbn [map] in *; rewrite ?gathered_together in *. rewrite ?Ee. repeat split; assumption.
  Qed.

  Lemma C65_StatIntFloatMul_fits_proof : bs_contract bs -> distinct_vtables P -> lawful_ord (q_cmp Q) -> flags_eq (Q := Q) ->
    forall (g : game P Q) e ch x s past prec emax Hp He oc t R (E : VS s = statIntFloatMul prec emax Hp He oc t R),
    set_up bs o_size o_align g -> fits s -> w_entities (j_world (g_querier g)) e = Some ch -> 
    exists sel, Forall2 (chosen s x) (logs_for g e (or_nil ch)) sel /\
    let all := map (seen_as E) (stories g s sel) in
    Forall steady all -> Forall (ity_ok t) (all_gains all same same) -> room (all_gains all same same) <= imax t ->
    ~ too_large emax (nearest prec emax (IZR (sum (all_gains all same same)))) -> multipliable (all_factors all same) ->
    exists m k, near_product (all_factors all same) (B2R m) /\ is_finite m = true /\ product_int prec emax t R (sum (all_gains all same same)) m k /\
      forall n, exists r, fst (run (client (g_querier g) (S n) (p_query_eval e x s)) (after (g_querier g) past [])) = Done (Some r) /\
        result_as E r = bounded t (all_floors all same) (all_ceilings all same) k.
  Proof.
    intros C D OQ Hq g e ch x s past prec emax Hp Hx oc t R E U F He . destruct (eval_done C D OQ Hq _ g e ch x s past E U F He) as (sel & H1 & H2 & H3).
    exists sel. split; [exact H1|]. intros all. fold all in H2, H3.
    intros K0 K1 K2 K3 K4. destruct (C59_StatIntFloatMul_fits_proof prec emax Hp Hx oc t R (together all)) as (m & k & N & Fm & Pm & W); [unfold scales, floors, ceilings, gains, factors, all_scales, all_floors, all_ceilings, all_gains, all_factors, all, stories in *; cbn [map] in *; rewrite ?gathered_together in *; try assumption; try (apply steady_together; assumption) ..|].
    exists m, k. split; [unfold scales, floors, ceilings, gains, factors, all_scales, all_floors, all_ceilings, all_gains, all_factors, all, stories in *; cbn [map] in *; rewrite ?gathered_together in *; exact N|]. split; [exact Fm|]. split; [unfold scales, floors, ceilings, gains, factors, all_scales, all_floors, all_ceilings, all_gains, all_factors, all, stories in *; cbn [map] in *; rewrite ?gathered_together in *; exact Pm|]. intros n. apply H2. rewrite W. unfold scales, floors, ceilings, gains, factors, all_scales, all_floors, all_ceilings, all_gains, all_factors, all, stories in *; cbn [map] in *; rewrite ?gathered_together in *. reflexivity.
  Qed.

  Lemma C65_StatIntFloatMul_exact_proof : bs_contract bs -> distinct_vtables P -> lawful_ord (q_cmp Q) -> flags_eq (Q := Q) ->
    forall (g : game P Q) e ch x s past prec emax Hp He oc t R (E : VS s = statIntFloatMul prec emax Hp He oc t R),
    set_up bs o_size o_align g -> fits s -> w_entities (j_world (g_querier g)) e = Some ch -> 
    exists sel, Forall2 (chosen s x) (logs_for g e (or_nil ch)) sel /\
    let all := map (seen_as E) (stories g s sel) in
    Forall steady all -> Forall (ity_ok t) (all_gains all same same) -> room (all_gains all same same) <= imax t ->
    Z.abs (sum (all_gains all same same)) <= 2 ^ prec -> short (all_factors all same) ->
    let p := nearest prec emax (IZR (sum (all_gains all same same)) * outcome_of (all_factors all same)) in
    ~ too_large emax p ->
    exists k, real_rounds_to R p k /\
      forall n, exists r, fst (run (client (g_querier g) (S n) (p_query_eval e x s)) (after (g_querier g) past [])) = Done (Some r) /\
        result_as E r = bounded t (all_floors all same) (all_ceilings all same) (sat t k).
  Proof.
    intros C D OQ Hq g e ch x s past prec emax Hp Hx oc t R E U F He . destruct (eval_done C D OQ Hq _ g e ch x s past E U F He) as (sel & H1 & H2 & H3).
    exists sel. split; [exact H1|]. intros all. fold all in H2, H3.
    intros K0 K1 K2 K3 K4 p Np. destruct (C59_StatIntFloatMul_exact_proof prec emax Hp Hx oc t R (together all)) as (k & N & W); [unfold scales, floors, ceilings, gains, factors, all_scales, all_floors, all_ceilings, all_gains, all_factors, all, stories in *; cbn [map] in *; rewrite ?gathered_together in *; try assumption; try (apply steady_together; assumption) ..|].
    exists k. split; [unfold p; unfold scales, floors, ceilings, gains, factors, all_scales, all_floors, all_ceilings, all_gains, all_factors, all, stories in *; cbn [map] in *; rewrite ?gathered_together in *; exact N|]. intros n. apply H2. rewrite W. unfold scales, floors, ceilings, gains, factors, all_scales, all_floors, all_ceilings, all_gains, all_factors, all, stories in *; cbn [map] in *; rewrite ?gathered_together in *. reflexivity.
  Qed.
End Claims.
