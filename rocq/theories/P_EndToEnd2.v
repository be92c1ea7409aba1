(** C65, continued: what a query over entities carrying maps is worth, for the other types. *)
From Coq Require Import ZArith QArith Reals Lia List Sorted.
From Flocq Require Import Core BinarySingleNaN.
From Verif Require Import S_Types L_Ints.
From Verif Require Import M_Outcome M_Ints M_Ratio M_Float M_Value M_Types M_Qualifier M_Search M_Stat M_StatMap M_HashMap M_Pair M_Defaults M_Querier
  S_Ratio S_Float S_Search S_StatMap S_Querier S_Totals S_FloatTotals S_PctTotals S_EndToEnd S_Demo S_DemoGame S_DemoGame2
  L_DemoGame L_EndToEnd3.
Import ListNotations.
Local Open Scope Z_scope.

(** [StatInt] with wrapping arithmetic: always, modulo 2^bits. *)
Theorem C65_StatInt_wrapping :
  forall (P : Prog) (Q : QFlag) (bs : list comparison -> bsres) (o_size o_align : vty P -> Z),
  bs_contract bs -> distinct_vtables P -> lawful_ord (q_cmp Q) -> flags_eq (Q := Q) ->
  forall (g : game P Q) e ch x s past oc T (E : VT P (vt_value P (si_ty s)) = statInt oc T),
  set_up bs o_size o_align g -> fits s -> w_entities (j_world (g_querier g)) e = Some ch -> i_flav T = FWrapping \/ (i_flav T = FPrim /\ oc = false) ->
  exists sel, Forall2 (chosen s x) (logs_for g e (or_nil ch)) sel /\
  let all := map (seen_as E) (stories g s sel) in
  forall n, exists r, fst (run (client (g_querier g) (S n) (p_query_eval e x s)) (after (g_querier g) past [])) = Done (Some r) /\
      result_as E r = bounded (i_ty T) (all_floors all same) (all_ceilings all same) (wrap (i_ty T) (sum (all_gains all same same) * product (all_factors all same))).
Proof. exact C65_StatInt_wrapping_proof. Qed.
Print Assumptions C65_StatInt_wrapping.
(** 107 * 3 = 321 = 65 modulo 256. *)
Example C65_StatInt_wrapping_case :
  set_up bs_new (fun _ => 24) (fun _ => 8) (solo_game WI wi_logs) /\ all_gains (solo_all WI wi_logs) same same = [100; 7] /\ all_factors (solo_all WI wi_logs) same = [3] /\
  solo_eval WI wi_logs = Done (Some (bounded I8 [] [] (wrap I8 (107 * 3)))) /\ wrap I8 (107 * 3) = 65.
Proof. split; [apply solo_set_up; [repeat constructor|vm_compute; reflexivity]|]. repeat split; vm_compute; reflexivity. Qed.
(** [StatIntPercentAdditive] and [StatIntFraction] with room for all contributions: in every build and for every flavour. *)
Theorem C65_StatIntPercentAdditive_fits :
  forall (P : Prog) (Q : QFlag) (bs : list comparison -> bsres) (o_size o_align : vty P -> Z),
  bs_contract bs -> distinct_vtables P -> lawful_ord (q_cmp Q) -> flags_eq (Q := Q) ->
  forall (g : game P Q) e ch x s past oc T R scale z (E : VT P (vt_value P (si_ty s)) = statPctAdd oc T R scale),
  set_up bs o_size o_align g -> fits s -> w_entities (j_world (g_querier g)) e = Some ch -> from_i64 (i_ty T) scale = Done z -> 0 < z ->
  exists sel, Forall2 (chosen s x) (logs_for g e (or_nil ch)) sel /\
  let all := map (seen_as E) (stories g s sel) in
  Forall steady all -> Forall (z_ok T) (all_gains all same same) -> Forall (z_ok T) (all_factors all same) ->
  room (all_gains all same same) <= imax (i_ty T) -> room (all_factors all same) <= imax (i_ty T) ->
  z_ok T (z + sum (all_factors all same)) -> z_ok T (sum (all_gains all same same) * (z + sum (all_factors all same))) ->
  ~ round_overflows R (i_ty T) (sum (all_gains all same same) * (z + sum (all_factors all same))) z ->
  exists y, rounds_to R (sum (all_gains all same same) * (z + sum (all_factors all same))) z y /\
    forall n, exists r, fst (run (client (g_querier g) (S n) (p_query_eval e x s)) (after (g_querier g) past [])) = Done (Some r) /\
      result_as E r = bounded (i_ty T) (all_floors all same) (all_ceilings all same) y.
Proof. exact C65_StatIntPercentAdditive_fits_proof. Qed.
Print Assumptions C65_StatIntPercentAdditive_fits.
(** (35 + 10) * (100% + 30% - 5%) = 56.25 *)
Example C65_StatIntPercentAdditive_fits_case :
  set_up bs_new (fun _ => 24) (fun _ => 8) (solo_game PA pa_logs) /\ Forall steady (solo_all PA pa_logs) /\
  all_gains (solo_all PA pa_logs) same same = [35; 10] /\ all_factors (solo_all PA pa_logs) same = [30; -5] /\ all_ceilings (solo_all PA pa_logs) same = [60] /\
  room [35; 10] <= imax I32 /\ room [30; -5] <= imax I32 /\ ~ round_overflows Round I32 (sum [35; 10] * (100 + sum [30; -5])) 100 /\
  rounds_to Round (sum [35; 10] * (100 + sum [30; -5])) 100 56 /\ solo_eval PA pa_logs = Done (Some (bounded I32 [] [60] 56)).
Proof. split; [apply solo_set_up; [repeat constructor|vm_compute; reflexivity]|]. split; [repeat constructor|]. repeat split; try (vm_compute; reflexivity); cbn; try lia. Qed.
Theorem C65_StatIntFraction_fits :
  forall (P : Prog) (Q : QFlag) (bs : list comparison -> bsres) (o_size o_align : vty P -> Z),
  bs_contract bs -> distinct_vtables P -> lawful_ord (q_cmp Q) -> flags_eq (Q := Q) ->
  forall (g : game P Q) e ch x s past oc T R (E : VT P (vt_value P (si_ty s)) = statIntFraction oc T R),
  set_up bs o_size o_align g -> fits s -> w_entities (j_world (g_querier g)) e = Some ch -> 
  exists sel, Forall2 (chosen s x) (logs_for g e (or_nil ch)) sel /\
  let all := map (seen_as E) (stories g s sel) in
  Forall steady all -> Forall (z_ok T) (all_gains all same same) -> Forall (reduced (i_ty T)) (all_factors all same) ->
  room (all_gains all same same) <= imax (i_ty T) -> room_frac (all_factors all same) <= imax (i_ty T) ->
  z_ok T (sum (all_gains all same same) * over (all_factors all same)) ->
  ~ round_overflows R (i_ty T) (sum (all_gains all same same) * over (all_factors all same)) (under (all_factors all same)) ->
  exists y, rounds_to R (sum (all_gains all same same) * over (all_factors all same)) (under (all_factors all same)) y /\
    forall n, exists r, fst (run (client (g_querier g) (S n) (p_query_eval e x s)) (after (g_querier g) past [])) = Done (Some r) /\
      result_as E r = bounded (i_ty T) (all_floors all same) (all_ceilings all same) y.
Proof. exact C65_StatIntFraction_fits_proof. Qed.
Print Assumptions C65_StatIntFraction_fits.
(** (7 - 2) * (2/3 * 7/2) = 11 2/3 *)
Example C65_StatIntFraction_fits_case :
  set_up bs_new (fun _ => 24) (fun _ => 8) (solo_game FR fr_logs) /\ Forall steady (solo_all FR fr_logs) /\
  all_gains (solo_all FR fr_logs) same same = [7; -2] /\ all_factors (solo_all FR fr_logs) same = [Frac 2 3; Frac 7 2] /\
  room [7; -2] <= imax I32 /\ room_frac [Frac 2 3; Frac 7 2] <= imax I32 /\ ~ round_overflows Truncate I32 (sum [7; -2] * over [Frac 2 3; Frac 7 2]) (under [Frac 2 3; Frac 7 2]) /\
  rounds_to Truncate (5 * 14) 6 11 /\ solo_eval FR fr_logs = Done (Some 11).
Proof. split; [apply solo_set_up; [repeat constructor|vm_compute; reflexivity]|]. split; [repeat constructor|]. repeat split; try (vm_compute; reflexivity); cbn; try lia. Qed.
(** [StatIntPercent]: the percentages of one value multiply, those of different values are added; a
    value that was not given a base, the starting value to begin with, brings 1. *)
Theorem C65_StatIntPercent :
  forall (P : Prog) (Q : QFlag) (bs : list comparison -> bsres) (o_size o_align : vty P -> Z),
  bs_contract bs -> distinct_vtables P -> lawful_ord (q_cmp Q) -> flags_eq (Q := Q) ->
  forall (g : game P Q) e ch x s past t R scale z (E : VT P (vt_value P (si_ty s)) = statPct true (prim t) R scale),
  set_up bs o_size o_align g -> fits s -> w_entities (j_world (g_querier g)) e = Some ch -> from_i64 t scale = Done z -> 0 < z ->
  exists sel, Forall2 (chosen s x) (logs_for g e (or_nil ch)) sel /\
  let all := map (seen_as E) (stories g s sel) in
  Forall (ity_ok t) (all_gains all same same) -> Forall (ity_ok t) (all_factors all same) ->
  let q := all_rates (S := statPct true (prim t) R scale) (out_of z) all in
  forall n r, fst (run (client (g_querier g) (S n) (p_query_eval e x s)) (after (g_querier g) past [])) = Done (Some r) ->
      exists y, rounds_to R ((all_unbased all + sum (all_gains all same same)) * Qnum q) (QDen q) y /\
        result_as E r = bounded t (all_floors all same) (all_ceilings all same) y.
Proof. exact C65_StatIntPercent_proof. Qed.
Print Assumptions C65_StatIntPercent.
(** (1 + 40 + 1 + 5) * (1 + 150% + 50%) = 141: the starting value and the second map bring 1 each. *)
Example C65_StatIntPercent_case :
  set_up bs_new (fun _ => 24) (fun _ => 8) (solo_game PM pm_logs) /\ all_gains (solo_all PM pm_logs) same same = [40; 5] /\ all_factors (solo_all PM pm_logs) same = [150; 50] /\
  all_unbased (solo_all PM pm_logs) = 2 /\ (all_rates (S := PM) (out_of 100) (solo_all PM pm_logs) == 3)%Q /\
  solo_eval PM pm_logs = Done (Some (bounded I32 [] [200] ((2 + 45) * 3))).
Proof. split; [apply solo_set_up; [repeat constructor|vm_compute; reflexivity]|]. repeat split; vm_compute; reflexivity. Qed.
(** Floats: one unit in the last place per contribution, or exact. *)
Theorem C65_StatFloat :
  forall (P : Prog) (Q : QFlag) (bs : list comparison -> bsres) (o_size o_align : vty P -> Z),
  bs_contract bs -> distinct_vtables P -> lawful_ord (q_cmp Q) -> flags_eq (Q := Q) ->
  forall (g : game P Q) e ch x s past prec emax Hp He (E : VT P (vt_value P (si_ty s)) = statFloat (binF prec emax Hp He)),
  set_up bs o_size o_align g -> fits s -> w_entities (j_world (g_querier g)) e = Some ch -> 
  exists sel, Forall2 (chosen s x) (logs_for g e (or_nil ch)) sel /\
  let all := map (seen_as E) (stories g s sel) in
  summable (all_gains all same same) -> multipliable (all_factors all same) ->
  forall n, exists r a m, fst (run (client (g_querier g) (S n) (p_query_eval e x s)) (after (g_querier g) past [])) = Done (Some r) /\
      near_total (all_gains all same same) a /\ near_product (all_factors all same) m /\
      ext (result_as E r) = clamped (all_floors all same) (all_ceilings all same) (nearest prec emax (a * m)).
Proof. exact C65_StatFloat_proof. Qed.
Print Assumptions C65_StatFloat.
Theorem C65_StatFloat_exact :
  forall (P : Prog) (Q : QFlag) (bs : list comparison -> bsres) (o_size o_align : vty P -> Z),
  bs_contract bs -> distinct_vtables P -> lawful_ord (q_cmp Q) -> flags_eq (Q := Q) ->
  forall (g : game P Q) e ch x s past prec emax Hp He z (E : VT P (vt_value P (si_ty s)) = statFloat (binF prec emax Hp He)),
  set_up bs o_size o_align g -> fits s -> w_entities (j_world (g_querier g)) e = Some ch -> 
  exists sel, Forall2 (chosen s x) (logs_for g e (or_nil ch)) sel /\
  let all := map (seen_as E) (stories g s sel) in
  on_grid z (all_gains all same same) -> short (all_factors all same) ->
  forall n, exists r, fst (run (client (g_querier g) (S n) (p_query_eval e x s)) (after (g_querier g) past [])) = Done (Some r) /\
      ext (result_as E r) = clamped (all_floors all same) (all_ceilings all same) (nearest prec emax (total (all_gains all same same) * outcome_of (all_factors all same))).
Proof. exact C65_StatFloat_exact_proof. Qed.
Print Assumptions C65_StatFloat_exact.
(** (10 + 5) * 1.5, at most 22; the hypotheses: C59_StatFloat_case. *)
Example C65_StatFloat_case :
  set_up bs_new (fun _ => 24) (fun _ => 8) (solo_game FL fl_logs) /\ all_gains (solo_all FL fl_logs) same same = [f32_int 10; f32_int 5] /\ all_factors (solo_all FL fl_logs) same = [f32_half 3] /\
  fl_seen = Some (B2SF (f32_int 22)).
Proof. split; [apply solo_set_up; [repeat constructor|vm_compute; reflexivity]|]. repeat split; vm_compute; reflexivity. Qed.
Theorem C65_StatFloatAdditive :
  forall (P : Prog) (Q : QFlag) (bs : list comparison -> bsres) (o_size o_align : vty P -> Z),
  bs_contract bs -> distinct_vtables P -> lawful_ord (q_cmp Q) -> flags_eq (Q := Q) ->
  forall (g : game P Q) e ch x s past prec emax Hp He (E : VT P (vt_value P (si_ty s)) = statFloatAdditive (binF prec emax Hp He)),
  set_up bs o_size o_align g -> fits s -> w_entities (j_world (g_querier g)) e = Some ch -> 
  exists sel, Forall2 (chosen s x) (logs_for g e (or_nil ch)) sel /\
  let all := map (seen_as E) (stories g s sel) in
  summable (all_gains all same same) -> summable (all_factors all same) ->
  forall n, exists r a m, fst (run (client (g_querier g) (S n) (p_query_eval e x s)) (after (g_querier g) past [])) = Done (Some r) /\
      near_total (all_gains all same same) a /\ near_total (all_factors all same) m /\
      ext (result_as E r) = clamped (all_floors all same) (all_ceilings all same) (nearest prec emax (a * nearest prec emax (m + 1))).
Proof. exact C65_StatFloatAdditive_proof. Qed.
Print Assumptions C65_StatFloatAdditive.
Theorem C65_StatFloatAdditive_exact :
  forall (P : Prog) (Q : QFlag) (bs : list comparison -> bsres) (o_size o_align : vty P -> Z),
  bs_contract bs -> distinct_vtables P -> lawful_ord (q_cmp Q) -> flags_eq (Q := Q) ->
  forall (g : game P Q) e ch x s past prec emax Hp He z z' (E : VT P (vt_value P (si_ty s)) = statFloatAdditive (binF prec emax Hp He)),
  set_up bs o_size o_align g -> fits s -> w_entities (j_world (g_querier g)) e = Some ch -> 
  exists sel, Forall2 (chosen s x) (logs_for g e (or_nil ch)) sel /\
  let all := map (seen_as E) (stories g s sel) in
  on_grid z (all_gains all same same) -> on_grid z' (b_one prec emax Hp He :: all_factors all same) ->
  forall n, exists r, fst (run (client (g_querier g) (S n) (p_query_eval e x s)) (after (g_querier g) past [])) = Done (Some r) /\
      ext (result_as E r) = clamped (all_floors all same) (all_ceilings all same) (nearest prec emax (total (all_gains all same same) * (1 + total (all_factors all same)))).
Proof. exact C65_StatFloatAdditive_exact_proof. Qed.
Print Assumptions C65_StatFloatAdditive_exact.
(** 10 * (1 + (0.5 - 1)), at least 3; the hypotheses: C59_StatFloatAdditive_case. *)
Example C65_StatFloatAdditive_case :
  set_up bs_new (fun _ => 24) (fun _ => 8) (solo_game FA fa_logs) /\ all_gains (solo_all FA fa_logs) same same = [f32_int 10] /\ all_factors (solo_all FA fa_logs) same = [f32_half 1; f32_int (-1)] /\
  fa_seen = Some (B2SF (f32_int 5)).
Proof. split; [apply solo_set_up; [repeat constructor|vm_compute; reflexivity]|]. repeat split; vm_compute; reflexivity. Qed.
Theorem C65_StatMult :
  forall (P : Prog) (Q : QFlag) (bs : list comparison -> bsres) (o_size o_align : vty P -> Z),
  bs_contract bs -> distinct_vtables P -> lawful_ord (q_cmp Q) -> flags_eq (Q := Q) ->
  forall (g : game P Q) e ch x s past prec emax Hp He (E : VT P (vt_value P (si_ty s)) = statMult (binF prec emax Hp He)),
  set_up bs o_size o_align g -> fits s -> w_entities (j_world (g_querier g)) e = Some ch -> 
  exists sel, Forall2 (chosen s x) (logs_for g e (or_nil ch)) sel /\
  let all := map (seen_as E) (stories g s sel) in
  multipliable (all_scales all same same) ->
  forall n, exists r m, fst (run (client (g_querier g) (S n) (p_query_eval e x s)) (after (g_querier g) past [])) = Done (Some r) /\ near_product (all_scales all same same) m /\
      ext (result_as E r) = clamped (all_floors all same) (all_ceilings all same) m.
Proof. exact C65_StatMult_proof. Qed.
Print Assumptions C65_StatMult.
Theorem C65_StatMult_exact :
  forall (P : Prog) (Q : QFlag) (bs : list comparison -> bsres) (o_size o_align : vty P -> Z),
  bs_contract bs -> distinct_vtables P -> lawful_ord (q_cmp Q) -> flags_eq (Q := Q) ->
  forall (g : game P Q) e ch x s past prec emax Hp He (E : VT P (vt_value P (si_ty s)) = statMult (binF prec emax Hp He)),
  set_up bs o_size o_align g -> fits s -> w_entities (j_world (g_querier g)) e = Some ch -> 
  exists sel, Forall2 (chosen s x) (logs_for g e (or_nil ch)) sel /\
  let all := map (seen_as E) (stories g s sel) in
  short (all_scales all same same) ->
  forall n, exists r, fst (run (client (g_querier g) (S n) (p_query_eval e x s)) (after (g_querier g) past [])) = Done (Some r) /\
      ext (result_as E r) = clamped (all_floors all same) (all_ceilings all same) (outcome_of (all_scales all same same)).
Proof. exact C65_StatMult_exact_proof. Qed.
Print Assumptions C65_StatMult_exact.
(** 1.5 * 7 * 2. *)
Example C65_StatMult_case :
  set_up bs_new (fun _ => 24) (fun _ => 8) (solo_game SM sm_logs) /\ all_scales (solo_all SM sm_logs) same same = [f32_half 3; f32_int 7; f32_int 2] /\
  sm_seen = Some (B2SF (f32_int 21)).
Proof. split; [apply solo_set_up; [repeat constructor|vm_compute; reflexivity]|]. repeat split; vm_compute; reflexivity. Qed.
(** [StatIntFloatMul]. *)
Theorem C65_StatIntFloatMul_fits :
  forall (P : Prog) (Q : QFlag) (bs : list comparison -> bsres) (o_size o_align : vty P -> Z),
  bs_contract bs -> distinct_vtables P -> lawful_ord (q_cmp Q) -> flags_eq (Q := Q) ->
  forall (g : game P Q) e ch x s past prec emax Hp He oc t R (E : VT P (vt_value P (si_ty s)) = statIntFloatMul prec emax Hp He oc t R),
  set_up bs o_size o_align g -> fits s -> w_entities (j_world (g_querier g)) e = Some ch -> 
  exists sel, Forall2 (chosen s x) (logs_for g e (or_nil ch)) sel /\
  let all := map (seen_as E) (stories g s sel) in
  Forall steady all -> Forall (ity_ok t) (all_gains all same same) -> room (all_gains all same same) <= imax t ->
  ~ too_large emax (nearest prec emax (IZR (sum (all_gains all same same)))) -> multipliable (all_factors all same) ->
  exists m k, near_product (all_factors all same) (B2R m) /\ is_finite m = true /\ product_int prec emax t R (sum (all_gains all same same)) m k /\
    forall n, exists r, fst (run (client (g_querier g) (S n) (p_query_eval e x s)) (after (g_querier g) past [])) = Done (Some r) /\
      result_as E r = bounded t (all_floors all same) (all_ceilings all same) k.
Proof. exact C65_StatIntFloatMul_fits_proof. Qed.
Print Assumptions C65_StatIntFloatMul_fits.
Theorem C65_StatIntFloatMul_exact :
  forall (P : Prog) (Q : QFlag) (bs : list comparison -> bsres) (o_size o_align : vty P -> Z),
  bs_contract bs -> distinct_vtables P -> lawful_ord (q_cmp Q) -> flags_eq (Q := Q) ->
  forall (g : game P Q) e ch x s past prec emax Hp He oc t R (E : VT P (vt_value P (si_ty s)) = statIntFloatMul prec emax Hp He oc t R),
  set_up bs o_size o_align g -> fits s -> w_entities (j_world (g_querier g)) e = Some ch -> 
  exists sel, Forall2 (chosen s x) (logs_for g e (or_nil ch)) sel /\
  let all := map (seen_as E) (stories g s sel) in
  Forall steady all -> Forall (ity_ok t) (all_gains all same same) -> room (all_gains all same same) <= imax t ->
  Z.abs (sum (all_gains all same same)) <= 2 ^ prec -> short (all_factors all same) ->
  let p := nearest prec emax (IZR (sum (all_gains all same same)) * outcome_of (all_factors all same)) in
  ~ too_large emax p ->
  exists k, real_rounds_to R p k /\
    forall n, exists r, fst (run (client (g_querier g) (S n) (p_query_eval e x s)) (after (g_querier g) past [])) = Done (Some r) /\
      result_as E r = bounded t (all_floors all same) (all_ceilings all same) (sat t k).
Proof. exact C65_StatIntFloatMul_exact_proof. Qed.
Print Assumptions C65_StatIntFloatMul_exact.
(** (10 - 3) * 1.5 rounded up. *)
Example C65_StatIntFloatMul_case :
  set_up bs_new (fun _ => 24) (fun _ => 8) (solo_game IM im_logs) /\ Forall steady (solo_all IM im_logs) /\ all_gains (solo_all IM im_logs) same same = [10; -3] /\ all_factors (solo_all IM im_logs) same = [f32_half 3] /\
  solo_eval IM im_logs = Done (Some 11).
Proof. split; [apply solo_set_up; [repeat constructor|vm_compute; reflexivity]|]. split; [repeat constructor|]. repeat split; vm_compute; reflexivity. Qed.
