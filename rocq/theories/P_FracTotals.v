(** C59, C65: what the float stats are worth over fractions, exactly. *)
From Coq Require Import ZArith QArith List Sorted Lia Permutation.
From Verif Require Import S_Types L_Ints.
From Verif Require Import M_Outcome M_Ints M_Ratio M_Float M_Value M_Types M_Qualifier M_Search M_Stat M_StatMap M_HashMap M_Pair M_Defaults M_Querier
  S_Ratio S_Search S_StatMap S_Querier S_Totals S_FloatTotals S_PctTotals S_FracTotals S_EndToEnd S_Demo S_DemoGame S_DemoGame2 S_DemoFrac
  L_DemoGame L_FracTotals3 L_FracQuery.
Import ListNotations.
Local Open Scope Z_scope.

(** [StatFloat]: the sum times the product, bounded. With overflow checks a result is exact whatever the
    order and grouping; with room there is a result in every build. *)
Theorem C59_Fraction_StatFloat_checked :
  forall t (h : history (statFloat (fracF true t))) r,
  Forall (reduced t) (gains h same same) -> Forall (reduced t) (factors h same) ->
  Forall (reduced t) (floors h same) -> Forall (reduced t) (ceilings h same) ->
  worth h = Done r ->
  reduced t r /\
  (toQ r == qbounded t (floors h same) (ceilings h same) (qsum (gains h same same) * qproduct (factors h same)))%Q.
Proof. exact C59_Fraction_StatFloat_checked_proof. Qed.
Print Assumptions C59_Fraction_StatFloat_checked.
Theorem C59_Fraction_StatFloat_fits :
  forall oc t D (h : history (statFloat (fracF oc t))), steady h ->
  Forall (reduced t) (gains h same same) -> Forall (reduced t) (factors h same) ->
  Forall (reduced t) (floors h same) -> Forall (reduced t) (ceilings h same) ->
  adds_over t D (gains h same same) -> D * room_frac (factors h same) <= imax t ->
  room (scaled D (gains h same same)) * room_frac (factors h same) <= imax t ->
  exists r, worth h = Done r /\ reduced t r /\
  (toQ r == qbounded t (floors h same) (ceilings h same) (qsum (gains h same same) * qproduct (factors h same)))%Q.
Proof. exact C59_Fraction_StatFloat_fits_proof. Qed.
Print Assumptions C59_Fraction_StatFloat_fits.
Theorem C59_Fraction_StatFloat_order_free :
  forall t (h k : history (statFloat (fracF true t))) r s,
  Forall (reduced t) (gains h same same) -> Forall (reduced t) (factors h same) ->
  Forall (reduced t) (floors h same) -> Forall (reduced t) (ceilings h same) ->
  Permutation (gains h same same) (gains k same same) -> Permutation (factors h same) (factors k same) ->
  Permutation (floors h same) (floors k same) -> Permutation (ceilings h same) (ceilings k same) ->
  worth h = Done r -> worth k = Done s -> r = s.
Proof. exact C59_Fraction_StatFloat_order_free_proof. Qed.
Print Assumptions C59_Fraction_StatFloat_order_free.
(** (3/2 - 1/6) * 5/4 = 5/3 *)
Example C59_Fraction_StatFloat_case :
  worth xf_hist = Done (Frac 5 3) /\ gains xf_hist same same = [Frac 3 2; Frac (-1) 6] /\ factors xf_hist same = [Frac 5 4] /\ floors xf_hist same = [Frac 1 1] /\
  steady xf_hist /\ Forall (reduced I16) [Frac 3 2; Frac (-1) 6; Frac 5 4; Frac 1 1] /\ adds_over I16 6 [Frac 3 2; Frac (-1) 6] /\
  6 * room_frac [Frac 5 4] <= imax I16 /\ room (scaled 6 [Frac 3 2; Frac (-1) 6]) * room_frac [Frac 5 4] <= imax I16 /\
  worth (Joined (Applied (@FromDefault XF) (@OAdd XF (Frac (-1) 6))) (Applied (Applied (@FromBase XF (Frac 3 2)) (@OMin XF (Frac 1 1))) (@OMul XF (Frac 5 4)))) = Done (Frac 5 3).
Proof.
  repeat (split; [reflexivity|]). split; [repeat constructor|]. split; [repeat constructor; cbn; lia|]. split.
  - split; [cbn; lia|]. split; [constructor; [exists 3; reflexivity|constructor; [exists 1; reflexivity|constructor]]|cbn; lia].
  - repeat split; cbn; lia.
Qed.

(** [StatFloatAdditive]: the sum times one plus the sum of the multipliers. *)
Theorem C59_Fraction_StatFloatAdditive_checked :
  forall t (h : history (statFloatAdditive (fracF true t))) r,
  Forall (reduced t) (gains h same same) -> Forall (reduced t) (factors h same) ->
  Forall (reduced t) (floors h same) -> Forall (reduced t) (ceilings h same) ->
  worth h = Done r ->
  reduced t r /\
  (toQ r == qbounded t (floors h same) (ceilings h same) (qsum (gains h same same) * (1 + qsum (factors h same))))%Q.
Proof. exact C59_Fraction_StatFloatAdditive_checked_proof. Qed.
Print Assumptions C59_Fraction_StatFloatAdditive_checked.
Theorem C59_Fraction_StatFloatAdditive_fits :
  forall oc t D D' (h : history (statFloatAdditive (fracF oc t))), steady h ->
  Forall (reduced t) (gains h same same) -> Forall (reduced t) (factors h same) ->
  Forall (reduced t) (floors h same) -> Forall (reduced t) (ceilings h same) ->
  adds_over t D (gains h same same) -> adds_over t D' (factors h same ++ [Frac 1 1]) -> D * D' <= imax t ->
  room (scaled D (gains h same same)) * room (scaled D' (factors h same ++ [Frac 1 1])) <= imax t ->
  exists r, worth h = Done r /\ reduced t r /\
  (toQ r == qbounded t (floors h same) (ceilings h same) (qsum (gains h same same) * (1 + qsum (factors h same))))%Q.
Proof. exact C59_Fraction_StatFloatAdditive_fits_proof. Qed.
Print Assumptions C59_Fraction_StatFloatAdditive_fits.
Theorem C59_Fraction_StatFloatAdditive_order_free :
  forall t (h k : history (statFloatAdditive (fracF true t))) r s,
  Forall (reduced t) (gains h same same) -> Forall (reduced t) (factors h same) ->
  Forall (reduced t) (floors h same) -> Forall (reduced t) (ceilings h same) ->
  Permutation (gains h same same) (gains k same same) -> Permutation (factors h same) (factors k same) ->
  Permutation (floors h same) (floors k same) -> Permutation (ceilings h same) (ceilings k same) ->
  worth h = Done r -> worth k = Done s -> r = s.
Proof. exact C59_Fraction_StatFloatAdditive_order_free_proof. Qed.
Print Assumptions C59_Fraction_StatFloatAdditive_order_free.
(** 10/3 * (1 + 1/4 - 1/2) = 5/2, at most 9/4. *)
Example C59_Fraction_StatFloatAdditive_case :
  worth xa_hist = Done (Frac 9 4) /\ gains xa_hist same same = [Frac 10 3] /\ factors xa_hist same = [Frac 1 4; Frac (-1) 2] /\ ceilings xa_hist same = [Frac 9 4] /\
  steady xa_hist /\ Forall (reduced I16) [Frac 10 3; Frac 1 4; Frac (-1) 2; Frac 9 4] /\ adds_over I16 3 [Frac 10 3] /\ adds_over I16 4 ([Frac 1 4; Frac (-1) 2] ++ [Frac 1 1]) /\
  3 * 4 <= imax I16 /\ room (scaled 3 [Frac 10 3]) * room (scaled 4 ([Frac 1 4; Frac (-1) 2] ++ [Frac 1 1])) <= imax I16 /\
  worth (Applied (Applied (@FromBase XA (Frac 10 3)) (@OMul XA (Frac 1 4))) (@OMul XA (Frac (-1) 2))) = Done (Frac 5 2).
Proof.
  repeat (split; [reflexivity|]). split; [repeat constructor|]. split; [repeat constructor; cbn; lia|]. split.
  - split; [cbn; lia|]. split; [constructor; [exists 1; reflexivity|constructor]|cbn; lia].
  - split; [split; [cbn; lia|split; [constructor; [exists 1; reflexivity|constructor; [exists 2; reflexivity|constructor; [exists 4; reflexivity|constructor]]]|cbn; lia]]|].
    repeat split; cbn; lia.
Qed.

(** [StatMult]: the product of the multipliers, the base among them. *)
Theorem C59_Fraction_StatMult_checked :
  forall t (h : history (statMult (fracF true t))) r,
  Forall (reduced t) (scales h same same) ->
  Forall (reduced t) (floors h same) -> Forall (reduced t) (ceilings h same) ->
  worth h = Done r ->
  reduced t r /\ (toQ r == qbounded t (floors h same) (ceilings h same) (qproduct (scales h same same)))%Q.
Proof. exact C59_Fraction_StatMult_checked_proof. Qed.
Print Assumptions C59_Fraction_StatMult_checked.
Theorem C59_Fraction_StatMult_fits :
  forall oc t (h : history (statMult (fracF oc t))), steady h ->
  Forall (reduced t) (scales h same same) ->
  Forall (reduced t) (floors h same) -> Forall (reduced t) (ceilings h same) ->
  room_frac (scales h same same) <= imax t ->
  exists r, worth h = Done r /\ reduced t r /\
  (toQ r == qbounded t (floors h same) (ceilings h same) (qproduct (scales h same same)))%Q.
Proof. exact C59_Fraction_StatMult_fits_proof. Qed.
Print Assumptions C59_Fraction_StatMult_fits.
Theorem C59_Fraction_StatMult_order_free :
  forall t (h k : history (statMult (fracF true t))) r s,
  Forall (reduced t) (scales h same same) ->
  Forall (reduced t) (floors h same) -> Forall (reduced t) (ceilings h same) ->
  Permutation (scales h same same) (scales k same same) ->
  Permutation (floors h same) (floors k same) -> Permutation (ceilings h same) (ceilings k same) ->
  worth h = Done r -> worth k = Done s -> r = s.
Proof. exact C59_Fraction_StatMult_order_free_proof. Qed.
Print Assumptions C59_Fraction_StatMult_order_free.
(** 3/2 * 7/6 * 2 = 7/2 *)
Example C59_Fraction_StatMult_case :
  worth xm_hist = Done (Frac 7 2) /\ scales xm_hist same same = [Frac 3 2; Frac 7 6; Frac 2 1] /\
  steady xm_hist /\ Forall (reduced I16) [Frac 3 2; Frac 7 6; Frac 2 1] /\ room_frac [Frac 3 2; Frac 7 6; Frac 2 1] <= imax I16.
Proof. repeat (split; [reflexivity|]). split; [repeat constructor|]. split; [repeat constructor; cbn; lia|]. cbn. lia. Qed.

(** The same for queries. *)
Theorem C65_Fraction_StatFloat_checked :
  forall (P : Prog) (Q : QFlag) (bs : list comparison -> bsres) (o_size o_align : vty P -> Z),
  bs_contract bs -> distinct_vtables P -> lawful_ord (q_cmp Q) -> flags_eq (Q := Q) ->
  forall (g : game P Q) e ch x s past t (E : VT P (vt_value P (si_ty s)) = statFloat (fracF true t)),
  set_up bs o_size o_align g -> fits s -> w_entities (j_world (g_querier g)) e = Some ch ->
  exists sel, Forall2 (chosen s x) (logs_for g e (or_nil ch)) sel /\
  let all := map (seen_as E) (stories g s sel) in
  Forall (reduced t) (all_gains all same same) -> Forall (reduced t) (all_factors all same) -> Forall (reduced t) (all_floors all same) -> Forall (reduced t) (all_ceilings all same) ->
  forall n r, fst (run (client (g_querier g) (S n) (p_query_eval e x s)) (after (g_querier g) past [])) = Done (Some r) ->
    reduced t (result_as E r) /\ (toQ (result_as E r) == qbounded t (all_floors all same) (all_ceilings all same) (qsum (all_gains all same same) * qproduct (all_factors all same)))%Q.
Proof. exact C65_Fraction_StatFloat_checked_proof. Qed.
Print Assumptions C65_Fraction_StatFloat_checked.
Theorem C65_Fraction_StatFloat_fits :
  forall (P : Prog) (Q : QFlag) (bs : list comparison -> bsres) (o_size o_align : vty P -> Z),
  bs_contract bs -> distinct_vtables P -> lawful_ord (q_cmp Q) -> flags_eq (Q := Q) ->
  forall (g : game P Q) e ch x s past oc t D (E : VT P (vt_value P (si_ty s)) = statFloat (fracF oc t)),
  set_up bs o_size o_align g -> fits s -> w_entities (j_world (g_querier g)) e = Some ch ->
  exists sel, Forall2 (chosen s x) (logs_for g e (or_nil ch)) sel /\
  let all := map (seen_as E) (stories g s sel) in
  Forall (reduced t) (all_gains all same same) -> Forall (reduced t) (all_factors all same) -> Forall (reduced t) (all_floors all same) -> Forall (reduced t) (all_ceilings all same) ->
  Forall steady all -> adds_over t D (all_gains all same same) -> D * room_frac (all_factors all same) <= imax t ->
  room (scaled D (all_gains all same same)) * room_frac (all_factors all same) <= imax t ->
  forall n, exists r, fst (run (client (g_querier g) (S n) (p_query_eval e x s)) (after (g_querier g) past [])) = Done (Some r) /\
    reduced t (result_as E r) /\ (toQ (result_as E r) == qbounded t (all_floors all same) (all_ceilings all same) (qsum (all_gains all same same) * qproduct (all_factors all same)))%Q.
Proof. exact C65_Fraction_StatFloat_fits_proof. Qed.
Print Assumptions C65_Fraction_StatFloat_fits.
(** The remaining hypotheses: C59_Fraction_StatFloat_case. *)
Example C65_Fraction_StatFloat_case :
  set_up bs_new (fun _ => 24) (fun _ => 8) (solo_game XF xf_logs) /\ Forall steady (solo_all XF xf_logs) /\ all_gains (solo_all XF xf_logs) same same = [Frac 3 2; Frac (-1) 6] /\ all_factors (solo_all XF xf_logs) same = [Frac 5 4] /\ solo_eval XF xf_logs = Done (Some (Frac 5 3)).
Proof. split; [apply solo_set_up; [repeat constructor|vm_compute; reflexivity]|]. split; [repeat constructor|]. repeat split; vm_compute; reflexivity. Qed.
Theorem C65_Fraction_StatFloatAdditive_checked :
  forall (P : Prog) (Q : QFlag) (bs : list comparison -> bsres) (o_size o_align : vty P -> Z),
  bs_contract bs -> distinct_vtables P -> lawful_ord (q_cmp Q) -> flags_eq (Q := Q) ->
  forall (g : game P Q) e ch x s past t (E : VT P (vt_value P (si_ty s)) = statFloatAdditive (fracF true t)),
  set_up bs o_size o_align g -> fits s -> w_entities (j_world (g_querier g)) e = Some ch ->
  exists sel, Forall2 (chosen s x) (logs_for g e (or_nil ch)) sel /\
  let all := map (seen_as E) (stories g s sel) in
  Forall (reduced t) (all_gains all same same) -> Forall (reduced t) (all_factors all same) -> Forall (reduced t) (all_floors all same) -> Forall (reduced t) (all_ceilings all same) ->
  forall n r, fst (run (client (g_querier g) (S n) (p_query_eval e x s)) (after (g_querier g) past [])) = Done (Some r) ->
    reduced t (result_as E r) /\ (toQ (result_as E r) == qbounded t (all_floors all same) (all_ceilings all same) (qsum (all_gains all same same) * (1 + qsum (all_factors all same))))%Q.
Proof. exact C65_Fraction_StatFloatAdditive_checked_proof. Qed.
Print Assumptions C65_Fraction_StatFloatAdditive_checked.
Theorem C65_Fraction_StatFloatAdditive_fits :
  forall (P : Prog) (Q : QFlag) (bs : list comparison -> bsres) (o_size o_align : vty P -> Z),
  bs_contract bs -> distinct_vtables P -> lawful_ord (q_cmp Q) -> flags_eq (Q := Q) ->
  forall (g : game P Q) e ch x s past oc t D D' (E : VT P (vt_value P (si_ty s)) = statFloatAdditive (fracF oc t)),
  set_up bs o_size o_align g -> fits s -> w_entities (j_world (g_querier g)) e = Some ch ->
  exists sel, Forall2 (chosen s x) (logs_for g e (or_nil ch)) sel /\
  let all := map (seen_as E) (stories g s sel) in
  Forall (reduced t) (all_gains all same same) -> Forall (reduced t) (all_factors all same) -> Forall (reduced t) (all_floors all same) -> Forall (reduced t) (all_ceilings all same) ->
  Forall steady all -> adds_over t D (all_gains all same same) -> adds_over t D' (all_factors all same ++ [Frac 1 1]) -> D * D' <= imax t ->
  room (scaled D (all_gains all same same)) * room (scaled D' (all_factors all same ++ [Frac 1 1])) <= imax t ->
  forall n, exists r, fst (run (client (g_querier g) (S n) (p_query_eval e x s)) (after (g_querier g) past [])) = Done (Some r) /\
    reduced t (result_as E r) /\ (toQ (result_as E r) == qbounded t (all_floors all same) (all_ceilings all same) (qsum (all_gains all same same) * (1 + qsum (all_factors all same))))%Q.
Proof. exact C65_Fraction_StatFloatAdditive_fits_proof. Qed.
Print Assumptions C65_Fraction_StatFloatAdditive_fits.
(** The remaining hypotheses: C59_Fraction_StatFloatAdditive_case. *)
Example C65_Fraction_StatFloatAdditive_case :
  set_up bs_new (fun _ => 24) (fun _ => 8) (solo_game XA xa_logs) /\ Forall steady (solo_all XA xa_logs) /\ all_gains (solo_all XA xa_logs) same same = [Frac 10 3] /\ all_factors (solo_all XA xa_logs) same = [Frac 1 4; Frac (-1) 2] /\ solo_eval XA xa_logs = Done (Some (Frac 9 4)).
Proof. split; [apply solo_set_up; [repeat constructor|vm_compute; reflexivity]|]. split; [repeat constructor|]. repeat split; vm_compute; reflexivity. Qed.
Theorem C65_Fraction_StatMult_checked :
  forall (P : Prog) (Q : QFlag) (bs : list comparison -> bsres) (o_size o_align : vty P -> Z),
  bs_contract bs -> distinct_vtables P -> lawful_ord (q_cmp Q) -> flags_eq (Q := Q) ->
  forall (g : game P Q) e ch x s past t (E : VT P (vt_value P (si_ty s)) = statMult (fracF true t)),
  set_up bs o_size o_align g -> fits s -> w_entities (j_world (g_querier g)) e = Some ch ->
  exists sel, Forall2 (chosen s x) (logs_for g e (or_nil ch)) sel /\
  let all := map (seen_as E) (stories g s sel) in
  Forall (reduced t) (all_scales all same same) -> Forall (reduced t) (all_floors all same) -> Forall (reduced t) (all_ceilings all same) ->
  forall n r, fst (run (client (g_querier g) (S n) (p_query_eval e x s)) (after (g_querier g) past [])) = Done (Some r) ->
    reduced t (result_as E r) /\ (toQ (result_as E r) == qbounded t (all_floors all same) (all_ceilings all same) (qproduct (all_scales all same same)))%Q.
Proof. exact C65_Fraction_StatMult_checked_proof. Qed.
Print Assumptions C65_Fraction_StatMult_checked.
Theorem C65_Fraction_StatMult_fits :
  forall (P : Prog) (Q : QFlag) (bs : list comparison -> bsres) (o_size o_align : vty P -> Z),
  bs_contract bs -> distinct_vtables P -> lawful_ord (q_cmp Q) -> flags_eq (Q := Q) ->
  forall (g : game P Q) e ch x s past oc t (E : VT P (vt_value P (si_ty s)) = statMult (fracF oc t)),
  set_up bs o_size o_align g -> fits s -> w_entities (j_world (g_querier g)) e = Some ch ->
  exists sel, Forall2 (chosen s x) (logs_for g e (or_nil ch)) sel /\
  let all := map (seen_as E) (stories g s sel) in
  Forall (reduced t) (all_scales all same same) -> Forall (reduced t) (all_floors all same) -> Forall (reduced t) (all_ceilings all same) ->
  Forall steady all -> room_frac (all_scales all same same) <= imax t ->
  forall n, exists r, fst (run (client (g_querier g) (S n) (p_query_eval e x s)) (after (g_querier g) past [])) = Done (Some r) /\
    reduced t (result_as E r) /\ (toQ (result_as E r) == qbounded t (all_floors all same) (all_ceilings all same) (qproduct (all_scales all same same)))%Q.
Proof. exact C65_Fraction_StatMult_fits_proof. Qed.
Print Assumptions C65_Fraction_StatMult_fits.
(** The remaining hypotheses: C59_Fraction_StatMult_case. *)
Example C65_Fraction_StatMult_case :
  set_up bs_new (fun _ => 24) (fun _ => 8) (solo_game XM xm_logs) /\ Forall steady (solo_all XM xm_logs) /\ all_scales (solo_all XM xm_logs) same same = [Frac 3 2; Frac 7 6; Frac 2 1] /\ solo_eval XM xm_logs = Done (Some (Frac 7 2)).
Proof. split; [apply solo_set_up; [repeat constructor|vm_compute; reflexivity]|]. split; [repeat constructor|]. repeat split; vm_compute; reflexivity. Qed.
