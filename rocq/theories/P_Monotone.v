(** C75: what more was granted to is worth no less. *)
From Coq Require Import ZArith QArith List Bool Lia.
From Flocq Require Import Core BinarySingleNaN.
From Verif Require Import S_Types L_Ints.
From Verif Require Import M_Outcome M_Ints M_Ratio M_Float M_Value M_Types M_Qualifier M_Search M_Stat M_StatMap M_HashMap M_Pair M_Defaults M_Querier
  S_Ratio S_Search S_Pair S_StatMap S_Defaults S_Querier S_Totals S_FloatTotals S_EndToEnd S_Demo S_DemoDefaults S_DemoQuery S_DemoGame S_DemoGame2
  S_Monotone S_MonoQuery S_DemoMono
  L_Search L_Demo L_DemoQuery L_DemoGame L_Monotone L_Monotone2 L_Monotone3 L_Monotone4 L_MonoQuery.
Import ListNotations.
Local Open Scope Z_scope.

(** [StatInt] whose arithmetic overflows loudly or saturates. Multipliers must not be negative, and may be
    improved if what they multiply is not. *)
Theorem C75_StatInt : forall raise oc T h k v r r', keeps_order oc T -> improved (int_merits raise oc T) h k ->
  value_of h = Done v -> (raise = true -> 0 <= addend v) -> worth h = Done r -> worth k = Done r' -> r <= r'.
Proof. exact C75_StatInt_proof. Qed.
Print Assumptions C75_StatInt.
(** Saturating: 100 at most 120, then 110 twice and at most 125. *)
Example C75_StatInt_case :
  let T := {| i_ty := I8; i_flav := FSaturating |} in let S := statInt false T in
  let h := Applied (@FromBase S 100) (@OMax S 120) in
  let k := Applied (Applied (Joined (@FromBase S 110) (@FromBase S 3)) (@OMul S 2)) (@OMax S 125) in
  keeps_order false T /\ improved (int_merits true false T) h k /\ worth h = Done 100 /\ worth k = Done 125.
Proof.
  cbv zeta. split; [left; reflexivity|]. split; [|split; reflexivity].
  apply im_op; [|cbn; lia]. apply im_gain; [|cbn; lia]. apply im_joined; [apply im_base|apply im_based]; repeat split; cbn; lia.
Qed.

(** With wrapping arithmetic 127 and one more is -128. *)
Theorem C75_wrapping_refuted :
  exists h k, improved (int_merits false false (prim I8)) h k /\ worth h = Done 127 /\ worth k = Done (-128).
Proof. exact C75_wrapping_refuted_proof. Qed.
Print Assumptions C75_wrapping_refuted.
(** A better multiplier is worse for something negative. *)
Theorem C75_raise_refuted :
  exists h k, improved (int_merits true true (prim I32)) h k /\ worth h = Done (-3) /\ worth k = Done (-6).
Proof. exact C75_raise_refuted_proof. Qed.
Print Assumptions C75_raise_refuted.
(** [StatIntPercent] loses when joined with a default, which grants nothing. *)
Theorem C75_percent_default_refuted :
  exists h : history (statPct true (prim I32) Round 100), worth h = Done (-10) /\ worth (Joined h FromDefault) = Done (-18).
Proof. exact C75_percent_default_refuted_proof. Qed.
Print Assumptions C75_percent_default_refuted.

(** [StatIntPercentAdditive], in every rounding mode, unless the percentages sink below -100. *)
Theorem C75_StatIntPercentAdditive : forall raise T R scale s h k v r r', keeps_order true T ->
  improved (pct_merits raise true T R scale) h k -> from_i64 (i_ty T) scale = Done s -> 0 < s ->
  value_of h = Done v -> 0 <= s + mult v -> (raise = true -> 0 <= addend v) -> worth h = Done r -> worth k = Done r' -> r <= r'.
Proof. exact C75_StatIntPercentAdditive_proof. Qed.
Print Assumptions C75_StatIntPercentAdditive.
(** 7 and 30 percent, then without a loss of 20 percent and with 1 more. *)
Example C75_StatIntPercentAdditive_case :
  let S := statPctAdd true (prim I32) Ceil 100 in
  let h := Applied (Applied (@FromBase S 7) (@OMul S 30)) (@OMul S (-20)) in
  let k := Applied (Applied (@FromBase S 7) (@OMul S 30)) (@OAdd S 1) in
  improved (pct_merits true true (prim I32) Ceil 100) h k /\ worth h = Done 8 /\ worth k = Done 11.
Proof.
  cbv zeta. split; [|split; reflexivity].
  apply im_loss; [|cbn; lia]. apply im_gain; [|cbn; lia]. apply im_op; [apply im_base; repeat split; cbn; lia|cbn; lia].
Qed.

(** [StatIntFraction], with fractions that are not negative. *)
Theorem C75_StatIntFraction : forall raise T R h k v r r', keeps_order true T ->
  improved (frac_merits raise true T R) h k ->
  value_of h = Done v -> (raise = true -> 0 <= addend v) -> worth h = Done r -> worth k = Done r' -> r <= r'.
Proof. exact C75_StatIntFraction_proof. Qed.
Print Assumptions C75_StatIntFraction.
(** -7 times 2/3, then without a further -2. *)
Example C75_StatIntFraction_case :
  let S := statIntFraction true (prim I32) Round in
  let h := Applied (Applied (@FromBase S (-7)) (@OAdd S (-2))) (@OMul S (Frac 2 3)) in
  let k := Applied (@FromBase S (-7)) (@OMul S (Frac 2 3)) in
  improved (frac_merits false true (prim I32) Round) h k /\ worth h = Done (-6) /\ worth k = Done (-5).
Proof.
  cbv zeta. split; [|split; reflexivity].
  apply im_op; [|repeat split; cbn; lia]. apply im_loss; [|cbn; lia]. apply im_base; repeat split; cbn; lia.
Qed.

(** Floats of any precision, infinities included, as long as what is bounded in the end is a number. *)
Theorem C75_StatFloat : forall prec emax (Hp : Prec_gt_0 prec) (He : Prec_lt_emax prec emax) raise h k v w r r',
  improved (float_merits prec emax Hp He raise) h k ->
  value_of h = Done v -> value_of k = Done w ->
  is_nan (Bmult mode_NE (addend v) (mult v)) = false -> is_nan (Bmult mode_NE (addend w) (mult w)) = false ->
  (raise = true -> fle (B754_zero false) (addend v)) -> worth h = Done r -> worth k = Done r' -> fle r r'.
Proof. exact C75_StatFloat_proof. Qed.
Print Assumptions C75_StatFloat.
(** 10 and 5, capped at 22; then without the cap and half as much again. *)
Example C75_StatFloat_case :
  let h := Applied (Applied (@FromBase FL (f32_int 10)) (@OAdd FL (f32_int 5))) (@OMax FL (f32_int 22)) in
  let k := Applied (Applied (@FromBase FL (f32_int 10)) (@OAdd FL (f32_int 5))) (@OMul FL (f32_half 3)) in
  improved (float_merits 24 128 prec24 emax128 true) h k /\ worth_flt (worth h) (worth k) = true.
Proof.
  cbv zeta. split; [|vm_compute; reflexivity].
  apply im_loss; [|exact I]. apply im_gain; [|vm_compute; reflexivity]. apply im_op; [apply im_base; vm_compute; reflexivity|vm_compute; reflexivity].
Qed.
Theorem C75_StatFloatAdditive : forall prec emax (Hp : Prec_gt_0 prec) (He : Prec_lt_emax prec emax) raise h k v w r r',
  improved (floatadd_merits prec emax Hp He raise) h k ->
  value_of h = Done v -> value_of k = Done w ->
  let total x := Bplus mode_NE (mult x) (b_one prec emax Hp He) in
  is_nan (Bmult mode_NE (addend v) (total v)) = false -> is_nan (Bmult mode_NE (addend w) (total w)) = false ->
  fle (B754_zero false) (total v) ->
  (raise = true -> fle (B754_zero false) (addend v)) -> worth h = Done r -> worth k = Done r' -> fle r r'.
Proof. exact C75_StatFloatAdditive_proof. Qed.
Print Assumptions C75_StatFloatAdditive.
Example C75_StatFloatAdditive_case :
  let h := Joined (@FromBase FA (f32_int 10)) (Applied (@FromDefault FA) (@OMul FA (f32_half (-1)))) in
  let k := Applied (@FromBase FA (f32_int 10)) (@OMin FA (f32_int 3)) in
  improved (floatadd_merits 24 128 prec24 emax128 true) h k /\ worth_flt (worth h) (worth k) = true.
Proof.
  cbv zeta. split; [|vm_compute; reflexivity].
  apply im_gain; [|exact I]. apply im_unjoined; [apply im_base; vm_compute; reflexivity|]. apply im_loss; [apply im_default|vm_compute; reflexivity].
Qed.
Theorem C75_StatMult : forall prec emax (Hp : Prec_gt_0 prec) (He : Prec_lt_emax prec emax) h k v w r r',
  improved (mult_merits prec emax Hp He) h k ->
  value_of h = Done v -> value_of k = Done w ->
  is_nan (t_mult v : binary_float prec emax) = false -> is_nan (t_mult w : binary_float prec emax) = false ->
  worth h = Done r -> worth k = Done r' -> fle r r'.
Proof. exact C75_StatMult_proof. Qed.
Print Assumptions C75_StatMult.
Example C75_StatMult_case :
  let h := Applied (@FromDefault SM) (@OMul SM (f32_half 1)) in
  let k := Applied (@FromBase SM (f32_int 7)) (@OMul SM (f32_half 3)) in
  improved (mult_merits 24 128 prec24 emax128) h k /\ worth_flt (worth h) (worth k) = true.
Proof.
  cbv zeta. split; [|vm_compute; reflexivity].
  apply im_op; [apply im_based; vm_compute; reflexivity|split; vm_compute; reflexivity].
Qed.
(** Integers multiplied by floats, in every rounding mode. *)
Theorem C75_StatIntFloatMul : forall prec emax (Hp : Prec_gt_0 prec) (He : Prec_lt_emax prec emax) raise t R h k v w r r',
  improved (intfloat_merits prec emax Hp He raise true t R) h k ->
  value_of h = Done v -> value_of k = Done w ->
  is_nan (Bmult mode_NE (b_of_int prec emax Hp He (addend v)) (mult v)) = false ->
  is_nan (Bmult mode_NE (b_of_int prec emax Hp He (addend w)) (mult w)) = false ->
  (raise = true -> 0 <= addend v) -> worth h = Done r -> worth k = Done r' -> r <= r'.
Proof. exact C75_StatIntFloatMul_proof. Qed.
Print Assumptions C75_StatIntFloatMul.
(** 10, then 10 times 1.5 and 1 more. *)
Example C75_StatIntFloatMul_case :
  let h := @FromBase IM 10 in let k := Applied (Applied (@FromBase IM 10) (@OMul IM (f32_half 3))) (@OAdd IM 1) in
  improved (intfloat_merits 24 128 prec24 emax128 true true I16 Ceil) h k /\ worth h = Done 10 /\ worth k = Done 17.
Proof.
  cbv zeta. split; [|split; vm_compute; reflexivity].
  apply im_gain; [|cbn; lia]. apply im_gain; [|vm_compute; reflexivity]. apply im_base. repeat split; cbn; lia.
Qed.

(** Queries: if the starting value, and what every map has of the stat under the qualifiers of the query, is
    improved, with maps and entries put in that are gains and left out that are losses, then the answer is improved:
    by the theorems above it is then worth no less. *)
Theorem C75_query : forall (P : Prog) (Q : QFlag) (bs : list comparison -> bsres) (o_size o_align : vty P -> Z),
  bs_contract bs -> distinct_vtables P -> lawful_ord (q_cmp Q) -> flags_eq (Q := Q) ->
  forall (g g' : game P Q) e e' ch ch' x s past past' T (E : VT P (vt_value P (si_ty s)) = T) (O : merits T),
  set_up bs o_size o_align g -> set_up bs o_size o_align g' -> fits s ->
  w_entities (j_world (g_querier g)) e = Some ch -> w_entities (j_world (g_querier g')) e' = Some ch' ->
  improved O (start_of s E g) (start_of s E g') ->
  logs_improved s E O x (logs_for g e (or_nil ch)) (logs_for g' e' (or_nil ch')) ->
  exists h h', improved O (seen_as E h) (seen_as E h') /\ forall n,
    fst (run (client (g_querier g) (S n) (p_query e x s)) (after (g_querier g) past [])) = (let! v := value_of h in Done (Some v)) /\
    fst (run (client (g_querier g') (S n) (p_query e' x s)) (after (g_querier g') past' [])) = (let! v := value_of h' in Done (Some v)) /\
    fst (run (client (g_querier g) (S n) (p_query_eval e x s)) (after (g_querier g) past [])) = (let! r := worth h in Done (Some r)) /\
    fst (run (client (g_querier g') (S n) (p_query_eval e' x s)) (after (g_querier g') past' [])) = (let! r := worth h' in Done (Some r)).
Proof. exact C75_query_proof. Qed.
Print Assumptions C75_query.
Theorem C75_query_StatInt : forall (P : Prog) (Q : QFlag) (bs : list comparison -> bsres) (o_size o_align : vty P -> Z),
  bs_contract bs -> distinct_vtables P -> lawful_ord (q_cmp Q) -> flags_eq (Q := Q) ->
  forall (g g' : game P Q) e e' ch ch' x s past past' oc T (E : VT P (vt_value P (si_ty s)) = statInt oc T), keeps_order oc T ->
  set_up bs o_size o_align g -> set_up bs o_size o_align g' -> fits s ->
  w_entities (j_world (g_querier g)) e = Some ch -> w_entities (j_world (g_querier g')) e' = Some ch' ->
  improved (int_merits false oc T) (start_of s E g) (start_of s E g') ->
  logs_improved s E (int_merits false oc T) x (logs_for g e (or_nil ch)) (logs_for g' e' (or_nil ch')) ->
  forall n r r',
  fst (run (client (g_querier g) (S n) (p_query_eval e x s)) (after (g_querier g) past [])) = Done (Some r) ->
  fst (run (client (g_querier g') (S n) (p_query_eval e' x s)) (after (g_querier g') past' [])) = Done (Some r') ->
  (result_as E r : Z) <= result_as E r'.
Proof. exact C75_query_StatInt_proof. Qed.
Print Assumptions C75_query_StatInt.
(** 10 times 3, at most 25; then 14 times 3, at most 37. *)
Example C75_query_StatInt_case :
  set_up bs_new (fun _ => 24) (fun _ => 8) (solo_game SI si_poor) /\ set_up bs_new (fun _ => 24) (fun _ => 8) (solo_game SI si_rich) /\
  logs_improved (the_stat SI) eq_refl (int_merits false true (prim I32)) (@Aggregate intQ 0) si_poor si_rich /\
  solo_eval SI si_poor = Done (Some 25) /\ solo_eval SI si_rich = Done (Some 37).
Proof.
  split; [apply solo_set_up; [repeat constructor|vm_compute; reflexivity]|].
  split; [apply solo_set_up; [repeat constructor|vm_compute; reflexivity]|].
  split; [|split; vm_compute; reflexivity].
  apply li_both; [|apply li_both; [|constructor]]; intros q _; unfold has_for, account; cbn -[qual_cmp none]; destruct (qual_cmp none q); cbn; try exact I.
  - apply im_gain; [|cbn; lia]. apply im_op; [|cbn; lia]. apply im_base. repeat split; cbn; lia.
  - apply im_gain; [|exact I]. apply im_op; [apply im_default|cbn; lia].
Qed.
