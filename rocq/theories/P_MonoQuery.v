(** C75 for queries of every kind of stat: what more was granted to is answered no less. *)
From Coq Require Import ZArith QArith List Bool Lia.
From Flocq Require Import Core BinarySingleNaN.
From Verif Require Import S_Types L_Ints.
From Verif Require Import M_Outcome M_Ints M_Ratio M_Float M_Value M_Types M_Qualifier M_Search M_Stat M_StatMap M_HashMap M_Pair M_Defaults M_Querier
  S_Ratio S_Search S_Pair S_StatMap S_Defaults S_Querier S_Totals S_FloatTotals S_EndToEnd S_Demo S_DemoDefaults S_DemoQuery S_DemoGame S_DemoGame2
  S_Monotone S_MonoQuery S_MonoQuery2 S_DemoMono S_DemoMono2
  L_Search L_Demo L_DemoQuery L_DemoGame L_Monotone L_Monotone2 L_Monotone3 L_MonoQuery L_MonoQuery2.
Import ListNotations.
Local Open Scope Z_scope.

(** The value and the result a query answers are those of histories, the second of which is improved. *)
Theorem C75_query_answers : forall (P : Prog) (Q : QFlag) (bs : list comparison -> bsres) (o_size o_align : vty P -> Z),
  bs_contract bs -> distinct_vtables P -> lawful_ord (q_cmp Q) -> flags_eq (Q := Q) ->
  forall (g g' : game P Q) e e' x s past past' T (E : VT P (vt_value P (si_ty s)) = T) (O : merits T),
  granted_more bs o_size o_align g g' e e' x s E O ->
  forall n v r v' r', answers g e x s past n v r -> answers g' e' x s past' n v' r' ->
  exists h k, improved O h k /\ value_of h = Done (value_as E v) /\ value_of k = Done (value_as E v') /\
    worth h = Done (result_as E r) /\ worth k = Done (result_as E r').
Proof. exact C75_query_answers_proof. Qed.
Print Assumptions C75_query_answers.
(** [StatInt], with multipliers that may be improved if what they multiply is not negative. *)
Theorem C75_query_StatIntRaised : forall (P : Prog) (Q : QFlag) (bs : list comparison -> bsres) (o_size o_align : vty P -> Z),
  bs_contract bs -> distinct_vtables P -> lawful_ord (q_cmp Q) -> flags_eq (Q := Q) ->
  forall (g g' : game P Q) e e' x s past past' raise oc T
    (E : VT P (vt_value P (si_ty s)) = statInt oc T), keeps_order oc T ->
  granted_more bs o_size o_align g g' e e' x s E (int_merits raise oc T) ->
  forall n v r v' r', answers g e x s past n v r -> answers g' e' x s past' n v' r' ->
  (raise = true -> 0 <= addend (value_as E v)) -> (result_as E r : Z) <= result_as E r'.
Proof. exact C75_query_StatIntRaised_proof. Qed.
Print Assumptions C75_query_StatIntRaised.
Example C75_query_StatIntRaised_case :
  solo_more SI (int_merits true true (prim I32)) si_mean si_kind /\ (let! v := solo_query SI si_mean in Done (option_map addend v)) = Done (Some 5) /\
  solo_eval SI si_mean = Done (Some 10) /\ solo_eval SI si_kind = Done (Some 18).
Proof.
  split; [split; [apply solo_set_up; [repeat constructor|vm_compute; reflexivity]|]|].
  { split; [apply solo_set_up; [repeat constructor|vm_compute; reflexivity]|].
    split; [reflexivity|]. eexists. eexists. split; [reflexivity|]. split; [reflexivity|].
    split; [apply im_default|].
    apply li_both; [|apply li_both; [|constructor]]; intros q _; unfold has_for, account; cbn -[qual_cmp none]; destruct (qual_cmp none q); cbn; try exact I.
    - apply im_op; [|cbn; lia]. apply im_base. repeat split; cbn; lia.
    - apply im_loss; [apply im_default|cbn; lia]. }
  repeat split; vm_compute; reflexivity.
Qed.

(** [StatIntPercentAdditive]. *)
Theorem C75_query_StatIntPercentAdditive : forall (P : Prog) (Q : QFlag) (bs : list comparison -> bsres) (o_size o_align : vty P -> Z),
  bs_contract bs -> distinct_vtables P -> lawful_ord (q_cmp Q) -> flags_eq (Q := Q) ->
  forall (g g' : game P Q) e e' x s past past' raise T R scale sc
    (E : VT P (vt_value P (si_ty s)) = statPctAdd true T R scale),
  keeps_order true T -> from_i64 (i_ty T) scale = Done sc -> 0 < sc ->
  granted_more bs o_size o_align g g' e e' x s E (pct_merits raise true T R scale) ->
  forall n v r v' r', answers g e x s past n v r -> answers g' e' x s past' n v' r' ->
  0 <= sc + mult (value_as E v) -> (raise = true -> 0 <= addend (value_as E v)) -> (result_as E r : Z) <= result_as E r'.
Proof. exact C75_query_StatIntPercentAdditive_proof. Qed.
Print Assumptions C75_query_StatIntPercentAdditive.
Example C75_query_StatIntPercentAdditive_case :
  solo_more PD (pct_merits true true (prim I32) Ceil 100) pd_poor pd_rich /\ from_i64 I32 100 = Done 100 /\
  solo_test (fun v : val PD => (0 <=? 100 + mult v) && (0 <=? addend v)) (solo_query PD pd_poor) = true /\
  solo_eval PD pd_poor = Done (Some 8) /\ solo_eval PD pd_rich = Done (Some 11).
Proof.
  split; [split; [apply solo_set_up; [repeat constructor|vm_compute; reflexivity]|]|].
  { split; [apply solo_set_up; [repeat constructor|vm_compute; reflexivity]|].
    split; [reflexivity|]. eexists. eexists. split; [reflexivity|]. split; [reflexivity|].
    split; [apply im_default|].
    apply li_both; [|apply li_both; [|constructor]]; intros q _; unfold has_for, account; cbn -[qual_cmp none]; destruct (qual_cmp none q); cbn; try exact I.
    - apply im_op; [|cbn; lia]. apply im_base. repeat split; cbn; lia.
    - apply im_loss; [apply im_gain; [apply im_default|cbn; lia]|cbn; lia]. }
  repeat split; vm_compute; reflexivity.
Qed.

(** [StatIntFraction]. *)
Theorem C75_query_StatIntFraction : forall (P : Prog) (Q : QFlag) (bs : list comparison -> bsres) (o_size o_align : vty P -> Z),
  bs_contract bs -> distinct_vtables P -> lawful_ord (q_cmp Q) -> flags_eq (Q := Q) ->
  forall (g g' : game P Q) e e' x s past past' raise T R
    (E : VT P (vt_value P (si_ty s)) = statIntFraction true T R), keeps_order true T ->
  granted_more bs o_size o_align g g' e e' x s E (frac_merits raise true T R) ->
  forall n v r v' r', answers g e x s past n v r -> answers g' e' x s past' n v' r' ->
  (raise = true -> 0 <= addend (value_as E v)) -> (result_as E r : Z) <= result_as E r'.
Proof. exact C75_query_StatIntFraction_proof. Qed.
Print Assumptions C75_query_StatIntFraction.
Example C75_query_StatIntFraction_case :
  solo_more QF (frac_merits true true (prim I32) Round) qf_poor qf_rich /\ solo_test (fun v : val QF => 0 <=? addend v) (solo_query QF qf_poor) = true /\
  solo_eval QF qf_poor = Done (Some 5) /\ solo_eval QF qf_rich = Done (Some 7).
Proof.
  split; [split; [apply solo_set_up; [repeat constructor|vm_compute; reflexivity]|]|].
  { split; [apply solo_set_up; [repeat constructor|vm_compute; reflexivity]|].
    split; [reflexivity|]. eexists. eexists. split; [reflexivity|]. split; [reflexivity|].
    split; [apply im_default|].
    apply li_both; [|apply li_both; [|constructor]]; intros q _; unfold has_for, account; cbn -[qual_cmp none]; destruct (qual_cmp none q); cbn; try exact I.
    - apply im_op; [|cbn; repeat split; cbn; try lia; try (unfold frac_le, Qle; cbn; lia)]. apply im_base. repeat split; cbn; lia.
    - apply im_gain; [apply im_default|cbn; lia]. }
  repeat split; vm_compute; reflexivity.
Qed.

(** [StatFloat] of any precision. *)
Theorem C75_query_StatFloat : forall (P : Prog) (Q : QFlag) (bs : list comparison -> bsres) (o_size o_align : vty P -> Z),
  bs_contract bs -> distinct_vtables P -> lawful_ord (q_cmp Q) -> flags_eq (Q := Q) ->
  forall prec emax (Hp : Prec_gt_0 prec) (He : Prec_lt_emax prec emax), forall (g g' : game P Q) e e' x s past past' raise
      (E : VT P (vt_value P (si_ty s)) = statFloat (binF prec emax Hp He)),
    granted_more bs o_size o_align g g' e e' x s E (float_merits prec emax Hp He raise) ->
    forall n v r v' r', answers g e x s past n v r -> answers g' e' x s past' n v' r' ->
    let total x := Bmult mode_NE (addend x : binary_float prec emax) (mult x) in
    is_nan (total (value_as E v)) = false -> is_nan (total (value_as E v')) = false ->
    (raise = true -> fle (B754_zero false) (addend (value_as E v))) -> fle (result_as E r) (result_as E r').
Proof. exact C75_query_StatFloat_proof. Qed.
Print Assumptions C75_query_StatFloat.
Example C75_query_StatFloat_case :
  solo_more FL (float_merits 24 128 prec24 emax128 true) fl_poor fl_rich /\ solo_test fl_number (solo_query FL fl_poor) = true /\ solo_test fl_number (solo_query FL fl_rich) = true /\ solo_flt (solo_eval FL fl_poor) (solo_eval FL fl_rich) = true.
Proof.
  split; [split; [apply solo_set_up; [repeat constructor|vm_compute; reflexivity]|]|].
  { split; [apply solo_set_up; [repeat constructor|vm_compute; reflexivity]|].
    split; [reflexivity|]. eexists. eexists. split; [reflexivity|]. split; [reflexivity|].
    split; [apply im_default|].
    apply li_both; [|apply li_both; [|constructor]]; intros q _; unfold has_for, account; cbn -[qual_cmp none]; destruct (qual_cmp none q); cbn; try exact I.
    - apply im_op; [apply im_base; vm_compute; reflexivity|vm_compute; reflexivity].
    - apply im_loss; [|exact I]. apply im_gain; [apply im_default|vm_compute; reflexivity]. }
  repeat split; vm_compute; reflexivity.
Qed.

(** [StatFloatAdditive]. *)
Theorem C75_query_StatFloatAdditive : forall (P : Prog) (Q : QFlag) (bs : list comparison -> bsres) (o_size o_align : vty P -> Z),
  bs_contract bs -> distinct_vtables P -> lawful_ord (q_cmp Q) -> flags_eq (Q := Q) ->
  forall prec emax (Hp : Prec_gt_0 prec) (He : Prec_lt_emax prec emax), forall (g g' : game P Q) e e' x s past past' raise
      (E : VT P (vt_value P (si_ty s)) = statFloatAdditive (binF prec emax Hp He)),
    granted_more bs o_size o_align g g' e e' x s E (floatadd_merits prec emax Hp He raise) ->
    forall n v r v' r', answers g e x s past n v r -> answers g' e' x s past' n v' r' ->
    let factor x := Bplus mode_NE (mult x : binary_float prec emax) (b_one prec emax Hp He) in
    let total x := Bmult mode_NE (addend x : binary_float prec emax) (factor x) in
    is_nan (total (value_as E v)) = false -> is_nan (total (value_as E v')) = false ->
    fle (B754_zero false) (factor (value_as E v)) ->
    (raise = true -> fle (B754_zero false) (addend (value_as E v))) -> fle (result_as E r) (result_as E r').
Proof. exact C75_query_StatFloatAdditive_proof. Qed.
Print Assumptions C75_query_StatFloatAdditive.
Example C75_query_StatFloatAdditive_case :
  solo_more FA (floatadd_merits 24 128 prec24 emax128 true) fa_poor fa_rich /\ solo_test fa_number (solo_query FA fa_poor) = true /\ solo_test fa_number (solo_query FA fa_rich) = true /\ solo_flt (solo_eval FA fa_poor) (solo_eval FA fa_rich) = true.
Proof.
  split; [split; [apply solo_set_up; [repeat constructor|vm_compute; reflexivity]|]|].
  { split; [apply solo_set_up; [repeat constructor|vm_compute; reflexivity]|].
    split; [reflexivity|]. eexists. eexists. split; [reflexivity|]. split; [reflexivity|].
    split; [apply im_default|].
    apply li_both; [|apply li_both; [|constructor]]; intros q _; unfold has_for, account; cbn -[qual_cmp none]; destruct (qual_cmp none q); cbn; try exact I.
    - apply im_base; vm_compute; reflexivity.
    - apply im_loss; [|vm_compute; reflexivity]. apply im_gain; [apply im_default|exact I]. }
  repeat split; vm_compute; reflexivity.
Qed.

(** [StatMult]. *)
Theorem C75_query_StatMult : forall (P : Prog) (Q : QFlag) (bs : list comparison -> bsres) (o_size o_align : vty P -> Z),
  bs_contract bs -> distinct_vtables P -> lawful_ord (q_cmp Q) -> flags_eq (Q := Q) ->
  forall prec emax (Hp : Prec_gt_0 prec) (He : Prec_lt_emax prec emax), forall (g g' : game P Q) e e' x s past past'
      (E : VT P (vt_value P (si_ty s)) = statMult (binF prec emax Hp He)),
    granted_more bs o_size o_align g g' e e' x s E (mult_merits prec emax Hp He) ->
    forall n v r v' r', answers g e x s past n v r -> answers g' e' x s past' n v' r' ->
    is_nan (t_mult (value_as E v) : binary_float prec emax) = false -> is_nan (t_mult (value_as E v') : binary_float prec emax) = false ->
    fle (result_as E r) (result_as E r').
Proof. exact C75_query_StatMult_proof. Qed.
Print Assumptions C75_query_StatMult.
Example C75_query_StatMult_case :
  solo_more SM (mult_merits 24 128 prec24 emax128) sm_poor sm_rich /\ solo_test sm_number (solo_query SM sm_poor) = true /\ solo_test sm_number (solo_query SM sm_rich) = true /\ solo_flt (solo_eval SM sm_poor) (solo_eval SM sm_rich) = true.
Proof.
  split; [split; [apply solo_set_up; [repeat constructor|vm_compute; reflexivity]|]|].
  { split; [apply solo_set_up; [repeat constructor|vm_compute; reflexivity]|].
    split; [reflexivity|]. eexists. eexists. split; [reflexivity|]. split; [reflexivity|].
    split; [apply im_default|].
    apply li_both; [|apply li_both; [|constructor]]; intros q _; unfold has_for, account; cbn -[qual_cmp none]; destruct (qual_cmp none q); cbn; try exact I.
    apply im_op; [apply im_based; vm_compute; reflexivity|split; vm_compute; reflexivity]. }
  repeat split; vm_compute; reflexivity.
Qed.

(** [StatIntFloatMul]. *)
Theorem C75_query_StatIntFloatMul : forall (P : Prog) (Q : QFlag) (bs : list comparison -> bsres) (o_size o_align : vty P -> Z),
  bs_contract bs -> distinct_vtables P -> lawful_ord (q_cmp Q) -> flags_eq (Q := Q) ->
  forall prec emax (Hp : Prec_gt_0 prec) (He : Prec_lt_emax prec emax), forall (g g' : game P Q) e e' x s past past' raise t R
      (E : VT P (vt_value P (si_ty s)) = statIntFloatMul prec emax Hp He true t R),
    granted_more bs o_size o_align g g' e e' x s E (intfloat_merits prec emax Hp He raise true t R) ->
    forall n v r v' r', answers g e x s past n v r -> answers g' e' x s past' n v' r' ->
    let total x := Bmult mode_NE (b_of_int prec emax Hp He (addend x)) (mult x : binary_float prec emax) in
    is_nan (total (value_as E v)) = false -> is_nan (total (value_as E v')) = false ->
    (raise = true -> 0 <= addend (value_as E v)) -> (result_as E r : Z) <= result_as E r'.
Proof. exact C75_query_StatIntFloatMul_proof. Qed.
Print Assumptions C75_query_StatIntFloatMul.
Example C75_query_StatIntFloatMul_case :
  solo_more IM (intfloat_merits 24 128 prec24 emax128 true true I16 Ceil) im_poor im_rich /\ solo_test im_number (solo_query IM im_poor) = true /\
  solo_test im_number (solo_query IM im_rich) = true /\ solo_eval IM im_poor = Done (Some 10) /\ solo_eval IM im_rich = Done (Some 17).
Proof.
  split; [split; [apply solo_set_up; [repeat constructor|vm_compute; reflexivity]|]|].
  { split; [apply solo_set_up; [repeat constructor|vm_compute; reflexivity]|].
    split; [reflexivity|]. eexists. eexists. split; [reflexivity|]. split; [reflexivity|].
    split; [apply im_default|].
    apply li_both; [|apply li_both; [|constructor]]; intros q _; unfold has_for, account; cbn -[qual_cmp none]; destruct (qual_cmp none q); cbn; try exact I.
    - apply im_base. repeat split; cbn; lia.
    - apply im_gain; [|cbn; lia]. apply im_gain; [apply im_default|vm_compute; reflexivity]. }
  repeat split; vm_compute; reflexivity.
Qed.

