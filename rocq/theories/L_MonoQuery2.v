(** Monotonicity of queries for the remaining kinds of stats. *)
From Coq Require Import ZArith QArith List Bool Lia.
From Flocq Require Import Core BinarySingleNaN.
From Verif Require Import S_Types L_Ints.
From Verif Require Import M_Outcome M_Ints M_Ratio M_Float M_Value M_Types M_Qualifier M_Search M_Stat M_StatMap M_HashMap M_Pair M_Defaults M_Querier
  S_Ratio S_Search S_Pair S_StatMap S_Defaults S_Querier S_Totals S_FloatTotals S_EndToEnd S_Monotone S_MonoQuery S_MonoQuery2
  L_Search L_EndToEnd2 L_Monotone L_Monotone2 L_Monotone3 L_MonoQuery.
Import ListNotations.
Local Open Scope Z_scope.

Lemma value_of_as {S T : StatValue} (E : S = T) (h : history S) : value_of (seen_as E h) = let! v := value_of h in Done (value_as E v).
Proof. destruct E. cbn. destruct (value_of h); reflexivity. Qed.

Section L.
  Context (P : Prog) (Q : QFlag) (bs : list comparison -> bsres) (o_size o_align : vty P -> Z).
  Hypotheses (C : bs_contract bs) (D : distinct_vtables P) (OQ : lawful_ord (q_cmp Q)) (Hq : flags_eq (Q := Q)).

  (** Whatever holds of the values and results of improved histories holds of what is answered. *)
  Lemma C75_query_answers_proof : forall (g g' : game P Q) e e' x s past past' T (E : VT P (vt_value P (si_ty s)) = T) (O : merits T),
    granted_more bs o_size o_align g g' e e' x s E O ->
    forall n v r v' r', answers g e x s past n v r -> answers g' e' x s past' n v' r' ->
    exists h k, improved O h k /\ value_of h = Done (value_as E v) /\ value_of k = Done (value_as E v') /\
      worth h = Done (result_as E r) /\ worth k = Done (result_as E r').
  Proof.
    intros g g' e e' x s past past' T E O (U & U' & F & ch & ch' & He & He' & Is & Il) n v r v' r' [V R] [V' R'].
    destruct (C75_query_proof P Q bs o_size o_align C D OQ Hq g g' e e' ch ch' x s past past' T E O U U' F He He' Is Il) as (h & h' & I & A).
    destruct (A n) as (A1 & A2 & A3 & A4). rewrite V in A1. rewrite V' in A2. rewrite R in A3. rewrite R' in A4.
    exists (seen_as E h), (seen_as E h'). split; [exact I|]. rewrite !value_of_as, !worth_as.
    destruct (value_of h) as [w| | |]; try discriminate. destruct (value_of h') as [w'| | |]; try discriminate.
    destruct (worth h) as [q| | |]; try discriminate. destruct (worth h') as [q'| | |]; try discriminate.
    cbn [obind] in *. injection A1 as ->. injection A2 as ->. injection A3 as ->. injection A4 as ->. repeat split; reflexivity.
  Qed.

  Lemma C75_query_StatIntPercentAdditive_proof : forall (g g' : game P Q) e e' x s past past' raise T R scale sc
      (E : VT P (vt_value P (si_ty s)) = statPctAdd true T R scale),
    keeps_order true T -> from_i64 (i_ty T) scale = Done sc -> 0 < sc ->
    granted_more bs o_size o_align g g' e e' x s E (pct_merits raise true T R scale) ->
    forall n v r v' r', answers g e x s past n v r -> answers g' e' x s past' n v' r' ->
    0 <= sc + mult (value_as E v) -> (raise = true -> 0 <= addend (value_as E v)) -> (result_as E r : Z) <= result_as E r'.
  Proof.
    intros g g' e e' x s past past' raise T R scale sc E K Es Hs G n v r v' r' A A' M Ps.
    destruct (C75_query_answers_proof g g' e e' x s past past' _ E _ G n v r v' r' A A') as (h & k & I & V & _ & H & H').
    exact (C75_StatIntPercentAdditive_proof raise T R scale sc h k _ _ _ K I Es Hs V M Ps H H').
  Qed.
  Lemma C75_query_StatIntFraction_proof : forall (g g' : game P Q) e e' x s past past' raise T R
      (E : VT P (vt_value P (si_ty s)) = statIntFraction true T R), keeps_order true T ->
    granted_more bs o_size o_align g g' e e' x s E (frac_merits raise true T R) ->
    forall n v r v' r', answers g e x s past n v r -> answers g' e' x s past' n v' r' ->
    (raise = true -> 0 <= addend (value_as E v)) -> (result_as E r : Z) <= result_as E r'.
  Proof.
    intros g g' e e' x s past past' raise T R E K G n v r v' r' A A' Ps.
    destruct (C75_query_answers_proof g g' e e' x s past past' _ E _ G n v r v' r' A A') as (h & k & I & V & _ & H & H').
    exact (C75_StatIntFraction_proof raise T R h k _ _ _ K I V Ps H H').
  Qed.
  Lemma C75_query_StatIntRaised_proof : forall (g g' : game P Q) e e' x s past past' raise oc T
      (E : VT P (vt_value P (si_ty s)) = statInt oc T), keeps_order oc T ->
    granted_more bs o_size o_align g g' e e' x s E (int_merits raise oc T) ->
    forall n v r v' r', answers g e x s past n v r -> answers g' e' x s past' n v' r' ->
    (raise = true -> 0 <= addend (value_as E v)) -> (result_as E r : Z) <= result_as E r'.
  Proof.
    intros g g' e e' x s past past' raise oc T E K G n v r v' r' A A' Ps.
    destruct (C75_query_answers_proof g g' e e' x s past past' _ E _ G n v r v' r' A A') as (h & k & I & V & _ & H & H').
    exact (C75_StatInt_proof raise oc T h k _ _ _ K I V Ps H H').
  Qed.

  Section F.
    Context (prec emax : Z) (Hp : Prec_gt_0 prec) (He : Prec_lt_emax prec emax).
    Notation bf := (binary_float prec emax).
    Lemma C75_query_StatFloat_proof : forall (g g' : game P Q) e e' x s past past' raise
        (E : VT P (vt_value P (si_ty s)) = statFloat (binF prec emax Hp He)),
      granted_more bs o_size o_align g g' e e' x s E (float_merits prec emax Hp He raise) ->
      forall n v r v' r', answers g e x s past n v r -> answers g' e' x s past' n v' r' ->
      let total x := Bmult mode_NE (addend x : bf) (mult x) in
      is_nan (total (value_as E v)) = false -> is_nan (total (value_as E v')) = false ->
      (raise = true -> fle (B754_zero false) (addend (value_as E v))) -> fle (result_as E r) (result_as E r').
    Proof.
      intros g g' e e' x s past past' raise E G n v r v' r' A A' total N N' Ps.
      destruct (C75_query_answers_proof g g' e e' x s past past' _ E _ G n v r v' r' A A') as (h & k & I & V & W & H & H').
      exact (C75_StatFloat_proof prec emax Hp He raise h k _ _ _ _ I V W N N' Ps H H').
    Qed.
    Lemma C75_query_StatFloatAdditive_proof : forall (g g' : game P Q) e e' x s past past' raise
        (E : VT P (vt_value P (si_ty s)) = statFloatAdditive (binF prec emax Hp He)),
      granted_more bs o_size o_align g g' e e' x s E (floatadd_merits prec emax Hp He raise) ->
      forall n v r v' r', answers g e x s past n v r -> answers g' e' x s past' n v' r' ->
      let factor x := Bplus mode_NE (mult x : bf) (b_one prec emax Hp He) in
      let total x := Bmult mode_NE (addend x : bf) (factor x) in
      is_nan (total (value_as E v)) = false -> is_nan (total (value_as E v')) = false ->
      fle (B754_zero false) (factor (value_as E v)) ->
      (raise = true -> fle (B754_zero false) (addend (value_as E v))) -> fle (result_as E r) (result_as E r').
    Proof.
      intros g g' e e' x s past past' raise E G n v r v' r' A A' factor total N N' F Ps.
      destruct (C75_query_answers_proof g g' e e' x s past past' _ E _ G n v r v' r' A A') as (h & k & I & V & W & H & H').
      exact (C75_StatFloatAdditive_proof prec emax Hp He raise h k _ _ _ _ I V W N N' F Ps H H').
    Qed.
    Lemma C75_query_StatMult_proof : forall (g g' : game P Q) e e' x s past past'
        (E : VT P (vt_value P (si_ty s)) = statMult (binF prec emax Hp He)),
      granted_more bs o_size o_align g g' e e' x s E (mult_merits prec emax Hp He) ->
      forall n v r v' r', answers g e x s past n v r -> answers g' e' x s past' n v' r' ->
      is_nan (t_mult (value_as E v) : bf) = false -> is_nan (t_mult (value_as E v') : bf) = false ->
      fle (result_as E r) (result_as E r').
    Proof.
      intros g g' e e' x s past past' E G n v r v' r' A A' N N'.
      destruct (C75_query_answers_proof g g' e e' x s past past' _ E _ G n v r v' r' A A') as (h & k & I & V & W & H & H').
      exact (C75_StatMult_proof prec emax Hp He h k _ _ _ _ I V W N N' H H').
    Qed.
    Lemma C75_query_StatIntFloatMul_proof : forall (g g' : game P Q) e e' x s past past' raise t R
        (E : VT P (vt_value P (si_ty s)) = statIntFloatMul prec emax Hp He true t R),
      granted_more bs o_size o_align g g' e e' x s E (intfloat_merits prec emax Hp He raise true t R) ->
      forall n v r v' r', answers g e x s past n v r -> answers g' e' x s past' n v' r' ->
      let total x := Bmult mode_NE (b_of_int prec emax Hp He (addend x)) (mult x : bf) in
      is_nan (total (value_as E v)) = false -> is_nan (total (value_as E v')) = false ->
      (raise = true -> 0 <= addend (value_as E v)) -> (result_as E r : Z) <= result_as E r'.
    Proof.
      intros g g' e e' x s past past' raise t R E G n v r v' r' A A' total N N' Ps.
      destruct (C75_query_answers_proof g g' e e' x s past past' _ E _ G n v r v' r' A A') as (h & k & I & V & W & H & H').
      exact (C75_StatIntFloatMul_proof prec emax Hp He raise t R h k _ _ _ _ I V W N N' Ps H H').
    Qed.
  End F.
End L.
