(** Rounding of floats, float multiplied integers and the bounds of float stats. *)
From Coq Require Import ZArith Reals QArith List Bool Lia Lra.
From Flocq Require Import Core BinarySingleNaN.
From Verif Require Import M_Outcome M_Ints M_Ratio M_Float M_Value M_Types S_Ratio S_Types S_Float L_Outcome L_Ints L_Ratio L_Float L_FloatProofs.
Import ListNotations.
Local Open Scope Z_scope.

(** C20: every rounding mode on every finite float gives a finite float that is the documented integer. *)
Theorem C20_float_rounding :
  forall prec emax Hp He R x, is_finite x = true ->
  exists y n, round_with R (binF prec emax Hp He) x = Done y /\
    is_finite y = true /\ B2R y = IZR n /\ real_rounds_to R (B2R x) n.
Proof. exact round_with_spec. Qed.
Print Assumptions C20_float_rounding.

(** The integer is determined by the mode. *)
Theorem C20_float_rounding_unique :
  forall R x n n', real_rounds_to R x n -> real_rounds_to R x n' -> n = n'.
Proof. exact C20_float_rounding_unique_proof. Qed.
Print Assumptions C20_float_rounding_unique.
Example C20_float_rounding_unique_case : real_rounds_to Round (5 / 2) 3 /\ real_rounds_to TruncateSigned (/ 4) 1.
Proof.
  split.
  - split; cbn -[IZR]; [rewrite Rabs_pos_eq; lra|]. intros _. rewrite !Rabs_pos_eq; lra.
  - split; [lra|]. split; [|lra]. intros _. exists 0. split; [split; lra|reflexivity].
Qed.

(** NaN and the infinities are not changed. *)
Theorem C20_float_rounding_special :
  forall prec emax Hp He R x, is_finite x = false ->
  round_with R (binF prec emax Hp He) x = Done x.
Proof. exact round_with_special. Qed.
Print Assumptions C20_float_rounding_special.
Example C20_float_rounding_special_case :
  round_with TruncateSigned f64F (B754_infinity true) = Done (B754_infinity true) /\
  round_with Ceil f64F B754_nan = Done B754_nan.
Proof. split; reflexivity. Qed.

(** -2.5 in [f32] under the five modes. *)
Example C20_float_case :
  let x := binary_normalize 24 128 prec24 emax128 mode_NE (-5) (-1) false in
  is_finite x = true /\
  map (fun R => match round_with R f32F x with Done y => Btrunc (y : f32) | _ => 0 end)
    [Truncate; Floor; Ceil; Round; TruncateSigned] = [-2; -3; -2; -3; -2].
Proof. split; reflexivity. Qed.

(** C45: evaluation never panics; the result is the rounded product brought between the bounds. *)
Theorem C45_eval :
  forall prec emax Hp He oc t R v,
  ~ too_large emax (nearest prec emax (IZR (addend v))) ->
  exists n, product_int prec emax t R (addend v) (mult v) n /\
    sv_eval (statIntFloatMul prec emax Hp He oc t R) v = Done (Z.max (Z.min n (vmax v)) (vmin v)).
Proof. exact C45_eval_proof. Qed.
Print Assumptions C45_eval.

(** The hypothesis only excludes [u128] with [f32], for numbers that round to 2^128. *)
Theorem C45_addend_fits :
  forall prec emax t a, Prec_gt_0 prec -> Prec_lt_emax prec emax ->
  ity_ok t a -> bits t < emax \/ (bits t = emax /\ signed t = true) ->
  ~ too_large emax (nearest prec emax (IZR a)).
Proof. exact C45_addend_fits_proof. Qed.
Print Assumptions C45_addend_fits.
Example C45_addend_fits_case : ity_ok I128 (- 2 ^ 127) /\ bits I128 = 128 /\ signed I128 = true.
Proof. repeat split; cbn; lia. Qed.
Example C45_eval_case :
  let S := statIntFloatMul 24 128 prec24 emax128 true I32 Round in
  let f z e := binary_normalize 24 128 prec24 emax128 mode_NE z e false in
  map (fun m => sv_eval S (Quad (-7) (-100) 100 m)) [f 3 (-1); f (-200) 0; B754_nan; B754_infinity false]
  = [Done (-11); Done 100; Done 0; Done (-100)].
Proof. reflexivity. Qed.

(** Whatever the multiplier, the addend and the build: a result, and one of the integer type when the bounds are. *)
Theorem C45_total :
  forall prec emax Hp He oc t R v,
  exists r, sv_eval (statIntFloatMul prec emax Hp He oc t R) v = Done r /\
    vmin v <= r /\ (vmin v <= vmax v -> r <= vmax v) /\
    (ity_ok t (vmin v) -> ity_ok t r).
Proof. exact C45_total_proof. Qed.
Print Assumptions C45_total.
Example C45_total_case :
  sv_eval (statIntFloatMul 53 1024 prec53 emax1024 true U8 Ceil) (Quad 200 3 9 (B754_infinity true)) = Done 3.
Proof. reflexivity. Qed.

(** [from_base(x).eval()] is [x] rounded to the digits of the float (and kept in range), *)
Theorem C45_base :
  forall prec emax Hp He oc t R b, ity_ok t b -> bits t <= emax ->
  exists n, IZR n = nearest prec emax (IZR b) /\
    sv_eval (statIntFloatMul prec emax Hp He oc t R)
      (sv_from_base (statIntFloatMul prec emax Hp He oc t R) b) = Done (sat t n).
Proof. exact C45_base_proof. Qed.
Print Assumptions C45_base.
(** [u128::MAX as f32] is infinite, and converts back to [u128::MAX]. *)
Example C45_base_case_u128 :
  let S := statIntFloatMul 24 128 prec24 emax128 true U128 Floor in
  ity_ok U128 (2 ^ 128 - 1) /\ sv_eval S (sv_from_base S (2 ^ 128 - 1)) = Done (2 ^ 128 - 1).
Proof. split; [split; cbn; lia|reflexivity]. Qed.

(** so it is [x] whenever [x] needs no more digits than the float has: *)
Theorem C45_base_exact :
  forall prec emax Hp He oc t R b, ity_ok t b -> bits t <= emax -> Z.abs b <= 2 ^ prec ->
  sv_eval (statIntFloatMul prec emax Hp He oc t R)
    (sv_from_base (statIntFloatMul prec emax Hp He oc t R) b) = Done b.
Proof. exact C45_base_exact_proof. Qed.
Print Assumptions C45_base_exact.
Example C45_base_exact_case :
  Z.abs (-16777216) <= 2 ^ 24 /\
  (let S := statIntFloatMul 24 128 prec24 emax128 true I32 Floor in
   sv_eval S (sv_from_base S (-16777216))) = Done (-16777216).
Proof. split; [lia|reflexivity]. Qed.

(** always for integers of up to 32 bits with [f64] and of up to 16 bits with [f32], *)
Theorem C45_base_f64 :
  forall oc t R b, bits t <= 32 -> ity_ok t b ->
  sv_eval (statIntFloatMul 53 1024 prec53 emax1024 oc t R)
    (sv_from_base (statIntFloatMul 53 1024 prec53 emax1024 oc t R) b) = Done b.
Proof. exact C45_base_f64_proof. Qed.
Print Assumptions C45_base_f64.
Theorem C45_base_f32 :
  forall oc t R b, bits t <= 16 -> ity_ok t b ->
  sv_eval (statIntFloatMul 24 128 prec24 emax128 oc t R)
    (sv_from_base (statIntFloatMul 24 128 prec24 emax128 oc t R) b) = Done b.
Proof. exact C45_base_f32_proof. Qed.
Print Assumptions C45_base_f32.
Example C45_base_case :
  let S := statIntFloatMul 53 1024 prec53 emax1024 true I32 Truncate in
  bits I32 <= 32 /\ sv_eval S (sv_from_base S (-2147483648)) = Done (-2147483648).
Proof. split; [cbn; lia|reflexivity]. Qed.

(** and not in general: from 2^24+1 on with [f32], from 2^53+1 on with [f64]. *)
Theorem C45_base_refuted :
  ~ (forall prec emax Hp He oc t R b, ity_ok t b -> bits t <= emax ->
     sv_eval (statIntFloatMul prec emax Hp He oc t R)
       (sv_from_base (statIntFloatMul prec emax Hp He oc t R) b) = Done b) /\
  (forall oc R, sv_eval (statIntFloatMul 24 128 prec24 emax128 oc I32 R)
     (sv_from_base (statIntFloatMul 24 128 prec24 emax128 oc I32 R) 16777217) = Done 16777216) /\
  (forall oc R, sv_eval (statIntFloatMul 53 1024 prec53 emax1024 oc I64 R)
     (sv_from_base (statIntFloatMul 53 1024 prec53 emax1024 oc I64 R) 9007199254740993) = Done 9007199254740992).
Proof. exact C45_base_refuted_proof. Qed.
Print Assumptions C45_base_refuted.

(** C46: float stats answer within their bounds, whatever else they hold. *)
Theorem C46_StatFloat_within_bounds :
  forall prec emax Hp He,
  float_eval_bounded prec emax (statFloat (binF prec emax Hp He)) vmin vmax (fun x => x).
Proof. exact C46_StatFloat_within_bounds_proof. Qed.
Print Assumptions C46_StatFloat_within_bounds.
Theorem C46_StatFloatAdditive_within_bounds :
  forall prec emax Hp He,
  float_eval_bounded prec emax (statFloatAdditive (binF prec emax Hp He)) vmin vmax (fun x => x).
Proof. exact C46_StatFloatAdditive_within_bounds_proof. Qed.
Print Assumptions C46_StatFloatAdditive_within_bounds.
Theorem C46_StatMult_within_bounds :
  forall prec emax Hp He,
  float_eval_bounded prec emax (statMult (binF prec emax Hp He)) t_min t_max (fun x => x).
Proof. exact C46_StatMult_within_bounds_proof. Qed.
Print Assumptions C46_StatMult_within_bounds.
(** NaN with no upper bound; infinity between crossing bounds. *)
Example C46_within_bounds_case :
  let one := b_one 24 128 prec24 emax128 in
  sv_eval (statMult f32F) (@Tri f32F (B754_zero true) one B754_nan) = Done one /\
  sv_eval (statMult f32F) (@Tri f32F one (B754_zero true) (B754_infinity true)) = Done one.
Proof. split; reflexivity. Qed.

(** Bounds only narrow, in any order; NaN bounds are ignored; nothing panics. *)
Theorem C46_StatFloat_bounds_accumulate :
  forall prec emax Hp He,
  float_bounds_accumulate prec emax (statFloat (binF prec emax Hp He)) vmin vmax (fun x => x).
Proof. exact C46_StatFloat_bounds_accumulate_proof. Qed.
Print Assumptions C46_StatFloat_bounds_accumulate.
Theorem C46_StatFloatAdditive_bounds_accumulate :
  forall prec emax Hp He,
  float_bounds_accumulate prec emax (statFloatAdditive (binF prec emax Hp He)) vmin vmax (fun x => x).
Proof. exact C46_StatFloatAdditive_bounds_accumulate_proof. Qed.
Print Assumptions C46_StatFloatAdditive_bounds_accumulate.
Theorem C46_StatMult_bounds_accumulate :
  forall prec emax Hp He,
  float_bounds_accumulate prec emax (statMult (binF prec emax Hp He)) t_min t_max (fun x => x).
Proof. exact C46_StatMult_bounds_accumulate_proof. Qed.
Print Assumptions C46_StatMult_bounds_accumulate.

(** Consequence, for any type with the two properties above: from the default or a base value on,
    through any steps, evaluation succeeds with a number that is not NaN. *)
Theorem C46_never_nan :
  forall prec emax (S : StatValue) lo hi out bnd,
  float_eval_bounded prec emax S lo hi out -> float_bounds_accumulate prec emax S lo hi bnd ->
  (is_nan (lo (sv_default S)) = false /\ is_nan (hi (sv_default S)) = false) ->
  (forall b, is_nan (lo (sv_from_base S b)) = false /\ is_nan (hi (sv_from_base S b)) = false) ->
  forall l, exists v r, run (sv_default S) l = Done v /\ sv_eval S v = Done r /\ is_nan (out r) = false.
Proof. exact C46_never_nan_proof. Qed.
Print Assumptions C46_never_nan.
Theorem C46_defaults_not_nan :
  forall prec emax Hp He, let F := binF prec emax Hp He in
  (is_nan (vmin (sv_default (statFloat F))) = false /\ is_nan (vmax (sv_default (statFloat F))) = false) /\
  (is_nan (vmin (sv_default (statFloatAdditive F))) = false /\ is_nan (vmax (sv_default (statFloatAdditive F))) = false) /\
  (is_nan (t_min (sv_default (statMult F))) = false /\ is_nan (t_max (sv_default (statMult F))) = false) /\
  (forall b, is_nan (vmin (sv_from_base (statFloat F) b)) = false /\ is_nan (vmax (sv_from_base (statFloat F) b)) = false) /\
  (forall b, is_nan (vmin (sv_from_base (statFloatAdditive F) b)) = false /\ is_nan (vmax (sv_from_base (statFloatAdditive F) b)) = false) /\
  (forall b, is_nan (t_min (sv_from_base (statMult F) b)) = false /\ is_nan (t_max (sv_from_base (statMult F) b)) = false).
Proof. exact C46_defaults_not_nan_proof. Qed.
Print Assumptions C46_defaults_not_nan.
(** 0 * infinity with a NaN bound: the product is NaN, the answer the largest number. *)
Example C46_case :
  let S := statFloat f32F in
  let l := [sMul S (B754_infinity false); sMin S B754_nan; sMax S (b_one 24 128 prec24 emax128)] in
  match (let! v := @run S (sv_default S) l in sv_eval S v) with Done r => Beqb r (b_one 24 128 prec24 emax128) | _ => false end = true.
Proof. reflexivity. Qed.

(** C11 for float stats: a finite base comes back, *)
Theorem C11_float_base :
  forall prec emax Hp He, let F := binF prec emax Hp He in
  base_returns (statFloat F) (fun b => b) (fun b => is_finite b = true) /\
  base_returns (statFloatAdditive F) (fun b => b) (fun b => is_finite b = true) /\
  base_returns (statMult F) (fun b => b) (fun b => is_finite b = true).
Proof. exact C11_float_base_proof. Qed.
Print Assumptions C11_float_base.
Example C11_float_case :
  let b := binary_normalize 24 128 prec24 emax128 mode_NE (-5) (-1) false in
  is_finite b = true /\
  match sv_eval (statFloatAdditive f32F) (sv_from_base (statFloatAdditive f32F) b) with
  | Done r => Beqb r b | _ => false end = true.
Proof. split; reflexivity. Qed.
(** infinities come back as the largest or smallest number, and NaN as the largest. *)
Theorem C11_float_base_refuted :
  (forall prec emax Hp He, let F := binF prec emax Hp He in
   ~ base_returns (statFloat F) (fun b => b) (fun _ => True) /\
   ~ base_returns (statFloatAdditive F) (fun b => b) (fun _ => True) /\
   ~ base_returns (statMult F) (fun b => b) (fun _ => True)) /\
  (forall prec emax Hp He b, is_finite b = false ->
   sv_eval (statMult (binF prec emax Hp He)) (sv_from_base (statMult (binF prec emax Hp He)) b)
   = Done (match b with B754_infinity true => b_minv prec emax Hp He | _ => b_maxv prec emax Hp He end)).
Proof. exact C11_float_base_refuted_proof. Qed.
Print Assumptions C11_float_base_refuted.

(** ** The same for [Fraction] in place of a float *)
Theorem C46_fraction_within_bounds :
  forall t, let F := fracF true t in
  frac_eval_bounded t (statFloat F) vmin vmax (fun x => x) (frac_quad_ok t) /\
  frac_eval_bounded t (statFloatAdditive F) vmin vmax (fun x => x) (frac_quad_ok t) /\
  frac_eval_bounded t (statMult F) t_min t_max (fun x => x) (frac_tri_ok true t).
Proof. exact C46_fraction_within_bounds_proof. Qed.
Print Assumptions C46_fraction_within_bounds.
Example C46_fraction_within_bounds_case :
  let v := Quad (Frac 7 2) (Frac 1 3) (Frac 5 1) (Frac 3 2) in
  frac_quad_ok I32 v /\ sv_eval (statFloat (fracF true I32)) v = Done (Frac 5 1).
Proof. split; [repeat split; cbn; lia|reflexivity]. Qed.

(** Bounds of fractions only narrow, with and without overflow checks. *)
Theorem C46_fraction_bounds_accumulate :
  forall oc t, let F := fracF oc t in
  frac_bounds_accumulate (statFloat F) vmin vmax (fun x => x) /\
  frac_bounds_accumulate (statFloatAdditive F) vmin vmax (fun x => x) /\
  frac_bounds_accumulate (statMult F) t_min t_max (fun x => x).
Proof. exact C46_fraction_bounds_accumulate_proof. Qed.
Print Assumptions C46_fraction_bounds_accumulate.
Example C46_fraction_case :
  let S := statFloat (fracF true I32) in
  let l := [sAdd S (Frac 7 2); sMul S (Frac 3 1); sMax S (Frac 19 2); sMin S (Frac (-1) 3); sMax S (Frac 10 1)] in
  (let! v := @run S (sv_default S) l in sv_eval S v) = Done (Frac 19 2) /\ Forall unordered l.
Proof. split; [reflexivity|repeat constructor]. Qed.

(** C11: every fraction in lowest terms comes back. *)
Theorem C11_fraction_base :
  forall oc t, let F := fracF oc t in
  base_returns (statFloat F) (fun b => b) (reduced t) /\
  base_returns (statFloatAdditive F) (fun b => b) (reduced t) /\
  base_returns (statMult F) (fun b => b) (reduced t).
Proof. exact C11_fraction_base_proof. Qed.
Print Assumptions C11_fraction_base.
Example C11_fraction_case :
  let S := statFloatAdditive (fracF true I8) in
  reduced I8 (Frac (-128) 127) /\ sv_eval S (sv_from_base S (Frac (-128) 127)) = Done (Frac (-128) 127).
Proof. split; [repeat split; cbn; lia|reflexivity]. Qed.
