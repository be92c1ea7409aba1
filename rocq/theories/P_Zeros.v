(** C74: std leaves open which of [0.0] and [-0.0] [min] and [max] return. Whatever they return, and however
    that differs from call to call, float stats come out the same but for the sign of a zero. *)
From Coq Require Import ZArith List.
From Flocq Require Import Core BinarySingleNaN.
From Verif Require Import M_Outcome M_Ints M_Float M_Value M_Types S_Types S_Totals S_Zeros L_Zeros.
Import ListNotations.
Local Open Scope Z_scope.

(** What [same] numbers have in common: everything but the sign of a zero. *)
Theorem C74_same_means : forall prec emax (x y : binary_float prec emax), same x y ->
  B2R x = B2R y /\ is_finite x = is_finite y /\ is_nan x = is_nan y /\
  forall z, Bltb x z = Bltb y z /\ Bltb z x = Bltb z y /\ Beqb x z = Beqb y z /\
            (is_nan x = false -> is_nan z = false -> Bleb x z = Bleb y z).
Proof. exact C74_same_means_proof. Qed.
Print Assumptions C74_same_means.
Example C74_same_case : @same 24 128 (B754_zero false) (B754_zero true) /\ @same 24 128 B754_nan B754_nan /\
  ~ @same 24 128 (B754_infinity false) (B754_infinity true).
Proof. split; [left; reflexivity|]. split; [right; split; reflexivity|]. intros [H|[H _]]; discriminate H. Qed.

(** The contract can be kept by returning the first zero, as the model does, and by returning the second. *)
Theorem C74_contract : forall prec emax,
  keeps_min (b_min prec emax) /\ keeps_max (b_max prec emax) /\
  keeps_min (second_min prec emax) /\ keeps_max (second_max prec emax).
Proof. exact C74_contract_proof. Qed.
Print Assumptions C74_contract.

Theorem C74_float : forall prec emax Hp He h v C, reached_float prec emax Hp He h v ->
  same_worth (sv_eval (statFloat (picky prec emax Hp He C)) v) (worth h).
Proof. exact C74_float_proof. Qed.
Print Assumptions C74_float.
Theorem C74_additive : forall prec emax Hp He h v C, reached_additive prec emax Hp He h v ->
  same_worth (sv_eval (statFloatAdditive (picky prec emax Hp He C)) v) (worth h).
Proof. exact C74_additive_proof. Qed.
Print Assumptions C74_additive.
Theorem C74_mult : forall prec emax Hp He h v C, reached_mult prec emax Hp He h v ->
  same_worth (sv_eval (statMult (picky prec emax Hp He C)) (to_picky prec emax Hp He C v)) (worth h).
Proof. exact C74_mult_proof. Qed.
Print Assumptions C74_mult.
(** What the model computes is among what may come out. *)
Theorem C74_own : forall prec emax Hp He,
  (forall h v, value_of h = Done v -> reached_float prec emax Hp He h v) /\
  (forall h v, value_of h = Done v -> reached_additive prec emax Hp He h v) /\
  (forall h v, value_of h = Done v -> reached_mult prec emax Hp He h v).
Proof. exact C74_own_proof. Qed.
Print Assumptions C74_own.
Example C74_case :
  let S := statFloat f32F in
  let h : history S := Joined (Applied (@FromBase S (b_one 24 128 prec24 emax128)) (@OMax S (B754_zero false)))
                              (Applied FromDefault (@OMax S (B754_zero true))) in
  exists v, reached_float 24 128 prec24 emax128 h v /\
    sv_eval (statFloat (picky 24 128 prec24 emax128 seconds)) v = Done (B754_zero true).
Proof.
  intros S h. eexists. split.
  - eapply (by_join _ _ _ _ _ seconds).
    + eapply (by_call _ _ _ _ _ seconds); [apply by_base|cbn; reflexivity].
    + eapply (by_call _ _ _ _ _ seconds); [apply by_default|cbn; reflexivity].
    + cbn. reflexivity.
  - vm_compute. reflexivity.
Qed.

(** Rounding does not meet two zeros: integer stats with float multipliers come out exactly the same. *)
Theorem C74_rounding : forall prec emax Hp He C R (x : binary_float prec emax),
  round_with R (picky prec emax Hp He C) x = round_with R (binF prec emax Hp He) x.
Proof. exact C74_rounding_proof. Qed.
Print Assumptions C74_rounding.
Example C74_rounding_case :
  match round_with TruncateSigned (picky 24 128 prec24 emax128 seconds) (binary_normalize 24 128 prec24 emax128 mode_NE 1 (-1) false) with
  | Done y => Beqb y (b_one 24 128 prec24 emax128) | _ => false end = true.
Proof. vm_compute. reflexivity. Qed.

(** The sign of a zero does depend on it. *)
Theorem C74_sign_refuted :
  let S := statMult f32F in
  let h : history S := Applied (Applied (@FromBase S (b_one 24 128 prec24 emax128)) (@OMax S (B754_zero false))) (@OMax S (B754_zero true)) in
  worth h = Done (B754_zero false) /\
  exists v, reached_mult 24 128 prec24 emax128 h v /\
    sv_eval (statMult (picky 24 128 prec24 emax128 seconds)) (to_picky 24 128 prec24 emax128 seconds v) = Done (B754_zero true).
Proof. exact C74_sign_refuted_proof. Qed.
Print Assumptions C74_sign_refuted.
