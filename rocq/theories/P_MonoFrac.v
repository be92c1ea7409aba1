(** C75 over fractions: what more was granted to is worth no less. Every operand is a fraction in lowest terms. *)
From Coq Require Import ZArith QArith List Lia.
From Verif Require Import M_Outcome M_Ints M_Ratio M_Float M_Value M_Types S_Ratio S_Types S_Totals S_Monotone S_MonoFrac S_DemoFrac L_Totals2 L_Round L_FracTotals L_MonoFrac.
Import ListNotations.
Local Open Scope Z_scope.

Theorem C75_Fraction_StatFloat : forall t raise (h k : history (statFloat (fracF true t))) v r r',
  improved (fracfloat_merits true t raise) h k -> every (float_op_ok true t) h -> every (float_op_ok true t) k ->
  value_of h = Done v -> (raise = true -> 0 <= numer (addend v)) -> worth h = Done r -> worth k = Done r' -> (toQ r <= toQ r')%Q.
Proof. exact C75_Fraction_StatFloat_proof. Qed.
Print Assumptions C75_Fraction_StatFloat.
(** (3/2 - 1/6) * 5/4, at least 1; then 3/2 * 4/3, at least 1, and at most 3/2 no longer. *)
Example C75_Fraction_StatFloat_case :
  let h := Applied (Applied (Applied (Applied (@FromBase XF (Frac 3 2)) (@OAdd XF (Frac (-1) 6))) (@OMul XF (Frac 5 4))) (@OMin XF (Frac 1 1))) (@OMax XF (Frac 3 2)) in
  let k := Applied (Applied (@FromBase XF (Frac 3 2)) (@OMul XF (Frac 4 3))) (@OMin XF (Frac 1 1)) in
  improved (fracfloat_merits true I16 true) h k /\ every (float_op_ok true I16) h /\ every (float_op_ok true I16) k /\
  (let! v := value_of h in Done (0 <=? numer (addend v))) = Done true /\ worth h = Done (Frac 3 2) /\ worth k = Done (Frac 2 1).
Proof.
  cbv zeta. split.
  - apply im_loss; [|exact I]. apply im_op; [|cbn; unfold frac_le, Qle; cbn; lia]. apply im_op; [|cbn; unfold frac_le, Qle; cbn; lia].
    apply im_loss; [|cbn; lia]. apply im_base. cbn. unfold frac_le, Qle; cbn; lia.
  - repeat split; cbn; lia.
Qed.

Theorem C75_Fraction_StatFloatAdditive : forall t raise (h k : history (statFloatAdditive (fracF true t))) v r r',
  improved (fracadd_merits true t raise) h k -> every (floatadd_op_ok true t) h -> every (floatadd_op_ok true t) k ->
  value_of h = Done v -> (-1 <= toQ (mult v))%Q -> (raise = true -> 0 <= numer (addend v)) ->
  worth h = Done r -> worth k = Done r' -> (toQ r <= toQ r')%Q.
Proof. exact C75_Fraction_StatFloatAdditive_proof. Qed.
Print Assumptions C75_Fraction_StatFloatAdditive.
(** 10/3 * (1 - 1/2), then (10/3 + 1/3) * (1 + 1/4 - 1/2). *)
Example C75_Fraction_StatFloatAdditive_case :
  let h := Applied (@FromBase XA (Frac 10 3)) (@OMul XA (Frac (-1) 2)) in
  let k := Applied (Joined (@FromBase XA (Frac 10 3)) (Applied (Applied (@FromDefault XA) (@OAdd XA (Frac 1 3))) (@OMul XA (Frac 1 4)))) (@OMul XA (Frac (-1) 2)) in
  improved (fracadd_merits true I16 true) h k /\ every (floatadd_op_ok true I16) h /\ every (floatadd_op_ok true I16) k /\
  (let! v := value_of h in Done (mult v : ratio)) = Done (Frac (-1) 2) /\
  (let! v := value_of h in Done (0 <=? numer (addend v))) = Done true /\ worth h = Done (Frac 5 3) /\ worth k = Done (Frac 11 4).
Proof.
  cbv zeta. split.
  - apply im_op; [|cbn; unfold frac_le, Qle; cbn; lia]. apply im_joined; [apply im_base; cbn; unfold frac_le, Qle; cbn; lia|].
    apply im_gain; [|cbn; unfold frac_le, Qle; cbn; lia]. apply im_gain; [apply im_default|cbn; lia].
  - repeat split; cbn; lia.
Qed.

Theorem C75_Fraction_StatMult : forall t (h k : history (statMult (fracF true t))) r r',
  improved (fracmult_merits true t) h k -> every (mult_op_ok true t) h -> every (mult_op_ok true t) k ->
  worth h = Done r -> worth k = Done r' -> (toQ r <= toQ r')%Q.
Proof. exact C75_Fraction_StatMult_proof. Qed.
Print Assumptions C75_Fraction_StatMult.
(** 3/2 * 1/2, then 5/3 * 7/6 * 1/2. *)
Example C75_Fraction_StatMult_case :
  let h := Applied (@FromBase XM (Frac 3 2)) (@OMul XM (Frac 1 2)) in
  let k := Applied (Applied (@FromBase XM (Frac 5 3)) (@OMul XM (Frac 7 6))) (@OMul XM (Frac 1 2)) in
  improved (fracmult_merits true I16) h k /\ every (mult_op_ok true I16) h /\ every (mult_op_ok true I16) k /\
  worth h = Done (Frac 3 4) /\ worth k = Done (Frac 35 36).
Proof.
  cbv zeta. split.
  - apply im_op; [|split; [cbn; lia|cbn; unfold frac_le, Qle; cbn; lia]]. apply im_gain; [|cbn; unfold frac_le, Qle; cbn; lia].
    apply im_base. split; [cbn; lia|unfold frac_le, Qle; cbn; lia].
  - repeat split; cbn; lia.
Qed.
