(** C58, continued: [StatIntPercent] whatever was joined. *)
From Coq Require Import ZArith QArith Lia List.
From Verif Require Import M_Outcome M_Ints M_Ratio M_Float M_Value M_Types S_Ratio S_Types S_Totals S_PctTotals L_Ints L_PctTotals.
Import ListNotations.
Local Open Scope Z_scope.

(** What was added, and 1 for every joined value that was not given a base, times the sum over the
    joined values of the products of their percentages, rounded once and bounded. *)
Theorem C58_StatIntPercent :
  forall t R scale s (h : history (statPct true (prim t) R scale)) r,
  from_i64 t scale = Done s -> 0 < s ->
  Forall (ity_ok t) (gains h same same) -> Forall (ity_ok t) (factors h same) ->
  worth h = Done r ->
  exists y, rounds_to R ((unbased h + sum (gains h same same)) * Qnum (rate (S := statPct true (prim t) R scale) (out_of s) h)) (QDen (rate (S := statPct true (prim t) R scale) (out_of s) h)) y /\
    r = bounded t (floors h same) (ceilings h same) y.
Proof. exact C58_StatIntPercent_proof. Qed.
Print Assumptions C58_StatIntPercent.
(** It does not matter how the rate is written as a quotient. *)
Theorem C58_rate_any_form :
  forall R n q q' y, (q == q')%Q -> rounds_to R (n * Qnum q) (QDen q) y -> rounds_to R (n * Qnum q') (QDen q') y.
Proof. exact C58_rate_any_form_proof. Qed.
Print Assumptions C58_rate_any_form.
(** (40 + 5 + 1) * (150% * 50% + 100%) = 80.5 *)
Example C58_StatIntPercent_joined_case :
  let S := statPct true (prim I32) Floor 100 in
  let h := Joined (Applied (Applied (Applied (@FromBase S 40) (@OMul S 150)) (@OAdd S 5)) (@OMul S 50)) (@FromDefault S) in
  worth h = Done 80 /\ unbased h = 1 /\ gains h same same = [40; 5] /\ factors h same = [150; 50] /\ (rate (S := S) (out_of 100) h == 7 # 4)%Q.
Proof. repeat split. Qed.
