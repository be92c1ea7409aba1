(** C58: what an integer stat is worth, as a function of everything that went into it. *)
From Coq Require Import ZArith Lia List.
From Verif Require Import M_Outcome M_Ints M_Ratio M_Float M_Value M_Types S_Ratio S_Types S_Totals
  L_Ints L_Totals L_Totals2.
Import ListNotations.
Local Open Scope Z_scope.

(** [StatInt] with overflow checks: if it evaluates, to the sum times the product, bounded. *)
Theorem C58_StatInt_checked :
  forall t (h : history (statInt true (prim t))) r,
  worth h = Done r ->
  r = bounded t (floors h same) (ceilings h same) (sum (gains h same same) * product (factors h same)).
Proof. exact C58_StatInt_checked_proof. Qed.
Print Assumptions C58_StatInt_checked.
(** Wrapping arithmetic: always, modulo 2^bits. *)
Theorem C58_StatInt_wrapping :
  forall oc T (h : history (statInt oc T)),
  i_flav T = FWrapping \/ (i_flav T = FPrim /\ oc = false) ->
  worth h = Done (bounded (i_ty T) (floors h same) (ceilings h same)
                    (wrap (i_ty T) (sum (gains h same same) * product (factors h same)))).
Proof. exact C58_StatInt_wrapping_proof. Qed.
Print Assumptions C58_StatInt_wrapping.
(** With room for the contributions every build and every flavour agrees on the exact result. *)
Theorem C58_StatInt_fits :
  forall oc T (h : history (statInt oc T)),
  steady h -> Forall (z_ok T) (gains h same same) -> Forall (z_ok T) (factors h same) ->
  room (gains h same same) <= imax (i_ty T) -> room_mul (factors h same) <= imax (i_ty T) ->
  z_ok T (sum (gains h same same) * product (factors h same)) ->
  worth h = Done (bounded (i_ty T) (floors h same) (ceilings h same)
                    (sum (gains h same same) * product (factors h same))).
Proof. exact C58_StatInt_fits_proof. Qed.
Print Assumptions C58_StatInt_fits.
(** (10 + 5 - 3) * (2 * -3), at least -50. *)
Example C58_StatInt_case :
  let S := statInt true (prim I8) in
  let h := Joined (Applied (Applied (Applied (@FromBase S 10) (@OAdd S 5)) (@OMul S 2)) (@OMin S (-50)))
                  (Applied (Applied (@FromDefault S) (@OMul S (-3))) (@OAdd S (-3))) in
  worth h = Done (-50) /\ gains h same same = [10; 5; -3] /\ factors h same = [2; -3] /\
  floors h same = [-50] /\ ceilings h same = [] /\ steady h /\
  room (gains h same same) <= imax I8 /\ room_mul (factors h same) <= imax I8 /\
  z_ok (prim I8) (sum (gains h same same) * product (factors h same)).
Proof. repeat split; cbn; lia. Qed.
Example C58_StatInt_wrapping_case :
  let S := statInt true {| i_ty := I8; i_flav := FWrapping |} in
  worth (Applied (Applied (@FromBase S 100) (@OMul S 3)) (@OAdd S 7)) = Done (321 - 256).
Proof. reflexivity. Qed.

(** [StatIntPercentAdditive]: the sum of the addends scaled by one plus the sum of the percentages. *)
Theorem C58_StatIntPercentAdditive_checked :
  forall t R scale s (h : history (statPctAdd true (prim t) R scale)) r,
  from_i64 t scale = Done s -> 0 < s -> worth h = Done r ->
  exists y, rounds_to R (sum (gains h same same) * (s + sum (factors h same))) s y /\
    r = bounded t (floors h same) (ceilings h same) y.
Proof. exact C58_StatIntPercentAdditive_checked_proof. Qed.
Print Assumptions C58_StatIntPercentAdditive_checked.
Theorem C58_StatIntPercentAdditive_fits :
  forall oc T R scale s (h : history (statPctAdd oc T R scale)),
  from_i64 (i_ty T) scale = Done s -> 0 < s -> steady h ->
  Forall (z_ok T) (gains h same same) -> Forall (z_ok T) (factors h same) ->
  room (gains h same same) <= imax (i_ty T) -> room (factors h same) <= imax (i_ty T) ->
  z_ok T (s + sum (factors h same)) -> z_ok T (sum (gains h same same) * (s + sum (factors h same))) ->
  ~ round_overflows R (i_ty T) (sum (gains h same same) * (s + sum (factors h same))) s ->
  exists y, rounds_to R (sum (gains h same same) * (s + sum (factors h same))) s y /\
    worth h = Done (bounded (i_ty T) (floors h same) (ceilings h same) y).
Proof. exact C58_StatIntPercentAdditive_fits_proof. Qed.
Print Assumptions C58_StatIntPercentAdditive_fits.
(** (35 + 10) * (100% + 30% - 5%) = 56.25, at most 60. *)
Example C58_StatIntPercentAdditive_case :
  let S := statPctAdd true (prim I32) Ceil 100 in
  let h := Joined (Applied (Applied (@FromBase S 35) (@OMul S 30)) (@OMax S 60))
                  (Applied (Applied (@FromDefault S) (@OMul S (-5))) (@OAdd S 10)) in
  worth h = Done 57 /\ gains h same same = [35; 10] /\ factors h same = [30; -5] /\ steady h /\
  from_i64 I32 100 = Done 100 /\ room (gains h same same) <= imax I32 /\ room (factors h same) <= imax I32 /\
  ~ round_overflows Ceil I32 (sum (gains h same same) * (100 + sum (factors h same))) 100.
Proof. repeat split; cbn; lia. Qed.

(** [StatIntFraction]: the sum of the addends times the product of the fractions. *)
Theorem C58_StatIntFraction_checked :
  forall t R (h : history (statIntFraction true (prim t) R)) r,
  Forall (ity_ok t) (gains h same same) -> Forall (reduced t) (factors h same) ->
  worth h = Done r ->
  exists y, rounds_to R (sum (gains h same same) * over (factors h same)) (under (factors h same)) y /\
    r = bounded t (floors h same) (ceilings h same) y.
Proof. exact C58_StatIntFraction_checked_proof. Qed.
Print Assumptions C58_StatIntFraction_checked.
Theorem C58_StatIntFraction_fits :
  forall oc T R (h : history (statIntFraction oc T R)),
  steady h -> Forall (z_ok T) (gains h same same) -> Forall (reduced (i_ty T)) (factors h same) ->
  room (gains h same same) <= imax (i_ty T) -> room_frac (factors h same) <= imax (i_ty T) ->
  z_ok T (sum (gains h same same) * over (factors h same)) ->
  ~ round_overflows R (i_ty T) (sum (gains h same same) * over (factors h same)) (under (factors h same)) ->
  exists y, rounds_to R (sum (gains h same same) * over (factors h same)) (under (factors h same)) y /\
    worth h = Done (bounded (i_ty T) (floors h same) (ceilings h same) y).
Proof. exact C58_StatIntFraction_fits_proof. Qed.
Print Assumptions C58_StatIntFraction_fits.
(** (7 - 2) * (2/3 * 7/2) = 11 2/3 *)
Example C58_StatIntFraction_case :
  let S := statIntFraction true (prim I8) Round in
  let h := Joined (Applied (@FromBase S 7) (@OMul S (Frac 2 3)))
                  (Applied (Applied (@FromDefault S) (@OMul S (Frac 7 2))) (@OAdd S (-2))) in
  worth h = Done 12 /\ gains h same same = [7; -2] /\ steady h /\
  over (factors h same) = 14 /\ under (factors h same) = 6 /\
  Forall (reduced I8) (factors h same) /\ room_frac (factors h same) <= imax I8.
Proof.
  split; [reflexivity|]. split; [reflexivity|]. split; [cbn; tauto|]. split; [reflexivity|]. split; [reflexivity|].
  split; [|cbn; lia]. repeat constructor; cbn; lia.
Qed.

(** [StatIntPercent], one value: the sum of the addends times the product of the percentages, *)
Theorem C58_StatIntPercent_based :
  forall t R scale s (h : history (statPct true (prim t) R scale)) r,
  from_i64 t scale = Done s -> 0 < s -> alone h -> based h ->
  Forall (ity_ok t) (gains h same same) -> Forall (ity_ok t) (factors h same) ->
  worth h = Done r ->
  exists y, rounds_to R (sum (gains h same same) * product (factors h same))
      (s ^ Z.of_nat (length (factors h same))) y /\
    r = bounded t (floors h same) (ceilings h same) y.
Proof. exact C58_StatIntPercent_based_proof. Qed.
Print Assumptions C58_StatIntPercent_based.
(** and without a base one more than was contributed (joined values: C13). *)
Theorem C58_StatIntPercent_default :
  forall t R scale s (h : history (statPct true (prim t) R scale)) r,
  from_i64 t scale = Done s -> 0 < s -> alone h -> ~ based h ->
  Forall (ity_ok t) (gains h same same) -> Forall (ity_ok t) (factors h same) ->
  worth h = Done r ->
  exists y, rounds_to R ((1 + sum (gains h same same)) * product (factors h same))
      (s ^ Z.of_nat (length (factors h same))) y /\
    r = bounded t (floors h same) (ceilings h same) y.
Proof. exact C58_StatIntPercent_default_proof. Qed.
Print Assumptions C58_StatIntPercent_default.
(** (40 + 5) * 150% * 30% = 20.25, and the same additions on the default: (1 + 45) * 45% = 20.7 *)
Example C58_StatIntPercent_case :
  let S := statPct true (prim I32) Ceil 100 in
  let ops h := Applied (Applied (Applied h (@OMul S 150)) (@OAdd S 5)) (@OMul S 30) in
  worth (ops (@FromBase S 40)) = Done 21 /\ based (ops (@FromBase S 40)) /\ alone (ops (@FromBase S 40)) /\
  worth (ops (Applied (@FromDefault S) (@OAdd S 40))) = Done 21 /\
  worth (Applied (@FromDefault S) (@OAdd S 40)) = Done 41.
Proof. repeat split. Qed.
