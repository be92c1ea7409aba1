(** C59: what a float stat is worth, as a function of everything that went into it. *)
From Coq Require Import ZArith Reals Lia Lra List Permutation.
From Flocq Require Import Core BinarySingleNaN.
From Verif Require Import M_Outcome M_Ints M_Ratio M_Float M_Value M_Types S_Ratio S_Types S_Float S_Totals S_FloatTotals
  L_Ints L_FloatTotals2 L_FloatTotals3.
Import ListNotations.
Local Open Scope Z_scope.

(** [StatFloat]: the sum times the product, bounded, whatever the order and grouping. Each is off by
    no more than one unit in the last place per contribution. *)
Theorem C59_StatFloat :
  forall prec emax Hp He (h : history (statFloat (binF prec emax Hp He))),
  summable (gains h same same) -> multipliable (factors h same) ->
  exists r a m, worth h = Done r /\
    near_total (gains h same same) a /\ near_product (factors h same) m /\
    ext r = clamped (floors h same) (ceilings h same) (nearest prec emax (a * m)).
Proof. exact C59_StatFloat_proof. Qed.
Print Assumptions C59_StatFloat.
(** Multiples of one power of two add up exactly, short fractions multiply exactly. *)
Theorem C59_StatFloat_exact :
  forall prec emax Hp He e (h : history (statFloat (binF prec emax Hp He))),
  on_grid e (gains h same same) -> short (factors h same) ->
  exists r, worth h = Done r /\
    ext r = clamped (floors h same) (ceilings h same)
              (nearest prec emax (total (gains h same same) * outcome_of (factors h same))).
Proof. exact C59_StatFloat_exact_proof. Qed.
Print Assumptions C59_StatFloat_exact.
Theorem C59_StatFloat_order_free :
  forall prec emax Hp He e (h k : history (statFloat (binF prec emax Hp He))),
  on_grid e (gains h same same) -> short (factors h same) ->
  Permutation (gains h same same) (gains k same same) -> Permutation (factors h same) (factors k same) ->
  Permutation (floors h same) (floors k same) -> Permutation (ceilings h same) (ceilings k same) ->
  exists r s, worth h = Done r /\ worth k = Done s /\ ext r = ext s.
Proof. exact C59_StatFloat_order_free_proof. Qed.
Print Assumptions C59_StatFloat_order_free.
(** (10 + 5) * 1.5, at most 22. *)
Example C59_StatFloat_case :
  let S := statFloat f32F in
  let h := Joined (Applied (@FromBase S (f32_int 10)) (@OAdd S (f32_int 5)))
                  (Applied (Applied (@FromDefault S) (@OMul S (f32_half 3))) (@OMax S (f32_int 22))) in
  (exists r, worth h = Done r /\ B2SF r = B2SF (f32_int 22)) /\ gains h same same = [f32_int 10; f32_int 5] /\ factors h same = [f32_half 3] /\
  floors h same = [] /\ ceilings h same = [f32_int 22] /\
  summable (gains h same same) /\ multipliable (factors h same) /\
  on_grid 0 (gains h same same) /\ short (factors h same).
Proof.
  intros S h. split; [eexists; split; [reflexivity|vm_compute; reflexivity]|]. do 4 (split; [reflexivity|]).
  change (gains h same same) with [f32_int 10; f32_int 5]. change (factors h same) with [f32_half 3].
  destruct (f32_int_spec 10) as [F1 R1]; [lia|]. destruct (f32_int_spec 5) as [F2 R2]; [lia|].
  destruct (f32_half_spec 3) as [F3 R3]; [lia|].
  unfold summable, multipliable, on_grid, short, few, finite_all.
  assert (W : weight [f32_int 10; f32_int 5] = 15%R).
  { unfold weight. cbn [fold_right]. rewrite R1, R2, !Rabs_pos_eq; lra. }
  assert (Sp : (spread [f32_half 3] <= 2)%R).
  { unfold spread. cbn [fold_right]. rewrite R3. unfold reach. rewrite Req_bool_false by lra.
    rewrite Rabs_pos_eq by lra. rewrite Rmax_left; lra. }
  pose proof (bpow_ge 4 126 ltac:(lia)) as B1. pose proof (bpow_ge 1 22 ltac:(lia)) as B2.
  pose proof (bpow_ge 1 124 ltac:(lia)) as B3. pose proof (bpow_ge 4 24 ltac:(lia)) as B4. cbn [pow] in B1, B2, B3, B4.
  change (128 - 2) with 126. change (128 - 4) with 124. change (24 - 2) with 22. change (24 + 0) with 24.
  repeat split; try (now repeat constructor); try lia; cbn [length INR]; try lra.
  - repeat constructor; [exists 10|exists 5]; [rewrite R1|rewrite R2]; cbn; lra.
  - exists [(3, -1)]. split; [constructor; [cbn [fst snd]; rewrite R3; cbn; lra|constructor]|]. split; cbn; lia.
Qed.

(** [StatFloatAdditive]: the sum times one plus the sum of the multipliers. *)
Theorem C59_StatFloatAdditive :
  forall prec emax Hp He (h : history (statFloatAdditive (binF prec emax Hp He))),
  summable (gains h same same) -> summable (factors h same) ->
  exists r a m, worth h = Done r /\
    near_total (gains h same same) a /\ near_total (factors h same) m /\
    ext r = clamped (floors h same) (ceilings h same) (nearest prec emax (a * nearest prec emax (m + 1))).
Proof. exact C59_StatFloatAdditive_proof. Qed.
Print Assumptions C59_StatFloatAdditive.
Theorem C59_StatFloatAdditive_exact :
  forall prec emax Hp He e e' (h : history (statFloatAdditive (binF prec emax Hp He))),
  on_grid e (gains h same same) -> on_grid e' (b_one prec emax Hp He :: factors h same) ->
  exists r, worth h = Done r /\
    ext r = clamped (floors h same) (ceilings h same)
              (nearest prec emax (total (gains h same same) * (1 + total (factors h same)))).
Proof. exact C59_StatFloatAdditive_exact_proof. Qed.
Print Assumptions C59_StatFloatAdditive_exact.
Theorem C59_StatFloatAdditive_order_free :
  forall prec emax Hp He e e' (h k : history (statFloatAdditive (binF prec emax Hp He))),
  on_grid e (gains h same same) -> on_grid e' (b_one prec emax Hp He :: factors h same) ->
  Permutation (gains h same same) (gains k same same) -> Permutation (factors h same) (factors k same) ->
  Permutation (floors h same) (floors k same) -> Permutation (ceilings h same) (ceilings k same) ->
  exists r s, worth h = Done r /\ worth k = Done s /\ ext r = ext s.
Proof. exact C59_StatFloatAdditive_order_free_proof. Qed.
Print Assumptions C59_StatFloatAdditive_order_free.
(** 10 * (1 + (0.5 - 1)), at least 3. *)
Example C59_StatFloatAdditive_case :
  let S := statFloatAdditive f32F in
  let h := Joined (Applied (@FromBase S (f32_int 10)) (@OMul S (f32_half 1)))
                  (Applied (Applied (@FromDefault S) (@OMul S (f32_int (-1)))) (@OMin S (f32_int 3))) in
  (exists r, worth h = Done r /\ B2SF r = B2SF (f32_int 5)) /\ gains h same same = [f32_int 10] /\ factors h same = [f32_half 1; f32_int (-1)] /\
  floors h same = [f32_int 3] /\
  summable (gains h same same) /\ summable (factors h same) /\
  on_grid 0 (gains h same same) /\ on_grid (-1) (b_one 24 128 prec24 emax128 :: factors h same).
Proof.
  intros S h. split; [eexists; split; [reflexivity|vm_compute; reflexivity]|]. do 3 (split; [reflexivity|]).
  change (gains h same same) with [f32_int 10]. change (factors h same) with [f32_half 1; f32_int (-1)].
  change (b_one 24 128 prec24 emax128) with (f32_int 1).
  destruct (f32_int_spec 10) as [F1 R1]; [lia|]. destruct (f32_int_spec 1) as [F2 R2]; [lia|].
  destruct (f32_half_spec 1) as [F3 R3]; [lia|]. destruct (f32_int_spec (-1)) as [F4 R4]; [lia|].
  unfold summable, on_grid, few, finite_all.
  assert (W1 : weight [f32_int 10] = 10%R).
  { unfold weight. cbn [fold_right]. rewrite R1, !Rabs_pos_eq; lra. }
  assert (W2 : weight [f32_half 1; f32_int (-1)] = (3 / 2)%R).
  { unfold weight. cbn [fold_right]. rewrite R3, R4, Rabs_pos_eq, Rabs_left; lra. }
  assert (W3 : weight [f32_int 1; f32_half 1; f32_int (-1)] = (5 / 2)%R).
  { unfold weight in *. cbn [fold_right] in *. rewrite W2, R2, Rabs_pos_eq; lra. }
  pose proof (bpow_ge 4 126 ltac:(lia)) as B1. pose proof (bpow_ge 1 22 ltac:(lia)) as B2.
  pose proof (bpow_ge 4 24 ltac:(lia)) as B3. pose proof (bpow_ge 4 23 ltac:(lia)) as B4. cbn [pow] in B1, B2, B3, B4.
  change (128 - 2) with 126. change (24 - 2) with 22. change (24 + 0) with 24. change (24 + -1) with 23.
  repeat split; try (now repeat constructor); try lia; cbn [length INR]; try lra.
  - repeat constructor. exists 10. rewrite R1. cbn. lra.
  - repeat constructor; [exists 2; rewrite R2|exists 1; rewrite R3|exists (-2); rewrite R4]; cbn; lra.
  - eapply Rle_trans; [apply Req_le; exact W3|lra].
Qed.

(** [StatMult]: the product of the multipliers, the base among them. *)
Theorem C59_StatMult :
  forall prec emax Hp He (h : history (statMult (binF prec emax Hp He))),
  multipliable (scales h same same) ->
  exists r m, worth h = Done r /\ near_product (scales h same same) m /\
    ext r = clamped (floors h same) (ceilings h same) m.
Proof. exact C59_StatMult_proof. Qed.
Print Assumptions C59_StatMult.
Theorem C59_StatMult_exact :
  forall prec emax Hp He (h : history (statMult (binF prec emax Hp He))),
  short (scales h same same) ->
  exists r, worth h = Done r /\
    ext r = clamped (floors h same) (ceilings h same) (outcome_of (scales h same same)).
Proof. exact C59_StatMult_exact_proof. Qed.
Print Assumptions C59_StatMult_exact.
Theorem C59_StatMult_order_free :
  forall prec emax Hp He (h k : history (statMult (binF prec emax Hp He))),
  short (scales h same same) -> Permutation (scales h same same) (scales k same same) ->
  Permutation (floors h same) (floors k same) -> Permutation (ceilings h same) (ceilings k same) ->
  exists r s, worth h = Done r /\ worth k = Done s /\ ext r = ext s.
Proof. exact C59_StatMult_order_free_proof. Qed.
Print Assumptions C59_StatMult_order_free.
(** 1.5 * 0 * 7. *)
Example C59_StatMult_case :
  let S := statMult f32F in
  let h := Applied (Joined (@FromBase S (f32_half 3)) (Applied (@FromDefault S) (@OMul S (f32_int 0)))) (@OMul S (f32_int 7)) in
  (exists r, worth h = Done r /\ B2SF r = B2SF (f32_int 0)) /\ scales h same same = [f32_half 3; f32_int 0; f32_int 7] /\
  multipliable (scales h same same) /\ short (scales h same same).
Proof.
  intros S h. split; [eexists; split; [reflexivity|vm_compute; reflexivity]|]. split; [reflexivity|].
  change (scales h same same) with [f32_half 3; f32_int 0; f32_int 7].
  destruct (f32_half_spec 3) as [F1 R1]; [lia|]. destruct (f32_int_spec 0) as [F2 R2]; [lia|].
  destruct (f32_int_spec 7) as [F3 R3]; [lia|].
  unfold multipliable, short, few, finite_all.
  pose proof (bpow_ge 4 124 ltac:(lia)) as B1. pose proof (bpow_ge 2 22 ltac:(lia)) as B2. cbn [pow] in B1, B2.
  change (128 - 4) with 124. change (24 - 2) with 22.
  repeat split; try (now repeat constructor); cbn [length INR]; try lra.
  - unfold spread. cbn [fold_right]. rewrite R1, R2, R3. unfold reach.
    rewrite (Req_bool_true 0), !Req_bool_false by lra. rewrite !Rabs_pos_eq by lra. rewrite !Rmax_left by lra. lra.
  - exists [(3, -1); (0, 0); (7, 0)]. split; [do 3 (constructor; [cbn [fst snd]; rewrite ?R1, ?R2, ?R3; cbn; lra|]); constructor|]. split; cbn; lia.
Qed.

(** [StatIntFloatMul]: the integers are added exactly, the multipliers as floats. *)
Theorem C59_StatIntFloatMul_checked :
  forall prec emax Hp He t R (h : history (statIntFloatMul prec emax Hp He true t R)) r,
  ~ too_large emax (nearest prec emax (IZR (sum (gains h same same)))) ->
  multipliable (factors h same) -> worth h = Done r ->
  exists m n, near_product (factors h same) (B2R m) /\ is_finite m = true /\
    product_int prec emax t R (sum (gains h same same)) m n /\
    r = bounded t (floors h same) (ceilings h same) n.
Proof. exact C59_StatIntFloatMul_checked_proof. Qed.
Print Assumptions C59_StatIntFloatMul_checked.
Theorem C59_StatIntFloatMul_fits :
  forall prec emax Hp He oc t R (h : history (statIntFloatMul prec emax Hp He oc t R)),
  steady h -> Forall (ity_ok t) (gains h same same) -> room (gains h same same) <= imax t ->
  ~ too_large emax (nearest prec emax (IZR (sum (gains h same same)))) ->
  multipliable (factors h same) ->
  exists m n, near_product (factors h same) (B2R m) /\ is_finite m = true /\
    product_int prec emax t R (sum (gains h same same)) m n /\
    worth h = Done (bounded t (floors h same) (ceilings h same) n).
Proof. exact C59_StatIntFloatMul_fits_proof. Qed.
Print Assumptions C59_StatIntFloatMul_fits.
(** With short multipliers and a sum that the float type holds, one rounding to the float type and
    one to an integer remain. *)
Theorem C59_StatIntFloatMul_exact :
  forall prec emax Hp He oc t R (h : history (statIntFloatMul prec emax Hp He oc t R)),
  steady h -> Forall (ity_ok t) (gains h same same) -> room (gains h same same) <= imax t ->
  Z.abs (sum (gains h same same)) <= 2 ^ prec -> short (factors h same) ->
  let p := nearest prec emax (IZR (sum (gains h same same)) * outcome_of (factors h same)) in
  ~ too_large emax p ->
  exists k, real_rounds_to R p k /\
    worth h = Done (bounded t (floors h same) (ceilings h same) (sat t k)).
Proof. exact C59_StatIntFloatMul_exact_proof. Qed.
Print Assumptions C59_StatIntFloatMul_exact.
(** (10 - 3) * 1.5 rounded up. *)
Example C59_StatIntFloatMul_case :
  let S := statIntFloatMul 24 128 prec24 emax128 true I16 Ceil in
  let h := Joined (Applied (@FromBase S 10) (@OMul S (f32_half 3))) (Applied (@FromDefault S) (@OAdd S (-3))) in
  worth h = Done 11 /\ gains h same same = [10; -3] /\ factors h same = [f32_half 3] /\ steady h /\
  Forall (ity_ok I16) (gains h same same) /\ room (gains h same same) <= imax I16 /\
  Z.abs (sum (gains h same same)) <= 2 ^ 24.
Proof.
  intros S h. split; [vm_compute; reflexivity|]. do 2 (split; [reflexivity|]).
  change (gains h same same) with [10; -3].
  split; [cbn; tauto|]. split; [repeat constructor; cbn; lia|]. split; cbn; lia.
Qed.
