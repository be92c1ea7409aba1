From Coq Require Import ZArith Reals QArith List Bool Lia Lra.
From Flocq Require Import Core BinarySingleNaN.
From Verif Require Import M_Outcome M_Ints M_Ratio M_Float M_Value M_Types S_Ratio S_Types S_Float L_Outcome L_Ints L_Ratio L_Float.
Import ListNotations.
Local Open Scope Z_scope.

Lemma C20_float_rounding_unique_proof :
  forall R x n n', real_rounds_to R x n -> real_rounds_to R x n' -> n = n'.
Proof.
  assert (Fl : forall x k k', floor_of x k -> floor_of x k' -> k = k').
  { intros x k k' [A B] [C D].
    assert (k < k' + 1) by (apply lt_IZR; rewrite plus_IZR; lra).
    assert (k' < k + 1) by (apply lt_IZR; rewrite plus_IZR; lra). lia. }
  assert (Ce : forall x k k', ceil_of x k -> ceil_of x k' -> k = k').
  { intros x k k' [A B] [C D].
    assert (k - 1 < k') by (apply lt_IZR; rewrite minus_IZR; lra).
    assert (k' - 1 < k) by (apply lt_IZR; rewrite minus_IZR; lra). lia. }
  intros [] x n n' H H'; cbn in H, H'; eauto.
  - destruct H as [A B], H' as [A' B'].
    destruct (Rle_dec 0 x) as [L|L]; [eapply Fl; eauto|eapply Ce; [apply B|apply B']; lra].
  - destruct H as [A B], H' as [A' B'].
    assert (T : forall a b, (Rabs (IZR a - x) <= / 2)%R -> (Rabs (IZR b - x) <= / 2)%R ->
      (Rabs (IZR a - x) = / 2 -> Rabs x < Rabs (IZR a))%R ->
      (Rabs (IZR b - x) = / 2 -> Rabs x < Rabs (IZR b))%R -> ~ a < b).
    { intros a b Ha Hb Ea Eb L.
      apply Rabs_le_inv in Ha, Hb. assert (L' : a + 1 <= b) by lia. apply IZR_le in L'.
      rewrite plus_IZR in L'.
      assert (Xa : (IZR a - x = - / 2)%R) by lra. assert (Xb : (IZR b - x = / 2)%R) by lra.
      rewrite Xa, Rabs_Ropp, Rabs_pos_eq in Ea by lra. rewrite Xb, Rabs_pos_eq in Eb by lra.
      specialize (Ea eq_refl). specialize (Eb eq_refl).
      assert (b = a + 1) by (apply eq_IZR; rewrite plus_IZR; lra). subst b.
      rewrite plus_IZR in *.
      destruct (Z_le_gt_dec 0 a) as [P|P].
      - apply IZR_le in P. rewrite !Rabs_pos_eq in Ea by lra. lra.
      - assert (P' : a + 1 <= 0) by lia. apply IZR_le in P'. rewrite plus_IZR in P'.
        rewrite (Rabs_left1 (IZR a + 1)) in Eb by lra. rewrite Rabs_left1 in Eb by lra. lra. }
    pose proof (T n n' A A' B B'). pose proof (T n' n A' A B' B). lia.
  - destruct H as (A & B & C), H' as (A' & B' & C').
    destruct (Rtotal_order x 0) as [L|[L|L]].
    + destruct (C L) as (k & K & ->), (C' L) as (k' & K' & ->). now rewrite (Ce _ _ _ K K').
    + now rewrite A, A'.
    + destruct (B L) as (k & K & ->), (B' L) as (k' & K' & ->). now rewrite (Fl _ _ _ K K').
Qed.

Lemma C45_eval_proof :
  forall prec emax Hp He oc t R v,
  ~ too_large emax (nearest prec emax (IZR (addend v))) ->
  exists n, product_int prec emax t R (addend v) (mult v) n /\
    sv_eval (statIntFloatMul prec emax Hp He oc t R) v = Done (Z.max (Z.min n (vmax v)) (vmin v)).
Proof.
  intros prec emax Hp He oc t R v Ht.
  destruct v as [a lo hi m]. cbn [addend vmin vmax mult] in *.
  cbn [sv_eval statIntFloatMul addend vmin vmax mult].
  destruct (of_int_spec prec emax Hp He a) as (F & _ & Sg). destruct (F Ht) as [Fa Ra].
  set (fa := b_of_int prec emax Hp He a) in *.
  assert (Z0 : a = 0 -> fa = B754_zero false).
  { intros ->. unfold fa. reflexivity. }
  assert (Nz : a <> 0 -> exists s mm e p, fa = B754_finite s mm e p).
  { intros Na. destruct fa eqn:E; try easy; [|eauto]. exfalso.
    cbn in Ra. assert (Hn : (0 < Rabs (nearest prec emax (IZR a)))%R).
    { assert (G : (1 <= nearest prec emax (IZR (Z.abs a)))%R).
      { unfold nearest. apply round_ge_generic; auto with typeclass_instances.
        - change 1%R with (bpow radix2 0). apply generic_format_FLT_bpow; [exact Hp|].
          apply (emin_le0 prec emax Hp He).
        - change 1%R with (IZR 1). apply IZR_le. lia. }
      rewrite abs_IZR in G. unfold nearest in *. rewrite round_NE_abs in G; [lra|].
      apply FLT_exp_valid, Hp. }
    rewrite <- Ra, Rabs_R0 in Hn. lra. }
  assert (Q : forall s, round_with R (binF prec emax Hp He) (B754_infinity s) = Done (B754_infinity s)).
  { intros s. now apply round_with_special. }
  assert (QN : round_with R (binF prec emax Hp He) B754_nan = Done B754_nan).
  { now apply round_with_special. }
  enough (G : exists y n, round_with R (binF prec emax Hp He) (Bmult mode_NE fa m) = Done y /\
            b_to_int prec emax t y = n /\ product_int prec emax t R a m n).
  { destruct G as (y & n & -> & En & P). exists n. split; [exact P|]. cbn [obind].
    unfold i_bound. cbn [vmin vmax]. rewrite i_max_eq, i_min_eq, En. reflexivity. }
  destruct (is_finite m) eqn:Fm.
  - destruct (mult_spec prec emax Hp He fa m Fa Fm) as [M1 M2]. rewrite Ra in M1, M2.
    set (p := nearest prec emax (nearest prec emax (IZR a) * B2R m)) in *.
    destruct (too_large_dec emax p) as [L|L].
    + rewrite (M2 L), Q. eexists; eexists; split; [reflexivity|]. split; [reflexivity|].
      cbn [b_to_int]. rewrite Sg.
      destruct m; try easy; cbn [product_int]; fold p; split; intros X; try easy.
    + destruct (M1 L) as [Fp Rp].
      destruct (round_with_spec prec emax Hp He R _ Fp) as (y & n & E1 & Fy & By & Ry).
      exists y; eexists; split; [exact E1|]. split; [reflexivity|].
      rewrite (to_int_finite prec emax He t y n Fy By).
      rewrite Rp in Ry.
      destruct m; try easy; cbn [product_int]; fold p; split; intros X; try easy; exists n; easy.
  - destruct m as [|s| |]; try easy; cbn [product_int].
    + destruct (Z.eqb_spec a 0) as [Ea|Na].
      * rewrite (Z0 Ea). cbn [Bmult]. rewrite QN. eauto.
      * destruct (Nz Na) as (s' & mm & e & pf & Ef). rewrite <- Sg, Ef. cbn [Bmult Bsign].
        rewrite Q. eauto.
    + replace (Bmult mode_NE fa (@B754_nan prec emax)) with (@B754_nan prec emax) by (now destruct fa).
      rewrite QN. eauto.
Qed.

Lemma C45_addend_fits_proof :
  forall prec emax t a, Prec_gt_0 prec -> Prec_lt_emax prec emax ->
  ity_ok t a -> bits t < emax \/ (bits t = emax /\ signed t = true) ->
  ~ too_large emax (nearest prec emax (IZR a)).
Proof.
  intros prec emax t a Hp He Ha Hb L. unfold too_large in L.
  assert (Ab : (Rabs (IZR a) <= bpow radix2 (emax - 1))%R).
  { rewrite <- abs_IZR. rewrite <- IZR_Zpower by (unfold Prec_gt_0, Prec_lt_emax in *; lia).
    apply IZR_le. change (radix_val radix2) with 2.
    unfold ity_ok, imin, imax in Ha.
    assert (H0 : 0 <= bits t - 1) by (destruct t; cbn; lia).
    destruct Hb as [Hb|[Hb Hs]].
    - assert (M : 2 ^ bits t <= 2 ^ (emax - 1)) by (apply Z.pow_le_mono_r; lia).
      assert (M' : 2 ^ (bits t - 1) <= 2 ^ (emax - 1)) by (apply Z.pow_le_mono_r; lia).
      destruct (signed t); lia.
    - rewrite Hs in Ha. rewrite <- Hb. lia. }
  assert (N : (Rabs (nearest prec emax (IZR a)) <= bpow radix2 (emax - 1))%R).
  { unfold nearest. apply abs_round_le_generic; auto with typeclass_instances.
    - apply generic_format_FLT_bpow; [exact Hp|]. unfold Prec_gt_0, Prec_lt_emax in *; lia. }
  assert (bpow radix2 (emax - 1) < bpow radix2 emax)%R by (apply bpow_lt; lia). lra.
Qed.

Lemma C45_total_proof :
  forall prec emax Hp He oc t R v,
  exists r, sv_eval (statIntFloatMul prec emax Hp He oc t R) v = Done r /\
    vmin v <= r /\ (vmin v <= vmax v -> r <= vmax v) /\
    (ity_ok t (vmin v) -> ity_ok t r).
Proof.
  intros prec emax Hp He oc t R [a lo hi m].
  cbn [sv_eval statIntFloatMul addend vmin vmax mult].
  set (x := Bmult _ _ _).
  assert (E : exists y, round_with R (binF prec emax Hp He) x = Done y).
  { destruct (is_finite x) eqn:F.
    - destruct (round_with_spec prec emax Hp He R x F) as (y & n & E & _). eauto.
    - exists x. now apply round_with_special. }
  destruct E as [y ->]. cbn [obind]. eexists; split; [reflexivity|].
  unfold i_bound. cbn [vmin vmax]. rewrite i_max_eq, i_min_eq.
  assert (X : ity_ok t (b_to_int prec emax t y)).
  { pose proof (imin_le0 t). pose proof (imax_ge127 t).
    destruct y as [|[]| |]; cbn [b_to_int]; try apply sat_range; unfold ity_ok; lia. }
  unfold ity_ok in *. repeat split; try lia.
Qed.

Lemma C45_base_proof :
  forall prec emax Hp He oc t R b, ity_ok t b -> bits t <= emax ->
  exists n, IZR n = nearest prec emax (IZR b) /\
    sv_eval (statIntFloatMul prec emax Hp He oc t R)
      (sv_from_base (statIntFloatMul prec emax Hp He oc t R) b) = Done (sat t n).
Proof.
  intros prec emax Hp He oc t R b Hb Hbits.
  destruct (near_int prec emax Hp He b) as [n En].
  exists n. split; [easy|].
  cbn [sv_eval sv_from_base statIntFloatMul addend vmin vmax mult].
  destruct (of_int_spec prec emax Hp He b) as (F & I & Sg).
  assert (K : forall k, i_bound (Quad b (imin t) (imax t) (b_one prec emax Hp He)) (sat t k) = sat t k).
  { intros k. unfold i_bound. cbn [vmin vmax]. rewrite i_max_eq, i_min_eq. unfold sat. lia. }
  destruct (too_large_dec emax (nearest prec emax (IZR b))) as [L|L].
  - rewrite (I L).
    assert (Em : Bmult mode_NE (B754_infinity (b <? 0)) (b_one prec emax Hp He) = B754_infinity (b <? 0)).
    { pose proof (one_fin prec emax Hp He). pose proof (one_R prec emax Hp He) as O.
      assert (Sb : Bsign (b_one prec emax Hp He) = false) by apply Bsign_Bone.
      destruct (b_one prec emax Hp He); try easy.
      - cbn in O. lra.
      - cbn in Sb. subst s. cbn. f_equal. apply xorb_false_r. }
    rewrite Em, round_with_special by easy. cbn [obind b_to_int].
    assert (Es : (if b <? 0 then imin t else imax t) = sat t n).
    { unfold too_large in L. rewrite En, <- abs_IZR in L.
      rewrite <- IZR_Zpower in L by (unfold Prec_gt_0, Prec_lt_emax in *; lia).
      apply le_IZR in L. change (radix_val radix2) with 2 in L.
      assert (P : 2 ^ bits t <= 2 ^ emax) by (apply Z.pow_le_mono_r; lia).
      assert (P' : 2 ^ (bits t - 1) <= 2 ^ bits t) by (apply Z.pow_le_mono_r; lia).
      unfold sat. destruct (Z.ltb_spec b 0) as [N|N].
      - pose proof (near_neg prec emax Hp b ltac:(lia)) as Q. rewrite En in Q. apply (le_IZR n 0) in Q.
        pose proof (imax_ge127 t). unfold imin, imax in *. destruct (signed t); lia.
      - pose proof (near_pos prec emax Hp b N) as Q. rewrite En in Q. apply (le_IZR 0 n) in Q.
        pose proof (imin_le0 t). pose proof (imax_ge127 t). unfold imin, imax in *. destruct (signed t); lia. }
    rewrite Es. now rewrite K.
  - destruct (F L) as [Ff Rf]. rewrite mult_one by easy.
    destruct (round_with_spec prec emax Hp He R _ Ff) as (y & k & E & Fy & By & Ry).
    rewrite Rf, En in Ry. apply rounds_int in Ry. subst k.
    rewrite E. cbn [obind]. rewrite (to_int_finite prec emax He t y n Fy By), K. reflexivity.
Qed.

Lemma C45_base_exact_proof :
  forall prec emax Hp He oc t R b, ity_ok t b -> bits t <= emax -> Z.abs b <= 2 ^ prec ->
  sv_eval (statIntFloatMul prec emax Hp He oc t R)
    (sv_from_base (statIntFloatMul prec emax Hp He oc t R) b) = Done b.
Proof.
  intros prec emax Hp He oc t R b Hb Hbits Ha.
  destruct (C45_base_proof prec emax Hp He oc t R b Hb Hbits) as (n & En & ->).
  rewrite near_exact in En by easy. apply eq_IZR in En. subst n. now rewrite sat_id.
Qed.

Lemma C45_base_f64_proof :
  forall oc t R b, bits t <= 32 -> ity_ok t b ->
  sv_eval (statIntFloatMul 53 1024 prec53 emax1024 oc t R)
    (sv_from_base (statIntFloatMul 53 1024 prec53 emax1024 oc t R) b) = Done b.
Proof.
  intros oc t R b Hb H. apply C45_base_exact_proof; [easy|lia|].
  unfold ity_ok in H. destruct t; cbn in Hb; try lia; cbn in H; lia.
Qed.

Lemma C45_base_f32_proof :
  forall oc t R b, bits t <= 16 -> ity_ok t b ->
  sv_eval (statIntFloatMul 24 128 prec24 emax128 oc t R)
    (sv_from_base (statIntFloatMul 24 128 prec24 emax128 oc t R) b) = Done b.
Proof.
  intros oc t R b Hb H. apply C45_base_exact_proof; [easy|lia|].
  unfold ity_ok in H. destruct t; cbn in Hb; try lia; cbn in H; lia.
Qed.

Lemma C45_base_refuted_proof :
  ~ (forall prec emax Hp He oc t R b, ity_ok t b -> bits t <= emax ->
     sv_eval (statIntFloatMul prec emax Hp He oc t R)
       (sv_from_base (statIntFloatMul prec emax Hp He oc t R) b) = Done b) /\
  (forall oc R, sv_eval (statIntFloatMul 24 128 prec24 emax128 oc I32 R)
     (sv_from_base (statIntFloatMul 24 128 prec24 emax128 oc I32 R) 16777217) = Done 16777216) /\
  (forall oc R, sv_eval (statIntFloatMul 53 1024 prec53 emax1024 oc I64 R)
     (sv_from_base (statIntFloatMul 53 1024 prec53 emax1024 oc I64 R) 9007199254740993) = Done 9007199254740992).
Proof.
  assert (A : forall oc R, sv_eval (statIntFloatMul 24 128 prec24 emax128 oc I32 R)
     (sv_from_base (statIntFloatMul 24 128 prec24 emax128 oc I32 R) 16777217) = Done 16777216).
  { intros [] []; reflexivity. }
  split; [|split; [exact A|intros [] []; reflexivity]].
  intros H. specialize (A true Truncate). rewrite H in A; [discriminate| |cbn; lia].
  unfold ity_ok. cbn. lia.
Qed.

Lemma C46_StatFloat_within_bounds_proof :
  forall prec emax Hp He,
  float_eval_bounded prec emax (statFloat (binF prec emax Hp He)) vmin vmax (fun x => x).
Proof.
  intros prec emax Hp He [a lo hi m]. eexists; split; [reflexivity|]. apply bound_spec.
Qed.

Lemma C46_StatFloatAdditive_within_bounds_proof :
  forall prec emax Hp He,
  float_eval_bounded prec emax (statFloatAdditive (binF prec emax Hp He)) vmin vmax (fun x => x).
Proof.
  intros prec emax Hp He [a lo hi m]. eexists; split; [reflexivity|]. apply bound_spec.
Qed.

Lemma C46_StatMult_within_bounds_proof :
  forall prec emax Hp He,
  float_eval_bounded prec emax (statMult (binF prec emax Hp He)) t_min t_max (fun x => x).
Proof.
  intros prec emax Hp He [lo hi m]. eexists; split; [reflexivity|]. apply bound_spec.
Qed.

Lemma C46_StatFloat_bounds_accumulate_proof :
  forall prec emax Hp He,
  float_bounds_accumulate prec emax (statFloat (binF prec emax Hp He)) vmin vmax (fun x => x).
Proof.
  intros prec emax Hp He. apply float_accumulate.
  intros [[x|x|[]|[]|x|x|x]|w] v Hs Hl Hh; try easy; eexists; (split; [reflexivity|]);
    cbn [vmin vmax low_given high_given most least fold_left];
    try (destruct (max_given prec emax (vmin (v : quad (binary_float prec emax) (binary_float prec emax))) x Hl) as [A B]);
    try (destruct (min_given prec emax (vmax (v : quad (binary_float prec emax) (binary_float prec emax))) x Hh) as [C D]);
    try (destruct (max_given prec emax (vmin (v : quad (binary_float prec emax) (binary_float prec emax))) (vmin (w : quad (binary_float prec emax) (binary_float prec emax))) Hl) as [A B]);
    try (destruct (min_given prec emax (vmax (v : quad (binary_float prec emax) (binary_float prec emax))) (vmax (w : quad (binary_float prec emax) (binary_float prec emax))) Hh) as [C D]);
    repeat split; easy.
Qed.

Lemma C46_StatFloatAdditive_bounds_accumulate_proof :
  forall prec emax Hp He,
  float_bounds_accumulate prec emax (statFloatAdditive (binF prec emax Hp He)) vmin vmax (fun x => x).
Proof.
  intros prec emax Hp He. apply float_accumulate.
  intros [[x|x|[]|[]|x|x|x]|w] v Hs Hl Hh; try easy; eexists; (split; [reflexivity|]);
    cbn [vmin vmax low_given high_given most least fold_left];
    try (destruct (max_given prec emax (vmin (v : quad (binary_float prec emax) (binary_float prec emax))) x Hl) as [A B]);
    try (destruct (min_given prec emax (vmax (v : quad (binary_float prec emax) (binary_float prec emax))) x Hh) as [C D]);
    try (destruct (max_given prec emax (vmin (v : quad (binary_float prec emax) (binary_float prec emax))) (vmin (w : quad (binary_float prec emax) (binary_float prec emax))) Hl) as [A B]);
    try (destruct (min_given prec emax (vmax (v : quad (binary_float prec emax) (binary_float prec emax))) (vmax (w : quad (binary_float prec emax) (binary_float prec emax))) Hh) as [C D]);
    repeat split; easy.
Qed.

Lemma C46_StatMult_bounds_accumulate_proof :
  forall prec emax Hp He,
  float_bounds_accumulate prec emax (statMult (binF prec emax Hp He)) t_min t_max (fun x => x).
Proof.
  intros prec emax Hp He. apply float_accumulate.
  intros [[[]|x|[]|[]|x|x|x]|w] v Hs Hl Hh; try easy; eexists; (split; [reflexivity|]);
    cbn [t_min t_max low_given high_given most least fold_left];
    try (destruct (max_given prec emax (t_min (v : tri (binF prec emax Hp He))) x Hl) as [A B]);
    try (destruct (min_given prec emax (t_max (v : tri (binF prec emax Hp He))) x Hh) as [C D]);
    try (destruct (max_given prec emax (t_min (v : tri (binF prec emax Hp He))) (t_min (w : tri (binF prec emax Hp He))) Hl) as [A B]);
    try (destruct (min_given prec emax (t_max (v : tri (binF prec emax Hp He))) (t_max (w : tri (binF prec emax Hp He))) Hh) as [C D]);
    repeat split; easy.
Qed.

Lemma C46_never_nan_proof :
  forall prec emax (S : StatValue) lo hi out bnd,
  float_eval_bounded prec emax S lo hi out -> float_bounds_accumulate prec emax S lo hi bnd ->
  (is_nan (lo (sv_default S)) = false /\ is_nan (hi (sv_default S)) = false) ->
  (forall b, is_nan (lo (sv_from_base S b)) = false /\ is_nan (hi (sv_from_base S b)) = false) ->
  forall l, exists v r, run (sv_default S) l = Done v /\ sv_eval S v = Done r /\ is_nan (out r) = false.
Proof.
  intros prec emax S lo hi out bnd He Ha Hd Hb l.
  assert (St : forall l v, is_nan (lo v) = false -> is_nan (hi v) = false ->
    exists w, run v l = Done w /\ is_nan (lo w) = false /\ is_nan (hi w) = false).
  { clear l. induction l as [|s l IH]; intros v Hl Hh; [now exists v|].
    assert (X : exists w, run_step v s = Done w /\ is_nan (lo w) = false /\ is_nan (hi w) = false).
    { assert (U : unordered s -> exists w, run_step v s = Done w /\ is_nan (lo w) = false /\ is_nan (hi w) = false).
      { intros U. destruct (Ha [s] v) as (w & E & A & B & _); try easy; [now repeat constructor|].
        exists w. split; [|easy]. unfold run in E. cbn [ofold] in E.
        destruct (run_step v s) eqn:Er; cbn [obind] in E; try discriminate. exact E. }
      destruct s as [[x|x|x|x|x|x|x]|w]; try (now apply U).
      exists (sv_from_base S x). split; [reflexivity|apply Hb]. }
    destruct X as (w & E & A & B). destruct (IH w A B) as (w' & E' & C).
    exists w'. unfold run. cbn [ofold]. rewrite E. cbn [obind]. easy. }
  destruct Hd as [D1 D2]. destruct (St l _ D1 D2) as (v & E & A & B).
  destruct (He v) as (r & Er & N & _). exists v, r. repeat split; try easy.
  destruct (is_nan (out r)) eqn:X; [|easy]. destruct (N eq_refl). congruence.
Qed.

Lemma C46_defaults_not_nan_proof :
  forall prec emax Hp He, let F := binF prec emax Hp He in
  (is_nan (vmin (sv_default (statFloat F))) = false /\ is_nan (vmax (sv_default (statFloat F))) = false) /\
  (is_nan (vmin (sv_default (statFloatAdditive F))) = false /\ is_nan (vmax (sv_default (statFloatAdditive F))) = false) /\
  (is_nan (t_min (sv_default (statMult F))) = false /\ is_nan (t_max (sv_default (statMult F))) = false) /\
  (forall b, is_nan (vmin (sv_from_base (statFloat F) b)) = false /\ is_nan (vmax (sv_from_base (statFloat F) b)) = false) /\
  (forall b, is_nan (vmin (sv_from_base (statFloatAdditive F) b)) = false /\ is_nan (vmax (sv_from_base (statFloatAdditive F) b)) = false) /\
  (forall b, is_nan (t_min (sv_from_base (statMult F) b)) = false /\ is_nan (t_max (sv_from_base (statMult F) b)) = false).
Proof. intros; repeat split; reflexivity. Qed.

Lemma C11_float_base_proof :
  forall prec emax Hp He, let F := binF prec emax Hp He in
  base_returns (statFloat F) (fun b => b) (fun b => is_finite b = true) /\
  base_returns (statFloatAdditive F) (fun b => b) (fun b => is_finite b = true) /\
  base_returns (statMult F) (fun b => b) (fun b => is_finite b = true).
Proof.
  intros prec emax Hp He F. repeat split; intros b Hb.
  - cbn. f_equal. unfold f_bound. cbn. rewrite mult_one by easy. now apply default_bounds_id.
  - cbn -[Bplus]. rewrite zero_plus_one. f_equal. unfold f_bound. cbn. rewrite mult_one by easy.
    now apply default_bounds_id.
  - cbn. f_equal. unfold f_bound. cbn. now apply default_bounds_id.
Qed.

Lemma C11_float_base_refuted_proof :
  (forall prec emax Hp He, let F := binF prec emax Hp He in
   ~ base_returns (statFloat F) (fun b => b) (fun _ => True) /\
   ~ base_returns (statFloatAdditive F) (fun b => b) (fun _ => True) /\
   ~ base_returns (statMult F) (fun b => b) (fun _ => True)) /\
  (forall prec emax Hp He b, is_finite b = false ->
   sv_eval (statMult (binF prec emax Hp He)) (sv_from_base (statMult (binF prec emax Hp He)) b)
   = Done (match b with B754_infinity true => b_minv prec emax Hp He | _ => b_maxv prec emax Hp He end)).
Proof.
  assert (X : forall prec emax Hp He b, is_finite b = false ->
    b_max prec emax (b_min prec emax b (b_maxv prec emax Hp He)) (b_minv prec emax Hp He)
    = match b with B754_infinity true => b_minv prec emax Hp He | _ => b_maxv prec emax Hp He end).
  { intros prec emax Hp He b Hb.
    assert (Y : b_max prec emax (b_maxv prec emax Hp He) (b_minv prec emax Hp He) = b_maxv prec emax Hp He).
    { unfold b_max. rewrite !fin_not_nan by reflexivity. rewrite Bltb_correct by reflexivity.
      rewrite Rlt_bool_false; [reflexivity|]. apply (finite_le_max prec emax Hp He). reflexivity. }
    destruct b as [|[]| |]; try easy. }
  split.
  - intros prec emax Hp He F.
    assert (Q : forall b, sv_eval (statMult F) (sv_from_base (statMult F) b) =
       Done (b_max prec emax (b_min prec emax b (b_maxv prec emax Hp He)) (b_minv prec emax Hp He)))
      by reflexivity.
    assert (N : forall x : binary_float prec emax, Bmult mode_NE B754_nan x = B754_nan) by now intros [].
    repeat split; intros H; specialize (H B754_nan I); revert H.
    + cbn. unfold f_bound. cbn. discriminate.
    + cbn -[Bplus]. unfold f_bound. cbn. discriminate.
    + cbn. unfold f_bound. cbn. discriminate.
  - intros prec emax Hp He b Hb. rewrite <- (X prec emax Hp He b Hb). reflexivity.
Qed.

Lemma C46_fraction_within_bounds_proof :
  forall t, let F := fracF true t in
  frac_eval_bounded t (statFloat F) vmin vmax (fun x => x) (frac_quad_ok t) /\
  frac_eval_bounded t (statFloatAdditive F) vmin vmax (fun x => x) (frac_quad_ok t) /\
  frac_eval_bounded t (statMult F) t_min t_max (fun x => x) (frac_tri_ok true t).
Proof.
  intros t F.
  assert (B : forall p lo hi, reduced t p -> reduced t lo -> reduced t hi ->
    let r := f_bound F lo hi p in
    reduced t r /\ (toQ lo <= toQ r)%Q /\ ((toQ lo <= toQ hi)%Q -> (toQ r <= toQ hi)%Q) /\
    ((toQ hi < toQ lo)%Q -> r = lo)).
  { intros p lo hi Hp Hl Hh r.
    assert (T : forall x y, 0 < denom x -> 0 < denom y -> r_ltb x y = true <-> (toQ x < toQ y)%Q).
    { intros [n d] [n' d'] A C. unfold r_ltb, r_cmp, toQ, Qlt. cbn in *.
      rewrite !Z2Pos.id by easy. destruct (Z.compare_spec (n * d') (n' * d)); split; intros; try easy; lia. }
    assert (D : forall x, reduced t x -> 0 < denom x) by (intros x [[_ ?] _]; lia).
    assert (N : forall x y, 0 < denom x -> 0 < denom y -> r_ltb x y = false -> (toQ y <= toQ x)%Q).
    { intros x y A C E. apply Qnot_lt_le. intros L. apply (T x y A C) in L. congruence. }
    assert (M : reduced t (r_min p hi) /\ (toQ (r_min p hi) <= toQ hi)%Q).
    { unfold r_min. destruct (r_ltb hi p) eqn:E; (split; [easy|]).
      - apply Qle_refl. - apply N; auto. }
    unfold r, f_bound. cbn. destruct M as [Mr Mh]. set (m := r_min p hi) in *.
    unfold r_max. destruct (r_ltb lo m) eqn:E.
    - apply T in E; auto. split; [easy|]. split; [now apply Qlt_le_weak|]. split; [easy|].
      intros L. exfalso. apply (Qlt_irrefl (toQ lo)).
      eapply Qlt_trans; [exact E|]. eapply Qle_lt_trans; [exact Mh|exact L].
    - apply N in E; auto. split; [easy|]. split; [apply Qle_refl|]. split; [easy|easy]. }
  split; [|split].
  - intros v r (H1 & H2 & H3 & H4) E. cbn in E.
    apply obind_inv in E. destruct E as (p & E1 & E2). injection E2 as <-.
    apply r_mul_spec in E1; [|apply H1|apply H4]. now apply B.
  - intros v r (H1 & H2 & H3 & H4) E. cbn in E.
    apply obind_inv in E. destruct E as (m & E0 & E).
    apply obind_inv in E. destruct E as (p & E1 & E2). injection E2 as <-.
    apply r_add_spec in E0; [|apply H4|].
    + apply r_mul_spec in E1; [|apply H1|apply E0]. now apply B.
    + pose proof (imin_le0 t). pose proof (imax_ge127 t). unfold valid; cbn; lia.
  - intros v r (H1 & H2 & H3) E. cbn in E. injection E as <-. now apply B.
Qed.

Lemma C46_fraction_bounds_accumulate_proof :
  forall oc t, let F := fracF oc t in
  frac_bounds_accumulate (statFloat F) vmin vmax (fun x => x) /\
  frac_bounds_accumulate (statFloatAdditive F) vmin vmax (fun x => x) /\
  frac_bounds_accumulate (statMult F) t_min t_max (fun x => x).
Proof.
  intros oc t F. split; [|split]; apply frac_accumulate.
  - intros [[x|x|[]|[]|x|x|x]|w] v u Hs Hl Hh Gl Gh E; try easy; cbn in E, Gl, Gh;
      repeat (apply obind_inv in E; destruct E as (? & _ & E)); injection E as <-;
      cbn [low_given high_given fold_left vmin vmax] in *;
      repeat (match goal with G : Forall _ [_] |- _ => inversion G; subst; clear G end);
      repeat split; try assumption; try reflexivity;
      try (apply frac_max; assumption); try (apply frac_min; assumption).
  - intros [[x|x|[]|[]|x|x|x]|w] v u Hs Hl Hh Gl Gh E; try easy; cbn in E, Gl, Gh;
      repeat (apply obind_inv in E; destruct E as (? & _ & E)); injection E as <-;
      cbn [low_given high_given fold_left vmin vmax] in *;
      repeat (match goal with G : Forall _ [_] |- _ => inversion G; subst; clear G end);
      repeat split; try assumption; try reflexivity;
      try (apply frac_max; assumption); try (apply frac_min; assumption).
  - intros [[[]|x|[]|[]|x|x|x]|w] v u Hs Hl Hh Gl Gh E; try easy; cbn in E, Gl, Gh;
      repeat (apply obind_inv in E; destruct E as (? & _ & E)); injection E as <-;
      cbn [low_given high_given fold_left t_min t_max] in *;
      repeat (match goal with G : Forall _ [_] |- _ => inversion G; subst; clear G end);
      repeat split; try assumption; try reflexivity;
      try (apply frac_max; assumption); try (apply frac_min; assumption).
Qed.

Lemma C11_fraction_base_proof :
  forall oc t, let F := fracF oc t in
  base_returns (statFloat F) (fun b => b) (reduced t) /\
  base_returns (statFloatAdditive F) (fun b => b) (reduced t) /\
  base_returns (statMult F) (fun b => b) (reduced t).
Proof.
  intros oc t F.
  pose proof (imin_le0 t) as I0. pose proof (imax_ge127 t) as I1.
  assert (V1 : valid t (Frac 1 1)) by (unfold valid; cbn; lia).
  assert (M : forall b, reduced t b -> r_mul oc t b (Frac 1 1) = Done b).
  { intros b Hb. unfold r_mul. cbn [numer denom].
    destruct b as [n d]. destruct Hb as [[Hn Hd] Hg]. cbn [numer denom] in *.
    unfold r_gcd. rewrite Z.gcd_1_r, Z.gcd_1_r. rewrite !chk_id by (unfold ity_ok; lia). cbn [obind].
    rewrite !p_div_ok by (unfold ity_ok; lia). cbn [obind]. rewrite !Z.quot_1_r.
    unfold p_mul. rewrite !Z.mul_1_r. rewrite chk_id by (unfold ity_ok; lia). cbn [obind].
    rewrite ?Z.quot_1_r, ?Z.mul_1_r.
    rewrite chk_id by (unfold ity_ok; lia). cbn [obind].
    unfold r_new. apply r_reduce_id. repeat split; cbn; lia || easy. }
  assert (A1 : r_add oc t (Frac 0 1) (Frac 1 1) = Done (Frac 1 1)).
  { unfold r_add, r_addsub. cbn [numer denom]. rewrite Z.eqb_refl. unfold p_add.
    rewrite chk_id by (unfold ity_ok; lia). cbn [obind]. reflexivity. }
  assert (B : forall b, reduced t b -> f_bound F (Frac (imin t) 1) (Frac (imax t) 1) b = b).
  { intros [n d] [[Hn Hd] Hg]. unfold f_bound. cbn [F fracF f_max f_min numer denom] in *.
    assert (E : r_min (Frac n d) (Frac (imax t) 1) = Frac n d).
    { unfold r_min, r_ltb, r_cmp. cbn [numer denom]. rewrite Z.mul_1_r.
      destruct (Z.compare_spec (imax t * d) n) as [E|E|E]; try easy. nia. }
    rewrite E. unfold r_max, r_ltb, r_cmp. cbn [numer denom]. rewrite Z.mul_1_r.
    destruct (Z.compare_spec (imin t * d) n) as [E'|E'|E']; try easy; [|nia].
    assert (d = 1) as ->.
    { apply Z.divide_1_r_nonneg; [lia|]. rewrite <- Hg.
      apply Z.gcd_greatest; [exists (imin t); lia|apply Z.divide_refl]. }
    f_equal. lia. }
  split; [|split]; intros b Hb.
  - cbn [sv_eval sv_from_base statFloat addend vmin vmax mult]. cbn [F fracF f_mul f_one].
    unfold r_int. rewrite M by easy. cbn [obind]. f_equal. now apply B.
  - cbn [sv_eval sv_from_base statFloatAdditive addend vmin vmax mult]. cbn [F fracF f_mul f_add f_zero f_one].
    unfold r_int. rewrite A1. cbn [obind]. rewrite M by easy. cbn [obind]. f_equal. now apply B.
  - cbn [sv_eval sv_from_base statMult t_min t_max t_mult]. f_equal. now apply B.
Qed.
