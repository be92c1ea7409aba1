From Coq Require Import ZArith Reals List Bool Lia Lra.
From Flocq Require Import Core BinarySingleNaN.
From Verif Require Import M_Outcome M_Ints M_Ratio M_Float M_Value M_Types S_Ratio S_Types S_Float S_Totals S_FloatTotals
  L_Outcome L_Ints L_Types L_Float L_FloatProofs L_Totals L_FloatTotals L_FloatTotals2.
Import ListNotations.
Local Open Scope Z_scope.
Local Arguments Z.mul : simpl never.
Local Arguments Z.add : simpl never.
Local Arguments Z.max : simpl never.
Local Arguments Z.min : simpl never.
Local Arguments i_add : simpl never.
Local Arguments i_min : simpl never.
Local Arguments i_max : simpl never.
Local Arguments largest : simpl never.
Local Arguments smallest : simpl never.
Local Arguments sum : simpl never.

Section IntFloat.
  Variables prec emax : Z.
  Context (Hp : Prec_gt_0 prec) (He : Prec_lt_emax prec emax).
  Notation bf := (binary_float prec emax).
  Notation St oc t R := (statIntFloatMul prec emax Hp He oc t R).

  Lemma ifm_bounds oc t R (h : history (St oc t R)) : forall v, value_of h = Done v ->
    bounds_are t (S := St oc t R) (fun v => v) same h v.
  Proof. revert h. bounds_tac. Qed.

  Lemma ifm_mult oc t R I : field_rules prec emax (b_one prec emax Hp He) (Bmult mode_NE) I ->
    forall (h : history (St oc t R)) v, value_of h = Done v -> I (factors h same) (mult v).
  Proof.
    intros (H0 & H1 & H2).
    apply (gathered_ind (A := bf)) with (proj := fun v : val (St oc t R) => mult v : bf).
    - exact H0.
    - intros b. exact H0.
    - intros l v o w C W Il. destruct o as [x|x|[]|[]|x|x|x]; try (exfalso; eapply C; reflexivity);
        cbn in W; unfold q_add in W; inv_done W; inversion W; subst; cbn; rewrite ?app_nil_r; try exact Il.
      apply H2; [exact Il|apply H1].
    - intros l v k w x W Il Ik. cbn in W. inv_done W. inversion W; subst. cbn. now apply H2.
  Qed.

  Lemma ifm_checked t R : forall (h : history (St true t R)) v, value_of h = Done v ->
    addend v = sum (gains h same same).
  Proof.
    apply (gathered_ind (A := Z)) with (proj := fun v : val (St true t R) => addend v : Z) (I := fun l a => a = sum l).
    - reflexivity.
    - intros b. cbn. unfold same. now rewrite sum_one.
    - intros l v o w C W Il. destruct o as [x|x|[]|[]|x|x|x]; try (exfalso; eapply C; reflexivity).
      + cbn in W. unfold q_add in W. apply obind_inv in W. destruct W as [a [Ha W]].
        apply checked_add in Ha. destruct Ha as [-> _]. inversion W; subst. cbn. now rewrite sum_app, sum_one, Il.
      + cbn in W. inversion W; subst. cbn. now rewrite app_nil_r.
      + cbn in W. inversion W; subst. cbn. now rewrite app_nil_r.
      + cbn in W. inversion W; subst. cbn. now rewrite app_nil_r.
    - intros l v k w x W Il Ik. cbn in W. apply obind_inv in W. destruct W as [a [Ha W]].
      apply checked_add in Ha. destruct Ha as [-> _]. inversion W; subst. cbn. now rewrite sum_app, Il, Ik.
  Qed.

  Lemma ifm_fits oc t R (h : history (St oc t R)) : steady h ->
    Forall (ity_ok t) (gains h same same) -> room (gains h same same) <= imax t ->
    exists v, value_of h = Done v /\ addend v = sum (gains h same same).
  Proof.
    intros Sh Fg Rg. induction h as [|b|h IH o|h IHh k IHk]; cbn [value_of].
    - eexists. split; reflexivity.
    - eexists. split; [reflexivity|]. cbn. unfold same. now rewrite sum_one.
    - destruct Sh as [Sh So]. unfold gains, same in *.
      pose proof (sum_fits t _ Fg Rg) as S1.
      destruct o as [x|x|[]|[]|x|x|x]; try destruct So; cbn in *; rewrite ?app_nil_r in *.
      + apply Forall_app in Fg. destruct (IH Sh (proj1 Fg) (room_le_l _ _ _ Rg)) as [w [-> A]]. cbn.
        unfold q_add, i_add. rewrite A. rewrite sum_app, sum_one in *. rewrite i_norm_id by exact S1. cbn.
        eexists. split; [reflexivity|]. reflexivity.
      + destruct (IH Sh Fg Rg) as [w [-> A]]. cbn. eexists. split; [reflexivity|]. exact A.
      + destruct (IH Sh Fg Rg) as [w [-> A]]. cbn. eexists. split; [reflexivity|]. exact A.
      + destruct (IH Sh Fg Rg) as [w [-> A]]. cbn. eexists. split; [reflexivity|]. exact A.
    - destruct Sh as [Sh Sk]. unfold gains, same in *. cbn in *.
      pose proof (sum_fits t _ Fg Rg) as S1. apply Forall_app in Fg. destruct Fg as [Fg1 Fg2].
      destruct (IHh Sh Fg1 (room_le_l _ _ _ Rg)) as [w1 [-> A1]].
      destruct (IHk Sk Fg2 (room_le_r _ _ _ Rg)) as [w2 [-> A2]].
      cbn. unfold i_add. rewrite A1, A2. rewrite sum_app in *.
      rewrite i_norm_id by exact S1. cbn. eexists. split; reflexivity.
  Qed.

  Lemma ifm_worth oc t R (h : history (St oc t R)) v a :
    value_of h = Done v -> addend v = a -> ~ too_large emax (nearest prec emax (IZR a)) ->
    exists n, product_int prec emax t R a (mult v) n /\
      worth h = Done (bounded t (floors h same) (ceilings h same) n).
  Proof.
    intros Hv <- Hs. destruct (C45_eval_proof prec emax Hp He oc t R v Hs) as (n & P & E).
    exists n. split; [exact P|]. rewrite (worth_of h v Hv), E. f_equal.
    destruct (ifm_bounds oc t R h v Hv) as [L U]. unfold bounded. now rewrite L, U.
  Qed.
End IntFloat.

Lemma C59_StatIntFloatMul_checked_proof :
  forall prec emax Hp He t R (h : history (statIntFloatMul prec emax Hp He true t R)) r,
  ~ too_large emax (nearest prec emax (IZR (sum (gains h same same)))) ->
  multipliable (factors h same) -> worth h = Done r ->
  exists m n, near_product (factors h same) (B2R m) /\ is_finite m = true /\
    product_int prec emax t R (sum (gains h same same)) m n /\
    r = bounded t (floors h same) (ceilings h same) n.
Proof.
  intros prec emax Hp He t R h r Hs Hm H.
  assert (Hv : exists v, value_of h = Done v).
  { unfold worth in H. apply obind_inv in H. destruct H as [v [Hv _]]. eauto. }
  destruct Hv as [v Hv].
  destruct (products_near prec emax _ _ (ifm_mult prec emax Hp He _ _ _ _ (products_rules prec emax Hp He) h v Hv) Hm) as [Fm Nm].
  destruct (ifm_worth prec emax Hp He true t R h v _ Hv (ifm_checked prec emax Hp He t R h v Hv) Hs) as (n & P & E).
  exists (mult v), n. rewrite E in H. injection H as <-. auto.
Qed.

Lemma C59_StatIntFloatMul_fits_proof :
  forall prec emax Hp He oc t R (h : history (statIntFloatMul prec emax Hp He oc t R)),
  steady h -> Forall (ity_ok t) (gains h same same) -> room (gains h same same) <= imax t ->
  ~ too_large emax (nearest prec emax (IZR (sum (gains h same same)))) ->
  multipliable (factors h same) ->
  exists m n, near_product (factors h same) (B2R m) /\ is_finite m = true /\
    product_int prec emax t R (sum (gains h same same)) m n /\
    worth h = Done (bounded t (floors h same) (ceilings h same) n).
Proof.
  intros prec emax Hp He oc t R h Sh Fg Rg Hs Hm.
  destruct (ifm_fits prec emax Hp He oc t R h Sh Fg Rg) as (v & Hv & A).
  destruct (products_near prec emax _ _ (ifm_mult prec emax Hp He _ _ _ _ (products_rules prec emax Hp He) h v Hv) Hm) as [Fm Nm].
  destruct (ifm_worth prec emax Hp He oc t R h v _ Hv A Hs) as (n & P & E).
  exists (mult v), n. auto.
Qed.

Lemma C59_StatIntFloatMul_exact_proof :
  forall prec emax Hp He oc t R (h : history (statIntFloatMul prec emax Hp He oc t R)),
  steady h -> Forall (ity_ok t) (gains h same same) -> room (gains h same same) <= imax t ->
  Z.abs (sum (gains h same same)) <= 2 ^ prec -> short (factors h same) ->
  let p := nearest prec emax (IZR (sum (gains h same same)) * outcome_of (factors h same)) in
  ~ too_large emax p ->
  exists k, real_rounds_to R p k /\
    worth h = Done (bounded t (floors h same) (ceilings h same) (sat t k)).
Proof.
  intros prec emax Hp He oc t R h Sh Fg Rg Hs Hm p Np.
  destruct (ifm_fits prec emax Hp He oc t R h Sh Fg Rg) as (v & Hv & A).
  destruct (ifm_mult prec emax Hp He _ _ _ _ (multiplies_exactly_rules prec emax Hp He) h v Hv Hm) as [Fm Nm].
  pose proof (near_exact prec emax Hp He _ Hs) as Nx.
  destruct (ifm_worth prec emax Hp He oc t R h v _ Hv A) as (n & P & E).
  { rewrite Nx. unfold too_large. rewrite <- abs_IZR, <- IZR_Zpower by (unfold Prec_gt_0, Prec_lt_emax in *; lia).
    intros C. apply le_IZR in C. change (radix_val radix2) with 2 in C.
    assert (2 ^ prec < 2 ^ emax) by (apply Z.pow_lt_mono_r; unfold Prec_gt_0, Prec_lt_emax in *; lia). lia. }
  assert (Q : ~ too_large emax p -> exists k, real_rounds_to R p k /\ n = sat t k).
  { unfold product_int in P. rewrite Nx, Nm in P. fold p in P. destruct (mult v); try easy; apply P. }
  destruct (Q Np) as (k & Hk & ->). exists k. auto.
Qed.

(** ** Concrete [f32] numbers *)
Lemma f32_int_spec z : Z.abs z <= 2 ^ 24 -> is_finite (f32_int z) = true /\ B2R (f32_int z) = IZR z.
Proof.
  intros H. destruct (of_int_spec 24 128 prec24 emax128 z) as (A & _).
  pose proof (near_exact 24 128 prec24 emax128 z H) as E. rewrite E in A. apply A.
  unfold too_large. rewrite <- abs_IZR. change (bpow radix2 128) with (IZR (2 ^ 128)).
  intros C. apply le_IZR in C. assert (2 ^ 24 < 2 ^ 128) by reflexivity. lia.
Qed.
Lemma f32_half_spec z : Z.abs z <= 2 ^ 23 -> is_finite (f32_half z) = true /\ B2R (f32_half z) = (IZR z / 2)%R.
Proof.
  intros H. unfold f32_half. pose proof (binary_normalize_correct 24 128 prec24 emax128 mode_NE z (-1) false) as N.
  cbv zeta in N. change (SpecFloat.fexp 24 128) with (FLT_exp (3 - 128 - 24) 24) in N. cbn [round_mode] in N.
  change (round radix2 (FLT_exp (3 - 128 - 24) 24) ZnearestE (F2R (Float radix2 z (-1)))) with
    (nearest 24 128 (IZR z * bpow radix2 (-1))) in N.
  rewrite near_grid in N by (try apply prec24; lia).
  change (bpow radix2 (-1)) with (/ 2)%R in N.
  rewrite Rlt_bool_true in N.
  - destruct N as (A & B & _). split; [exact B|]. rewrite A. unfold Rdiv. reflexivity.
  - rewrite Rabs_mult, <- abs_IZR. rewrite (Rabs_pos_eq (/ 2)) by lra.
    apply IZR_le in H. change (bpow radix2 128) with (IZR (2 ^ 128)). change (IZR (2 ^ 23)) with 8388608%R in H.
    assert (8388608 <= IZR (2 ^ 128))%R by (apply IZR_le; discriminate). lra.
Qed.
Lemma bpow_ge (n : nat) e : (Z.of_nat n <= e)%Z -> (2 ^ n <= bpow radix2 e)%R.
Proof.
  intros H. replace (2 ^ n)%R with (bpow radix2 (Z.of_nat n)) by (rewrite bpow_powerRZ; now rewrite <- pow_powerRZ).
  now apply bpow_le.
Qed.
