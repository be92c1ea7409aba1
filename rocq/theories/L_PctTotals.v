From Coq Require Import ZArith QArith Lia List Bool.
From Verif Require Import M_Outcome M_Ints M_Ratio M_Float M_Value M_Types S_Ratio S_Types S_Totals S_PctTotals
  L_Outcome L_Ints L_Ratio L_RatioQ L_Types3 L_Totals L_Totals2.
Import ListNotations.
Local Open Scope Z_scope.

Lemma pct_any t R scale s (h : history (statPct true (prim t) R scale)) :
  from_i64 t scale = Done s -> 0 < s ->
  Forall (ity_ok t) (gains h same same) -> Forall (ity_ok t) (factors h same) ->
  forall v, value_of h = Done v ->
  addend v = unbased h + sum (gains h same same) /\ ity_ok t (addend v) /\ reduced t (mult v) /\ (toQ (mult v) == rate (S := statPct true (prim t) R scale) (out_of s) h)%Q.
Proof.
  intros Es Hs.
  assert (Rs : ity_ok t s).
  { unfold from_i64 in Es. apply obind_inv in Es. destruct Es as [c [_ Es]]. inversion Es. apply wrap_range. }
  induction h as [|b|h IH o|h IHh k IHk]; intros Fg Ff v H; cbn [value_of] in H.
  - inversion H; subst. cbn. split; [reflexivity|]. split; [unfold ity_ok; pose proof (imin_le0 t); pose proof (imax_ge127 t); lia|]. split; [apply one_reduced|reflexivity].
  - inversion H; subst. cbn in *. inversion Fg; subst. split; [unfold same; lia|]. split; [assumption|]. split; [apply one_reduced|reflexivity].
  - apply obind_inv in H. destruct H as [w [Hw H]].
    unfold gains, factors, same in *.
    destruct o as [x|x|[]|[]|x|x|x]; cbn in Fg, Ff, H |- *; rewrite ?app_nil_r in *; unfold q_add in H;
      try (apply Forall_app in Fg; destruct Fg as [Fg Fx]); try (apply Forall_app in Ff; destruct Ff as [Ff Fx]);
      try (destruct (IH Fg Ff w Hw) as (A & O & Rm & M)).
    + apply obind_inv in H. destruct H as [a [Ha H]]. apply checked_add in Ha. destruct Ha as [-> Ha].
      inversion H; subst. cbn. rewrite sum_app, sum_one. split; [rewrite A; symmetry; apply Z.add_assoc|]. auto.
    + rewrite Es in H. cbn [obind] in H. apply obind_inv in H. destruct H as [f [Hf H]].
      apply obind_inv in H. destruct H as [m [Hm H]]. inversion H; subst. cbn.
      inversion Fx as [|? ? Ox _]; subst.
      destruct (new_exact t x s Ox Rs) as [(f' & Hf' & _ & Rf & Qf)|(p & Hf')]; unfold r_new in *; [|congruence]. rewrite Hf in Hf'. injection Hf' as <-.
      destruct (mul_exact t _ _ (proj1 Rm) (proj1 Rf)) as [(m' & Hm' & R' & Q')|(p & Hm')]; [|congruence]. rewrite Hm in Hm'. injection Hm' as <-.
      split; [exact A|]. split; [exact O|]. split; [exact R'|]. rewrite Q', M, Qf. reflexivity.
    + inversion H; subst. auto.
    + inversion H; subst. auto.
    + inversion H; subst. cbn. inversion Fg; subst. split; [lia|]. split; [assumption|]. split; [apply one_reduced|reflexivity].
  - apply obind_inv in H. destruct H as [w [Hw H]]. apply obind_inv in H. destruct H as [u [Hu H]].
    unfold gains, factors in *. cbn [gathered] in *. apply Forall_app in Fg, Ff. destruct Fg as [Fg1 Fg2], Ff as [Ff1 Ff2].
    destruct (IHh Fg1 Ff1 w Hw) as (A & O & Rm & M). destruct (IHk Fg2 Ff2 u Hu) as (A' & O' & Rm' & M').
    cbn in H. apply obind_inv in H. destruct H as [a [Ha H]]. apply checked_add in Ha. destruct Ha as [-> Ha].
    apply obind_inv in H. destruct H as [m [Hm H]]. inversion H; subst. cbn.
    destruct (add_exact t _ _ (proj1 Rm) (proj1 Rm')) as [(m' & Hm' & R' & Q')|(p & Hm')]; [|congruence]. rewrite Hm in Hm'. injection Hm' as <-.
    rewrite sum_app. split; [rewrite A, A'; apply Z.add_shuffle1|]. split; [exact Ha|]. split; [exact R'|]. rewrite Q', M, M'. reflexivity.
Qed.

Lemma rounds_to_Q R n z q y : 0 < denom z -> (toQ z == q)%Q -> rounds_to R (n * numer z) (denom z) y -> rounds_to R (n * Qnum q) (QDen q) y.
Proof.
  intros Hd E H. apply (rounds_to_eqv R (n * numer z) (denom z)); [exact Hd|lia| |exact H].
  unfold toQ, Qeq in E. cbn in E. rewrite Z2Pos.id in E by lia. rewrite <- !Z.mul_assoc. f_equal. lia.
Qed.

Lemma C58_StatIntPercent_proof :
  forall t R scale s (h : history (statPct true (prim t) R scale)) r,
  from_i64 t scale = Done s -> 0 < s ->
  Forall (ity_ok t) (gains h same same) -> Forall (ity_ok t) (factors h same) ->
  worth h = Done r ->
  exists y, rounds_to R ((unbased h + sum (gains h same same)) * Qnum (rate (S := statPct true (prim t) R scale) (out_of s) h)) (QDen (rate (S := statPct true (prim t) R scale) (out_of s) h)) y /\
    r = bounded t (floors h same) (ceilings h same) y.
Proof.
  intros t R scale s h r Es Hs Fg Ff H. unfold worth in H. apply obind_inv in H. destruct H as [v [Hv H]].
  destruct (pct_any t R scale s h Es Hs Fg Ff v Hv) as (A & O & Rm & M).
  destruct (pct_eval_true t R scale v r H Rm O) as [y [Y ->]].
  exists y. split.
  - rewrite <- A. destruct Rm as [[_ Hd] _]. apply (rounds_to_Q R (addend v) (mult v)); [lia|exact M|exact Y].
  - apply (i_bound_is (S := statPct true (prim t) R scale) _ (fun v => v) _ _ _ _ (pct_bounds _ _ _ _ h v Hv)).
Qed.
(** Which rational it is given as does not matter. *)
Lemma C58_rate_any_form_proof : forall R n q q' y, (q == q')%Q -> rounds_to R (n * Qnum q) (QDen q) y -> rounds_to R (n * Qnum q') (QDen q') y.
Proof.
  intros R n q q' y E H. apply (rounds_to_eqv R (n * Qnum q) (QDen q)); [lia|lia| |exact H].
  unfold Qeq in E. rewrite <- !Z.mul_assoc. f_equal. lia.
Qed.
