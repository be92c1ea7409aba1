(** Proofs: what more was granted to is worth no less ([StatIntFloatMul]). *)
From Coq Require Import ZArith Reals List Bool Lia Lra.
From Flocq Require Import Core BinarySingleNaN.
From Verif Require Import M_Outcome M_Ints M_Ratio M_Float M_Value M_Types S_Types S_Float S_Totals S_Monotone
  L_Outcome L_Ints L_Float L_FloatTotals L_Monotone L_MonoFloat L_Monotone2.
Import ListNotations.
Local Open Scope Z_scope.

Lemma r_floor_le x y n m : (x <= y)%R -> floor_of x n -> floor_of y m -> n <= m.
Proof. intros L [A _] [_ B]. assert (IZR n < IZR (m + 1))%R as C by (rewrite plus_IZR; lra). apply lt_IZR in C. lia. Qed.
Lemma r_ceil_le x y n m : (x <= y)%R -> ceil_of x n -> ceil_of y m -> n <= m.
Proof. intros L [A _] [_ B]. assert (IZR (n - 1) < IZR m)%R as C by (rewrite minus_IZR; lra). apply lt_IZR in C. lia. Qed.
Lemma r_trunc_le x y n m : (x <= y)%R -> trunc_of x n -> trunc_of y m -> n <= m.
Proof.
  intros L [A1 A2] [B1 B2]. destruct (Rle_lt_dec 0 x) as [P|P].
  - apply (r_floor_le x y); [exact L|apply A1; exact P|apply B1; lra].
  - destruct (Rle_lt_dec 0 y) as [Q|Q].
    + destruct (A2 ltac:(lra)) as [C _]. destruct (B1 Q) as [_ D].
      assert (IZR (n - 1) < IZR (m + 1))%R as E.
      { rewrite plus_IZR, minus_IZR. lra. } apply lt_IZR in E.
      assert (n <= 0). { assert (IZR (n - 1) < IZR 0)%R as G by (rewrite minus_IZR; lra). apply lt_IZR in G. lia. }
      assert (0 <= m). { assert (IZR 0 < IZR (m + 1))%R as G by (rewrite plus_IZR; lra). apply lt_IZR in G. lia. }
      lia.
    + apply (r_ceil_le x y); [exact L|apply A2; lra|apply B2; lra].
Qed.
Lemma r_round_le x y n m : (x <= y)%R -> round_of x n -> round_of y m -> n <= m.
Proof.
  intros L [A A'] [B B']. destruct (Z_le_gt_dec n m) as [G|G]; [exact G|exfalso].
  assert (E : n = m + 1).
  { assert (IZR n < IZR (m + 2))%R as C.
    { rewrite plus_IZR. apply Rabs_le_inv in A, B. destruct A as [_ A], B as [B _].
      destruct (Rlt_le_dec (IZR n) (IZR m + 2)) as [Q|Q]; [exact Q|]. lra. }
    apply lt_IZR in C. lia. }
  subst n. rewrite plus_IZR in *. pose proof A as A0. pose proof B as B0. apply Rabs_le_inv in A0, B0.
  assert (Ex : (x = IZR m + /2)%R) by lra. assert (Ey : (y = IZR m + /2)%R) by lra.
  assert (T1 : (Rabs (IZR m + 1 - x) = / 2)%R) by (rewrite Ex; rewrite Rabs_pos_eq; lra).
  assert (T2 : (Rabs (IZR m - y) = / 2)%R) by (rewrite Ey; rewrite Rabs_left; lra).
  specialize (B' T2). destruct (Z_le_gt_dec 0 m) as [P|P].
  - apply IZR_le in P. cbn in P. rewrite Ey in B'. rewrite !Rabs_pos_eq in B' by lra. lra.
  - assert (m <= -1) as Q by lia. apply IZR_le in Q. specialize (A' T1). rewrite Ex in A'. rewrite !Rabs_left1 in A' by lra. lra.
Qed.
Lemma r_rounds_le R x y n m : (x <= y)%R -> real_rounds_to R x n -> real_rounds_to R y m -> n <= m.
Proof.
  intros L. destruct R; cbn.
  - apply r_trunc_le; exact L.
  - apply r_floor_le; exact L.
  - apply r_ceil_le; exact L.
  - apply r_round_le; exact L.
  - intros (A1 & A2 & A3) (B1 & B2 & B3). destruct (Rtotal_order x 0) as [P|[P|P]].
    + destruct (A3 P) as (a & Ta & ->). destruct (Rtotal_order y 0) as [Q|[Q|Q]].
      * destruct (B3 Q) as (b & Tb & ->). pose proof (r_ceil_le _ _ _ _ L Ta Tb). lia.
      * rewrite (B1 Q). lia.
      * destruct (B2 Q) as (b & _ & ->). lia.
    + rewrite (A1 P). destruct (Rtotal_order y 0) as [Q|[Q|Q]]; [lra|rewrite (B1 Q); lia|].
      destruct (B2 Q) as (b & _ & ->). lia.
    + destruct (A2 P) as (a & Ta & ->). destruct (B2 ltac:(lra)) as (b & Tb & ->). pose proof (r_floor_le _ _ _ _ L Ta Tb). lia.
Qed.

Section IntFloat.
  Variables prec emax : Z.
  Context (Hp : Prec_gt_0 prec) (He : Prec_lt_emax prec emax).
  Notation bf := (binary_float prec emax).
  Notation one := (b_one prec emax Hp He).
  Notation of_int := (b_of_int prec emax Hp He).

  Lemma of_int_ext z : is_nan (of_int z) = false /\ ext (of_int z) = cap emax (nearest prec emax (IZR z)).
  Proof.
    destruct (of_int_spec prec emax Hp He z) as (A & B & _).
    destruct (too_large_dec emax (nearest prec emax (IZR z))) as [L|L].
    - rewrite (B L). split; [reflexivity|]. destruct (Z.ltb_spec z 0) as [Q|Q]; cbn [ext]; symmetry.
      + apply cap_neg; [exact L|]. apply near_le0; [assumption..|]. apply (IZR_le z 0). lia.
      + apply cap_pos; [exact L|]. apply near_ge0; [assumption..|]. apply (IZR_le 0 z). lia.
    - destruct (A L) as [Fz E]. split; [apply fin_not_nan; exact Fz|]. rewrite ext_finite by exact Fz. rewrite E.
      symmetry. apply cap_id. exact L.
  Qed.
  Lemma of_int_le z z' : z <= z' -> (ext (of_int z) <= ext (of_int z'))%R.
  Proof.
    intros L. rewrite (proj2 (of_int_ext z)), (proj2 (of_int_ext z')). apply cap_le, near_le; [assumption..|]. apply IZR_le. exact L.
  Qed.
  Lemma of_int_pos z : 0 <= z -> (0 <= ext (of_int z))%R.
  Proof.
    intros L. pose proof (of_int_le 0 z L) as Q. rewrite (proj2 (of_int_ext 0)) in Q. rewrite near_0 in Q by assumption.
    unfold cap, Rmax, Rmin in Q. pose proof (M_pos emax). repeat destruct Rle_dec; lra.
  Qed.
  Lemma to_int_le t R (x x' : bf) y y' : is_nan x = false -> is_nan x' = false -> (ext x <= ext x')%R ->
    round_with R (binF prec emax Hp He) x = Done y -> round_with R (binF prec emax Hp He) x' = Done y' ->
    b_to_int prec emax t y <= b_to_int prec emax t y'.
  Proof.
    intros N N' L E E'. pose proof (imin_le0 t). pose proof (imax_ge127 t). pose proof (M_pos emax).
    assert (Any : forall z : bf, imin t <= b_to_int prec emax t z <= imax t).
    { intros z. destruct z as [|[]| |]; cbn [b_to_int]; try apply sat_range; lia. }
    destruct (split_fin prec emax x N) as [Fx|[->| ->]].
    - destruct (split_fin prec emax x' N') as [Fx'|[->| ->]].
      + destruct (round_with_spec prec emax Hp He R x Fx) as (z & n & Ez & Fz & Rz & P).
        destruct (round_with_spec prec emax Hp He R x' Fx') as (z' & n' & Ez' & Fz' & Rz' & P').
        rewrite Ez in E. rewrite Ez' in E'. injection E as <-. injection E' as <-.
        rewrite (to_int_finite prec emax He t z n Fz Rz), (to_int_finite prec emax He t z' n' Fz' Rz').
        apply sat_le. rewrite !ext_finite in L by assumption. exact (r_rounds_le R _ _ n n' L P P').
      + pose proof (ext_strict prec emax x Fx). cbn in L. lra.
      + rewrite round_with_special in E' by reflexivity. injection E' as <-. apply Any.
    - rewrite round_with_special in E by reflexivity. injection E as <-. apply Any.
    - cbn in L. pose proof (top_only prec emax x' N' L) as ->. rewrite round_with_special in E, E' by reflexivity.
      injection E as <-. injection E' as <-. reflexivity.
  Qed.

  Lemma intfloat_value_le raise t R h k v w : improved (intfloat_merits prec emax Hp He raise true t R) h k ->
    value_of h = Done v -> value_of k = Done w -> quad_le (prim t) (times_le prec emax raise) v w.
  Proof.
    intros I V W. set (T := prim t). pose proof (z_ok_0 T) as Z0. pose proof (one_one prec emax Hp He raise) as O1.
    assert (K : keeps_order true T) by (right; split; reflexivity).
    revert v w V W. apply (improved_le (intfloat_merits prec emax Hp He raise true t R) (quad_le T (times_le prec emax raise))) with (h := h) (k := k); try exact I; clear I h k.
    - split; [apply (front_base T); auto; lia|exact O1].
    - intros b b' (A & B & L). split; [apply (front_base T); auto|exact O1].
    - intros b (A & L). split; [apply (front_base T); auto|exact O1].
    - intros b (A & L). split; [apply (front_base T); auto|exact O1].
    - intros o o' v w v' w' NB B [F Q] V W. destruct o, o'; cbn in B; try contradiction; cbn in V, W.
      + destruct (front_add true T v w v' w' x x0 K F B V W) as (F' & E1 & E2). split; [exact F'|rewrite E1, E2; exact Q].
      + injection V as <-. injection W as <-. split; [apply front_mult; exact F|].
        apply times_both; [exact Q|]. apply upto_times; apply B.
      + injection V as <-. injection W as <-. split; [|exact Q]. bounds. unfold z_ok in *. lia.
      + injection V as <-. injection W as <-. split; [|exact Q]. bounds. unfold z_ok in *. lia.
      + destruct (NB x eq_refl).
    - intros o v w w' G [F Q] W. destruct o; cbn in G; try contradiction; cbn in W.
      + destruct (front_add_r true T v w w' x K F G W) as (F' & E1). split; [exact F'|rewrite E1; exact Q].
      + injection W as <-. split; [apply front_mult_r; exact F|].
        apply (times_right prec emax Hp He); [exact Q|apply one_times; exact G].
      + injection W as <-. split; [|exact Q]. bounds. unfold z_ok in *. lia.
    - intros o v v' w G [F Q] V. destruct o; cbn in G; try contradiction; cbn in V.
      + destruct (front_add_l true T v w v' x K F G V) as (F' & E1). split; [exact F'|rewrite E1; exact Q].
      + injection V as <-. split; [apply front_mult_l; exact F|].
        apply (times_left prec emax Hp He); [exact Q|apply upto_times; apply G].
      + injection V as <-. split; [|exact Q]. bounds. unfold z_ok in *. lia.
    - intros v w x y v' w' [F Q] [F' Q'] V W. cbn in V, W. inv V a Ea. inv W b Eb.
      injection V as <-. injection W as <-. split; [exact (front_join true T v w x y a b _ _ K F F' Ea Eb)|].
      apply times_both; assumption.
    - intros v w y w' [F Q] [F' Q'] W. cbn in W. inv W b Eb.
      injection W as <-. split; [exact (front_joined true T v w y _ b _ K F F' eq_refl eq_refl Eb)|].
      apply (times_right prec emax Hp He); assumption.
    - intros v w x v' [F Q] [F' Q'] V. cbn in V. inv V b Eb.
      injection V as <-. split; [exact (front_unjoined true T v w x _ b _ K F F' eq_refl eq_refl Eb)|].
      apply (times_left prec emax Hp He); assumption.
  Qed.

  Lemma C75_StatIntFloatMul_proof : forall raise t R h k v w r r', improved (intfloat_merits prec emax Hp He raise true t R) h k ->
    value_of h = Done v -> value_of k = Done w ->
    is_nan (Bmult mode_NE (of_int (addend v)) (mult v)) = false -> is_nan (Bmult mode_NE (of_int (addend w)) (mult w)) = false ->
    (raise = true -> 0 <= addend v) -> worth h = Done r -> worth k = Done r' -> r <= r'.
  Proof.
    intros raise t R h k v w r r' I V W N N' P H H'. unfold worth in H, H'. rewrite V in H. rewrite W in H'. cbn in H, H'.
    destruct (intfloat_value_le raise t R h k v w I V W) as (F & Q).
    inv H y E. inv H' y' E'. injection H as <-. injection H' as <-. apply (i_bound_le (prim t)); [exact F|].
    destruct (mult_nan _ _ _ _ _ _ N) as [Na Nm], (mult_nan _ _ _ _ _ _ N') as [Na' Nm']. destruct (Q Nm Nm') as [Pm Lm].
    refine (to_int_le t R _ _ y y' N N' _ E E'). destruct F as (_ & _ & La & _).
    apply mult_le; auto; [apply of_int_le; exact La|destruct raise; lra|].
    destruct raise; [left; apply of_int_pos; auto|right; exact Lm].
  Qed.
End IntFloat.
