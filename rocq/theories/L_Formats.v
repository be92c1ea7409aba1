(** Proofs: the two formats of floats. *)
From Coq Require Import ZArith Reals List Bool Lia Lra.
From Flocq Require Import Core BinarySingleNaN.
From Verif Require Import M_Outcome M_Float S_Float L_Float L_FloatTotals.
Import ListNotations.
Local Open Scope R_scope.

Section Any.
  Variables prec emax : Z.
  Context (Hp : Prec_gt_0 prec) (He : Prec_lt_emax prec emax).
  Notation bf := (binary_float prec emax).
  Notation near := (nearest prec emax).
  Lemma minus_spec (x y : bf) : is_finite x = true -> is_finite y = true -> Rabs (near (B2R x - B2R y)) < bpow radix2 emax ->
    is_finite (Bminus mode_NE x y) = true /\ B2R (Bminus mode_NE x y) = near (B2R x - B2R y).
  Proof.
    intros Fx Fy L. pose proof (Bminus_correct prec emax _ _ mode_NE x y Fx Fy) as N.
    change (SpecFloat.fexp prec emax) with (FLT_exp (3 - emax - prec) prec) in N.
    cbn [round_mode] in N. fold (near (B2R x - B2R y)) in N.
    rewrite Rlt_bool_true in N by exact L. destruct N as (A & B & _). easy.
  Qed.
  Lemma maxv_R : B2R (b_maxv prec emax Hp He) = (2 - bpow radix2 (- (prec - 1))) * bpow radix2 (emax - 1).
  Proof.
    rewrite max_R. rewrite Rmult_minus_distr_r, <- bpow_plus. f_equal.
    - replace emax with (1 + (emax - 1))%Z at 1 by ring. rewrite bpow_plus. reflexivity.
    - f_equal. ring.
  Qed.
  Lemma eqb_R (x y : bf) : is_finite x = true -> is_finite y = true -> Beqb x y = true <-> B2R x = B2R y.
  Proof. intros Fx Fy. rewrite (Beqb_correct _ _ x y Fx Fy). destruct (Req_bool_spec (B2R x) (B2R y)); split; easy. Qed.
  Lemma ltb_R (x y : bf) : is_finite x = true -> is_finite y = true -> Bltb x y = true <-> B2R x < B2R y.
  Proof. intros Fx Fy. rewrite (Bltb_correct _ _ x y Fx Fy). destruct (Rlt_bool_spec (B2R x) (B2R y)); split; try easy. lra. Qed.
End Any.

Lemma C59_f32_proof :
  let near r := round radix2 (FLT_exp (-149) 24) ZnearestE r in
  let fits r := Rabs (near r) < bpow radix2 128 in
  (B2R (f_zero f32F : f32) = 0 /\ B2R (f_one f32F : f32) = 1 /\
   B2R (f_maxv f32F : f32) = (2 - bpow radix2 (- (24 - 1))) * bpow radix2 (128 - 1) /\
   B2R (f_minv f32F : f32) = - ((2 - bpow radix2 (- (24 - 1))) * bpow radix2 (128 - 1))) /\
  forall x y : f32, is_finite x = true -> is_finite y = true ->
  (fits (B2R x + B2R y) -> exists z : f32, f_add f32F x y = Done z /\ is_finite z = true /\ B2R z = near (B2R x + B2R y)) /\
  (fits (B2R x - B2R y) -> exists z : f32, f_sub f32F x y = Done z /\ is_finite z = true /\ B2R z = near (B2R x - B2R y)) /\
  (fits (B2R x * B2R y) -> exists z : f32, f_mul f32F x y = Done z /\ is_finite z = true /\ B2R z = near (B2R x * B2R y)) /\
  (Beqb x y = true <-> B2R x = B2R y) /\ (f_ltb f32F x y = true <-> B2R x < B2R y).
Proof.
  cbv zeta. split.
  - split; [reflexivity|]. split; [apply one_R|]. split; [apply maxv_R|].
    change (f_minv f32F) with (b_minv 24 128 prec24 emax128). unfold b_minv. rewrite B2R_Bopp, maxv_R. reflexivity.
  - intros x y Fx Fy. split; [|split; [|split; [|split]]].
    + intros H. exists (@Bplus 24 128 prec24 emax128 mode_NE x y). split; [reflexivity|].
      apply (plus_spec 24 128 prec24 emax128); try assumption. intros C. exact (Rlt_not_le _ _ H C).
    + intros H. exists (@Bminus 24 128 prec24 emax128 mode_NE x y). split; [reflexivity|].
      apply (minus_spec 24 128 prec24 emax128); assumption.
    + intros H. exists (@Bmult 24 128 prec24 emax128 mode_NE x y). split; [reflexivity|].
      apply (proj1 (mult_spec 24 128 prec24 emax128 x y Fx Fy)). intros C. exact (Rlt_not_le _ _ H C).
    + apply eqb_R; assumption.
    + apply ltb_R; assumption.
Qed.

Lemma C59_f64_proof :
  let near r := round radix2 (FLT_exp (-1074) 53) ZnearestE r in
  let fits r := Rabs (near r) < bpow radix2 1024 in
  (B2R (f_zero f64F : f64) = 0 /\ B2R (f_one f64F : f64) = 1 /\
   B2R (f_maxv f64F : f64) = (2 - bpow radix2 (- (53 - 1))) * bpow radix2 (1024 - 1) /\
   B2R (f_minv f64F : f64) = - ((2 - bpow radix2 (- (53 - 1))) * bpow radix2 (1024 - 1))) /\
  forall x y : f64, is_finite x = true -> is_finite y = true ->
  (fits (B2R x + B2R y) -> exists z : f64, f_add f64F x y = Done z /\ is_finite z = true /\ B2R z = near (B2R x + B2R y)) /\
  (fits (B2R x - B2R y) -> exists z : f64, f_sub f64F x y = Done z /\ is_finite z = true /\ B2R z = near (B2R x - B2R y)) /\
  (fits (B2R x * B2R y) -> exists z : f64, f_mul f64F x y = Done z /\ is_finite z = true /\ B2R z = near (B2R x * B2R y)) /\
  (Beqb x y = true <-> B2R x = B2R y) /\ (f_ltb f64F x y = true <-> B2R x < B2R y).
Proof.
  cbv zeta. split.
  - split; [reflexivity|]. split; [apply one_R|]. split; [apply maxv_R|].
    change (f_minv f64F) with (b_minv 53 1024 prec53 emax1024). unfold b_minv. rewrite B2R_Bopp, maxv_R. reflexivity.
  - intros x y Fx Fy. split; [|split; [|split; [|split]]].
    + intros H. exists (@Bplus 53 1024 prec53 emax1024 mode_NE x y). split; [reflexivity|].
      apply (plus_spec 53 1024 prec53 emax1024); try assumption. intros C. exact (Rlt_not_le _ _ H C).
    + intros H. exists (@Bminus 53 1024 prec53 emax1024 mode_NE x y). split; [reflexivity|].
      apply (minus_spec 53 1024 prec53 emax1024); assumption.
    + intros H. exists (@Bmult 53 1024 prec53 emax1024 mode_NE x y). split; [reflexivity|].
      apply (proj1 (mult_spec 53 1024 prec53 emax1024 x y Fx Fy)). intros C. exact (Rlt_not_le _ _ H C).
    + apply eqb_R; assumption.
    + apply ltb_R; assumption.
Qed.
