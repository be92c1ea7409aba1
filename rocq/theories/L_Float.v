(** Facts about binary floats used by the float properties. *)
From Coq Require Import ZArith Reals List Bool Lia Lra.
From Flocq Require Import Core BinarySingleNaN.
From Verif Require Import M_Outcome M_Ints M_Float M_Value M_Types S_Types S_Float L_Ints.
Import ListNotations.
Local Open Scope Z_scope.

(** ** Rounding to an integer *)
Lemma round_fix rnd x : round radix2 (FIX_exp 0) rnd x = IZR (rnd x).
Proof.
  unfold round, scaled_mantissa, cexp, FIX_exp, F2R; simpl.
  now rewrite !Rmult_1_r.
Qed.

Lemma floor_of_Zfloor x : floor_of x (Zfloor x).
Proof. split; [apply Zfloor_lb | apply Zfloor_ub]. Qed.

Lemma ceil_of_Zceil x : ceil_of x (Zceil x).
Proof.
  split; [|apply Zceil_ub].
  unfold Zceil. rewrite opp_IZR. pose proof (Zfloor_ub (- x)). lra.
Qed.

Lemma trunc_of_Ztrunc x : trunc_of x (Ztrunc x).
Proof.
  split; intros H.
  - rewrite Ztrunc_floor by easy. apply floor_of_Zfloor.
  - rewrite Ztrunc_ceil by easy. apply ceil_of_Zceil.
Qed.

Lemma round_of_ZnearestA x : round_of x (ZnearestA x).
Proof.
  pose proof (Znearest_half (Zle_bool 0) x) as H.
  split.
  - rewrite Rabs_minus_sym. exact H.
  - intros E. rewrite Rabs_minus_sym in E.
    assert (E1 : (x - IZR (Zfloor x) = / 2)%R).
    { destruct (Req_dec (x - IZR (Zfloor x)) (/ 2)) as [e|ne]; [easy|exfalso].
      pose proof (Zfloor_lb x) as Hl. pose proof (Zfloor_ub x) as Hu.
      unfold Znearest in E.
      destruct (Rcompare_spec (x - IZR (Zfloor x)) (/2)) as [L|L|L]; try easy.
      - rewrite Rabs_pos_eq in E; lra.
      - rewrite Zceil_floor_neq in E.
        + rewrite plus_IZR in E. rewrite Rabs_left in E; lra.
        + intros C. rewrite C in L. lra. }
    unfold Znearest. rewrite Rcompare_Eq by exact E1.
    assert (Hc : Zceil x = Zfloor x + 1).
    { apply Zceil_floor_neq. intros C. rewrite C in E1. lra. }
    destruct (Zle_bool 0 (Zfloor x)) eqn:Ez.
    + apply Zle_bool_imp_le in Ez. apply IZR_le in Ez.
      rewrite Hc, plus_IZR. rewrite !Rabs_pos_eq; lra.
    + apply Z.leb_gt in Ez. assert (Ez' : (Zfloor x <= -1)%Z) by lia. apply IZR_le in Ez'.
      rewrite !Rabs_left; lra.
Qed.

Section Bin.
  Variables prec emax : Z.
  Context (Hp : Prec_gt_0 prec) (He : Prec_lt_emax prec emax).
  Notation bf := (binary_float prec emax).

  Lemma emax_pos : 0 < emax.
  Proof. unfold Prec_gt_0, Prec_lt_emax in *; lia. Qed.

  (** ** The order *)
  Lemma ext_finite (x : bf) : is_finite x = true -> ext x = B2R x.
  Proof. now destruct x as [| | |]. Qed.

  Lemma ext_bounds (x : bf) : (- bpow radix2 emax <= ext x <= bpow radix2 emax)%R.
  Proof.
    pose proof (bpow_gt_0 radix2 emax) as G.
    pose proof (abs_B2R_lt_emax prec emax x) as H. apply Rabs_lt_inv in H.
    destruct x as [s|[]| |s m e Hb]; cbn [ext] in *; lra.
  Qed.

  Lemma ltb_ext (x y : bf) : is_nan x = false -> is_nan y = false ->
    Bltb x y = Rlt_bool (ext x) (ext y).
  Proof.
    intros Hx Hy.
    pose proof (bpow_gt_0 radix2 emax) as G.
    destruct (is_finite x) eqn:Fx; destruct (is_finite y) eqn:Fy.
    - rewrite Bltb_correct by easy. now rewrite !ext_finite.
    - pose proof (abs_B2R_lt_emax prec emax x) as H. apply Rabs_lt_inv in H.
      destruct y as [|[]| |]; try easy; rewrite (ext_finite x) by easy; cbn [ext];
        destruct x as [[]| | |[]]; try easy; cbn -[bpow B2R];
        case Rlt_bool_spec; intros; try easy; lra.
    - pose proof (abs_B2R_lt_emax prec emax y) as H. apply Rabs_lt_inv in H.
      destruct x as [|[]| |]; try easy; rewrite (ext_finite y) by easy; cbn [ext];
        destruct y as [[]| | |[]]; try easy; cbn -[bpow B2R];
        case Rlt_bool_spec; intros; try easy; lra.
    - destruct x as [|[]| |], y as [|[]| |]; try easy; cbn -[bpow];
        case Rlt_bool_spec; intros; try easy; lra.
  Qed.

  Lemma ext_max (x y : bf) : is_nan x = false -> is_nan y = false ->
    is_nan (b_max prec emax x y) = false /\ ext (b_max prec emax x y) = Rmax (ext x) (ext y).
  Proof.
    intros Hx Hy. unfold b_max. rewrite Hx, Hy, ltb_ext by easy.
    case Rlt_bool_spec; intros H; (split; [easy|]).
    - now rewrite Rmax_right by lra.
    - now rewrite Rmax_left by lra.
  Qed.

  Lemma ext_min (x y : bf) : is_nan x = false -> is_nan y = false ->
    is_nan (b_min prec emax x y) = false /\ ext (b_min prec emax x y) = Rmin (ext x) (ext y).
  Proof.
    intros Hx Hy. unfold b_min. rewrite Hx, Hy, ltb_ext by easy.
    case Rlt_bool_spec; intros H; (split; [easy|]).
    - now rewrite Rmin_right by lra.
    - now rewrite Rmin_left by lra.
  Qed.

  (** One bound added: NaN is ignored. *)
  Lemma max_given (x y : bf) : is_nan x = false ->
    is_nan (b_max prec emax x y) = false /\
    ext (b_max prec emax x y) = (if is_nan y then ext x else Rmax (ext x) (ext y)).
  Proof.
    intros Hx. destruct (is_nan y) eqn:Hy; [|now apply ext_max].
    unfold b_max. now rewrite Hx, Hy.
  Qed.
  Lemma min_given (x y : bf) : is_nan x = false ->
    is_nan (b_min prec emax x y) = false /\
    ext (b_min prec emax x y) = (if is_nan y then ext x else Rmin (ext x) (ext y)).
  Proof.
    intros Hx. destruct (is_nan y) eqn:Hy; [|now apply ext_min].
    unfold b_min. now rewrite Hx, Hy.
  Qed.

  (** [x.min(hi).max(lo)]. *)
  Lemma bound_spec (x lo hi : bf) :
    let r := b_max prec emax (b_min prec emax x hi) lo in
    (is_nan r = true -> is_nan lo = true /\ is_nan hi = true) /\
    (is_nan lo = false -> (ext lo <= ext r)%R) /\
    (is_nan hi = false -> is_nan lo = true \/ (ext lo <= ext hi)%R -> (ext r <= ext hi)%R) /\
    (is_nan lo = false -> is_nan hi = false -> (ext hi < ext lo)%R -> r = lo).
  Proof.
    intros r.
    assert (Hmin : is_nan hi = false -> is_nan (b_min prec emax x hi) = false /\
              (ext (b_min prec emax x hi) <= ext hi)%R).
    { intros Hh. destruct (is_nan x) eqn:Hx.
      - unfold b_min. rewrite Hx. split; [easy|lra].
      - destruct (ext_min x hi Hx Hh) as [A B]. split; [easy|]. rewrite B. apply Rmin_r. }
    set (m := b_min prec emax x hi) in *.
    destruct (is_nan m) eqn:Hm.
    - assert (Er : r = lo) by (unfold r, b_max; now rewrite Hm).
      rewrite Er. destruct (is_nan hi) eqn:Hh; [|now destruct (Hmin eq_refl)].
      repeat split; try easy; intros; lra.
    - destruct (is_nan lo) eqn:Hl.
      + assert (Er : r = m) by (unfold r, b_max; now rewrite Hm, Hl).
        rewrite Er, Hm. repeat split; try easy. intros Hh _. now apply Hmin.
      + destruct (ext_max m lo Hm Hl) as [A B]. fold r in A, B.
        rewrite A, B. repeat split; try easy.
        * intros _. apply Rmax_r.
        * intros Hh [|H]; [easy|]. apply Rmax_lub; [now apply Hmin|easy].
        * intros _ Hh H. unfold r, b_max. rewrite Hm, Hl, ltb_ext by easy.
          destruct (Hmin Hh) as [_ Hle]. rewrite Rlt_bool_true by lra. reflexivity.
  Qed.

  (** ** Constants *)
  Lemma one_R : B2R (b_one prec emax Hp He) = 1%R.
  Proof. apply Bone_correct. Qed.
  Lemma one_fin : is_finite (b_one prec emax Hp He) = true.
  Proof. apply is_finite_Bone. Qed.
  Lemma fin_not_nan (x : bf) : is_finite x = true -> is_nan x = false.
  Proof. now destruct x. Qed.
  Lemma max_fin : is_finite (b_maxv prec emax Hp He) = true.
  Proof. reflexivity. Qed.
  Lemma min_fin : is_finite (b_minv prec emax Hp He) = true.
  Proof. reflexivity. Qed.

  Lemma max_R : B2R (b_maxv prec emax Hp He) = (bpow radix2 emax - bpow radix2 (emax - prec))%R.
  Proof.
    unfold b_maxv, Bmax_float. cbn [B2R SF2B]. unfold F2R; cbn [Fnum Fexp].
    unfold Prec_gt_0, Prec_lt_emax in *.
    replace (Zpos (shift_pos (Z.to_pos prec) 1 - 1)) with (2 ^ prec - 1)%Z.
    2:{ rewrite Pos2Z.inj_sub.
        - rewrite shift_pos_correct. rewrite Z.mul_1_r, Z.pow_pos_fold.
          rewrite Z2Pos.id by easy. reflexivity.
        - enough (Z.pos 1 < Z.pos (shift_pos (Z.to_pos prec) 1)) by lia. rewrite shift_pos_correct, Z.pow_pos_fold, Z2Pos.id by easy.
          pose proof (Z.pow_gt_1 2 prec). lia. }
    unfold SpecFloat.cond_Zopp. rewrite minus_IZR. change 2%Z with (radix_val radix2). rewrite IZR_Zpower by lia.
    rewrite Rmult_minus_distr_r, <- bpow_plus, Rmult_1_l.
    now replace (prec + (emax - prec)) with emax by lia.
  Qed.

  Lemma finite_le_max (x : bf) : is_finite x = true ->
    (B2R (b_minv prec emax Hp He) <= B2R x <= B2R (b_maxv prec emax Hp He))%R.
  Proof.
    intros H. unfold b_minv. rewrite B2R_Bopp, max_R.
    pose proof (abs_B2R_le_emax_minus_prec prec emax _ x) as A.
    apply Rabs_le_inv in A. lra.
  Qed.

  (** A finite number is not changed by the default bounds. *)
  Lemma default_bounds_id (x : bf) : is_finite x = true ->
    b_max prec emax (b_min prec emax x (b_maxv prec emax Hp He)) (b_minv prec emax Hp He) = x.
  Proof.
    intros Fx. pose proof (finite_le_max x Fx) as [L U].
    pose proof (fin_not_nan _ Fx) as Nx.
    assert (E : b_min prec emax x (b_maxv prec emax Hp He) = x).
    { unfold b_min. rewrite Nx, (fin_not_nan _ max_fin).
      rewrite Bltb_correct by (easy || apply max_fin).
      rewrite Rlt_bool_false by easy. reflexivity. }
    rewrite E. unfold b_max. rewrite Nx, (fin_not_nan _ min_fin).
    rewrite Bltb_correct by (easy || apply min_fin).
    now rewrite Rlt_bool_false.
  Qed.

  Lemma mult_one (x : bf) : is_finite x = true -> Bmult mode_NE x (b_one prec emax Hp He) = x.
  Proof.
    intros Fx.
    pose proof (Bmult_correct prec emax _ _ mode_NE x (b_one prec emax Hp He)) as M.
    rewrite one_R, Rmult_1_r in M.
    rewrite round_generic in M by (auto with typeclass_instances; apply generic_format_B2R).
    rewrite Rlt_bool_true in M by apply abs_B2R_lt_emax.
    destruct M as (A & B & C). rewrite one_fin, Fx in B.
    apply B2R_Bsign_inj; try easy.
    rewrite C by now apply fin_not_nan. unfold b_one. rewrite Bsign_Bone. apply xorb_false_r.
  Qed.

  Lemma zero_plus_one : Bplus mode_NE (B754_zero false) (b_one prec emax Hp He) = b_one prec emax Hp He.
  Proof.
    pose proof one_fin as F. pose proof one_R as O.
    destruct (b_one prec emax Hp He); try easy. cbn in O. lra.
  Qed.

  Lemma zero_minus_one_R :
    B2R (Bminus mode_NE (B754_zero false) (b_one prec emax Hp He)) = (-1)%R /\
    is_finite (Bminus mode_NE (B754_zero false) (b_one prec emax Hp He)) = true.
  Proof.
    pose proof (Bminus_correct prec emax _ _ mode_NE (B754_zero false) (b_one prec emax Hp He)
                  eq_refl one_fin) as M.
    cbn [B2R] in M. rewrite one_R in M.
    replace (0 - 1)%R with (- (1))%R in M by lra.
    rewrite round_generic in M.
    - rewrite Rlt_bool_true in M; [now destruct M as (A & B & _)|].
      rewrite Rabs_Ropp, Rabs_R1. change 1%R with (bpow radix2 0). apply bpow_lt, emax_pos.
    - auto with typeclass_instances.
    - apply generic_format_opp. rewrite <- one_R. apply generic_format_B2R.
  Qed.

  (** ** Rounding modes *)
  Lemma nearbyint_spec md (x : bf) : is_finite x = true ->
    is_finite (Bnearbyint md x) = true /\ B2R (Bnearbyint md x) = IZR (round_mode md (B2R x)).
  Proof.
    intros F. destruct (Bnearbyint_correct prec emax _ md x) as (A & B & _).
    rewrite round_fix in A. now rewrite B.
  Qed.

  Lemma round_with_spec R (x : bf) : is_finite x = true ->
    exists y n, round_with R (binF prec emax Hp He) x = Done y /\
      is_finite y = true /\ B2R y = IZR n /\ real_rounds_to R (B2R x) n.
  Proof.
    intros F. destruct R; cbn [round_with binF f_trunc f_floor f_ceil f_round f_zero f_one f_ltb f_sub f_min f_max real_rounds_to].
    - destruct (nearbyint_spec mode_ZR x F) as [A B].
      eexists; eexists; split; [reflexivity|split; [eassumption|split; [eassumption|]]]; cbn [round_mode]; apply trunc_of_Ztrunc.
    - destruct (nearbyint_spec mode_DN x F) as [A B].
      eexists; eexists; split; [reflexivity|split; [eassumption|split; [eassumption|]]]; cbn [round_mode]; apply floor_of_Zfloor.
    - destruct (nearbyint_spec mode_UP x F) as [A B].
      eexists; eexists; split; [reflexivity|split; [eassumption|split; [eassumption|]]]; cbn [round_mode]; apply ceil_of_Zceil.
    - destruct (nearbyint_spec mode_NA x F) as [A B].
      eexists; eexists; split; [reflexivity|split; [eassumption|split; [eassumption|]]]; cbn [round_mode]; apply round_of_ZnearestA.
    - rewrite !Bltb_correct by easy. cbn [B2R].
      destruct (nearbyint_spec mode_ZR x F) as [A B].
      cbn [round_mode] in B.
      case Rlt_bool_spec; intros H.
      + cbn [obind]. eexists; exists (Z.max (Ztrunc (B2R x)) 1).
        split; [reflexivity|].
        assert (X : is_finite (b_max prec emax (Bnearbyint mode_ZR x) (b_one prec emax Hp He)) = true).
        { unfold b_max. rewrite !fin_not_nan by (easy || apply one_fin).
          destruct Bltb; [apply one_fin|easy]. }
        split; [exact X|]. split.
        * rewrite <- ext_finite by exact X.
          destruct (ext_max (Bnearbyint mode_ZR x) (b_one prec emax Hp He)) as [_ ->];
            try (apply fin_not_nan; easy || apply one_fin).
          rewrite !ext_finite by (easy || apply one_fin). rewrite B, one_R.
          destruct (Z.max_spec (Ztrunc (B2R x)) 1) as [[E ->]|[E ->]].
          -- apply IZR_lt in E. now rewrite Rmax_right by lra.
          -- apply IZR_le in E. now rewrite Rmax_left by lra.
        * split; [lra|]. split; [|lra]. intros _. exists (Ztrunc (B2R x)). split; [|easy].
          apply trunc_of_Ztrunc; lra.
      + case Rlt_bool_spec; intros H'.
        * cbn [obind]. eexists; exists (Z.min (Ztrunc (B2R x)) (-1)).
          split; [reflexivity|].
          destruct zero_minus_one_R as [Om Fm].
          set (mo := Bminus mode_NE (B754_zero false) (b_one prec emax Hp He)) in *.
          assert (X : is_finite (b_min prec emax (Bnearbyint mode_ZR x) mo) = true).
          { unfold b_min. rewrite !fin_not_nan by easy. now destruct Bltb. }
          split; [exact X|]. split.
          -- rewrite <- ext_finite by exact X.
             destruct (ext_min (Bnearbyint mode_ZR x) mo) as [_ ->]; try (now apply fin_not_nan).
             rewrite !ext_finite by easy. rewrite B, Om.
             destruct (Z.min_spec (Ztrunc (B2R x)) (-1)) as [[E ->]|[E ->]].
             ++ apply IZR_lt in E. now rewrite Rmin_left by lra.
             ++ apply IZR_le in E. now rewrite Rmin_right by lra.
          -- split; [lra|]. split; [lra|]. intros _. exists (Ztrunc (B2R x)). split; [|easy].
             apply trunc_of_Ztrunc; lra.
        * exists x, 0. repeat split; try easy; try lra.
  Qed.

  Lemma round_with_special R (x : bf) : is_finite x = false ->
    round_with R (binF prec emax Hp He) x = Done x.
  Proof.
    intros F. destruct x as [|[]| |]; try easy; destruct R; try reflexivity.
    - cbn -[Bminus]. destruct zero_minus_one_R as [A B].
      set (mo := Bminus mode_NE (B754_zero false) (b_one prec emax Hp He)) in *.
      unfold b_min. cbn [is_nan]. rewrite (fin_not_nan mo B).
      f_equal. rewrite ltb_ext by (easy || now apply fin_not_nan).
      rewrite Rlt_bool_false; [easy|]. apply ext_bounds.
    - cbn. unfold b_max. cbn [is_nan]. rewrite (fin_not_nan _ one_fin).
      rewrite ltb_ext by (easy || apply fin_not_nan, one_fin).
      rewrite Rlt_bool_false; [easy|]. apply ext_bounds.
  Qed.
End Bin.

(** ** Integers as floats *)
Section Conv.
  Variables prec emax : Z.
  Context (Hp : Prec_gt_0 prec) (He : Prec_lt_emax prec emax).
  Notation bf := (binary_float prec emax).
  Notation near := (nearest prec emax).

  Lemma emin_le0 : 3 - emax - prec <= 0.
  Proof. unfold Prec_gt_0, Prec_lt_emax in *; lia. Qed.

  Lemma SF_infinity (x : bf) s : B2SF x = SpecFloat.S754_infinity s -> x = B754_infinity s.
  Proof. destruct x; cbn; intros H; try discriminate. now injection H as ->. Qed.

  Lemma too_large_dec x : {too_large emax x} + {~ too_large emax x}.
  Proof. unfold too_large. apply Rle_dec. Qed.

  Lemma of_int_spec z :
    (~ too_large emax (near (IZR z)) ->
      is_finite (b_of_int prec emax Hp He z) = true /\ B2R (b_of_int prec emax Hp He z) = near (IZR z)) /\
    (too_large emax (near (IZR z)) -> b_of_int prec emax Hp He z = B754_infinity (z <? 0)) /\
    Bsign (b_of_int prec emax Hp He z) = (z <? 0).
  Proof.
    pose proof (binary_normalize_correct prec emax _ _ mode_NE z 0 false) as N.
    cbv zeta in N. change (SpecFloat.fexp prec emax) with (FLT_exp (3 - emax - prec) prec) in N.
    assert (E : F2R (Float radix2 z 0) = IZR z) by (unfold F2R; cbn; lra).
    rewrite E in N. cbn [round_mode] in N. fold (near (IZR z)) in N.
    assert (Sg : Rlt_bool (IZR z) 0 = (z <? 0)).
    { destruct (Z.ltb_spec z 0) as [H|H].
      - apply Rlt_bool_true. now apply (IZR_lt z 0).
      - apply Rlt_bool_false. now apply (IZR_le 0 z). }
    fold (b_of_int prec emax Hp He z) in N.
    destruct (Rlt_bool_spec (Rabs (near (IZR z))) (bpow radix2 emax)) as [L|L].
    - destruct N as (A & B & C). repeat split; try easy.
      + unfold too_large. intros; lra.
      + rewrite C. rewrite <- Sg. unfold Rlt_bool.
        destruct (Rcompare_spec (IZR z) 0); easy.
    - rewrite Sg in N. apply SF_infinity in N.
      split; [|split].
      + intros H. exfalso. now apply H.
      + intros _. exact N.
      + now rewrite N.
  Qed.

  Lemma mult_spec (x y : bf) : is_finite x = true -> is_finite y = true ->
    (~ too_large emax (near (B2R x * B2R y)) ->
      is_finite (Bmult mode_NE x y) = true /\ B2R (Bmult mode_NE x y) = near (B2R x * B2R y)) /\
    (too_large emax (near (B2R x * B2R y)) ->
      Bmult mode_NE x y = B754_infinity (xorb (Bsign x) (Bsign y))).
  Proof.
    intros Fx Fy.
    pose proof (Bmult_correct prec emax _ _ mode_NE x y) as N.
    change (SpecFloat.fexp prec emax) with (FLT_exp (3 - emax - prec) prec) in N.
    cbn [round_mode] in N. fold (near (B2R x * B2R y)) in N.
    destruct (Rlt_bool_spec (Rabs (near (B2R x * B2R y))) (bpow radix2 emax)) as [L|L].
    - destruct N as (A & B & C). rewrite Fx, Fy in B. repeat split; try easy.
      unfold too_large. intros; lra.
    - apply SF_infinity in N. split; [|easy]. intros H. exfalso. now apply H.
  Qed.

  Instance near_valid : Valid_exp (FLT_exp (3 - emax - prec) prec).
  Proof. apply FLT_exp_valid. exact Hp. Qed.

  Lemma near_exact z : Z.abs z <= 2 ^ prec -> near (IZR z) = IZR z.
  Proof.
    intros H. unfold nearest. apply round_generic; [auto with typeclass_instances|].
    pose proof emin_le0 as E0.
    destruct (Z.eq_dec (Z.abs z) (2 ^ prec)) as [E|E].
    - assert (G : generic_format radix2 (FLT_exp (3 - emax - prec) prec) (bpow radix2 prec)).
      { apply generic_format_FLT_bpow; [exact Hp|]. unfold Prec_gt_0 in Hp. lia. }
      rewrite <- IZR_Zpower in G by (unfold Prec_gt_0 in Hp; lia).
      change (radix_val radix2) with 2 in G. rewrite <- E in G.
      destruct (Z.abs_eq_or_opp z) as [A|A]; rewrite A in G; [easy|].
      rewrite opp_IZR in G. apply generic_format_opp in G. now rewrite Ropp_involutive in G.
    - apply generic_format_FLT. exists (Float radix2 z 0).
      + unfold F2R; cbn; lra.
      + cbn [Fnum]. change (Z.abs z < 2 ^ prec). lia.
      + cbn [Fexp]. lia.
  Qed.

  Lemma near_int z : exists n, near (IZR z) = IZR n.
  Proof.
    destruct (Z_le_gt_dec (Z.abs z) (2 ^ prec)) as [H|H].
    - exists z. now apply near_exact.
    - unfold nearest, round. set (m := ZnearestE _).
      set (e := cexp radix2 (FLT_exp (3 - emax - prec) prec) (IZR z)).
      assert (He0 : 0 <= e).
      { unfold e, cexp, FLT_exp.
        assert (prec + 1 <= mag radix2 (IZR z)).
        { apply mag_ge_bpow. rewrite <- abs_IZR.
          replace (prec + 1 - 1) with prec by lia.
          rewrite <- IZR_Zpower by (unfold Prec_gt_0 in Hp; lia).
          change (radix_val radix2) with 2. apply IZR_le. lia. }
        lia. }
      exists (m * 2 ^ e). unfold F2R; cbn [Fnum Fexp]. rewrite mult_IZR. f_equal.
      change 2 with (radix_val radix2). now rewrite IZR_Zpower.
  Qed.

  Lemma near_pos z : 0 <= z -> (0 <= near (IZR z))%R.
  Proof.
    intros H. unfold nearest. apply round_ge_generic; auto with typeclass_instances.
    - apply generic_format_0.
    - now apply (IZR_le 0).
  Qed.
  Lemma near_neg z : z <= 0 -> (near (IZR z) <= 0)%R.
  Proof.
    intros H. unfold nearest. apply round_le_generic; auto with typeclass_instances.
    - apply generic_format_0.
    - now apply (IZR_le z 0).
  Qed.

  Lemma to_int_finite t (x : bf) n : is_finite x = true -> B2R x = IZR n ->
    b_to_int prec emax t x = sat t n.
  Proof.
    intros F E.
    assert (B : Btrunc x = n).
    { apply eq_IZR. rewrite (Btrunc_correct prec emax He x), round_fix, E. now rewrite Ztrunc_IZR. }
    unfold b_to_int. rewrite <- B. now destruct x.
  Qed.

  Lemma rounds_int R z n : real_rounds_to R (IZR z) n -> n = z.
  Proof.
    assert (Fl : forall k, floor_of (IZR z) k -> k = z).
    { intros k [A B]. apply le_IZR in A. rewrite <- plus_IZR in B. apply lt_IZR in B. lia. }
    assert (Ce : forall k, ceil_of (IZR z) k -> k = z).
    { intros k [A B]. apply le_IZR in B. rewrite <- minus_IZR in A. apply lt_IZR in A. lia. }
    destruct R; cbn; intros H; auto.
    - destruct H as [A B]. destruct (Rle_dec 0 (IZR z)); [apply Fl, A; lra|apply Ce, B; lra].
    - destruct H as [A _]. rewrite <- minus_IZR, <- abs_IZR in A.
      assert (Z.abs (n - z) < 1); [apply lt_IZR; lra|lia].
    - destruct H as (A & B & C).
      destruct (Rtotal_order (IZR z) 0) as [L|[L|L]].
      + destruct (C L) as (k & K & ->). apply Ce in K as ->.
        apply (lt_IZR z 0) in L. lia.
      + apply (eq_IZR z 0) in L. subst z. now apply A.
      + destruct (B L) as (k & K & ->). apply Fl in K as ->.
        apply (lt_IZR 0 z) in L. lia.
  Qed.
End Conv.

(** ** Bounds over any number of steps *)
Lemma float_accumulate prec emax S lo hi bnd :
  (forall (s : step S) v, unordered s -> is_nan (lo v) = false -> is_nan (hi v) = false ->
    exists w, run_step v s = Done w /\ is_nan (lo w) = false /\ is_nan (hi w) = false /\
      ext (lo w) = most (ext (lo v)) (low_given lo bnd s) /\
      ext (hi w) = least (ext (hi v)) (high_given hi bnd s)) ->
  float_bounds_accumulate prec emax S lo hi bnd.
Proof.
  intros St l. induction l as [|s l IH]; intros v Hu Hl Hh.
  - exists v. now repeat split.
  - inversion Hu as [|? ? Hs Hu']; subst.
    destruct (St s v Hs Hl Hh) as (w & E & Wl & Wh & El & Eh).
    destruct (IH w Hu' Wl Wh) as (v' & E' & A & B & C & D).
    exists v'. unfold run. cbn [ofold]. rewrite E. cbn [obind]. split; [exact E'|].
    split; [easy|]. split; [easy|].
    cbn [flat_map]. unfold most, least in *. rewrite !fold_left_app. rewrite <- El, <- Eh. easy.
Qed.

(** ** Fractions *)
From Coq Require Import QArith Qminmax.
From Verif Require Import M_Ratio S_Ratio L_Outcome.
Local Open Scope Z_scope.

Lemma frac_ltb x y : 0 < denom x -> 0 < denom y -> r_ltb x y = true <-> (toQ x < toQ y)%Q.
Proof.
  destruct x as [n d], y as [n' d']. intros A C. unfold r_ltb, r_cmp, toQ, Qlt. cbn in *.
  rewrite !Z2Pos.id by easy. destruct (Z.compare_spec (n * d') (n' * d)); split; intros; try easy; lia.
Qed.

Lemma frac_ltb_false x y : 0 < denom x -> 0 < denom y -> r_ltb x y = false -> (toQ y <= toQ x)%Q.
Proof. intros A C E. apply Qnot_lt_le. intros L. apply frac_ltb in L; auto. congruence. Qed.

Lemma frac_max x y : 0 < denom x -> 0 < denom y ->
  0 < denom (r_max x y) /\ toQ (r_max x y) == Qmax (toQ x) (toQ y).
Proof.
  intros A B. unfold r_max. destruct (r_ltb y x) eqn:E; (split; [easy|]); symmetry.
  - apply Q.max_l. apply frac_ltb in E; auto. now apply Qlt_le_weak.
  - apply Q.max_r. now apply frac_ltb_false.
Qed.
Lemma frac_min x y : 0 < denom x -> 0 < denom y ->
  0 < denom (r_min x y) /\ toQ (r_min x y) == Qmin (toQ x) (toQ y).
Proof.
  intros A B. unfold r_min. destruct (r_ltb y x) eqn:E; (split; [easy|]); symmetry.
  - apply Q.min_r. apply frac_ltb in E; auto. now apply Qlt_le_weak.
  - apply Q.min_l. now apply frac_ltb_false.
Qed.

Lemma fold_Qmax_proper l : forall a b, a == b ->
  fold_left (fun m r => Qmax m (toQ r)) l a == fold_left (fun m r => Qmax m (toQ r)) l b.
Proof.
  induction l as [|x l IH]; intros a b E; [easy|]. cbn. apply IH. now rewrite E.
Qed.
Lemma fold_Qmin_proper l : forall a b, a == b ->
  fold_left (fun m r => Qmin m (toQ r)) l a == fold_left (fun m r => Qmin m (toQ r)) l b.
Proof.
  induction l as [|x l IH]; intros a b E; [easy|]. cbn. apply IH. now rewrite E.
Qed.

Lemma frac_accumulate S lo hi bnd :
  (forall (s : step S) v u, unordered s -> 0 < denom (lo v) -> 0 < denom (hi v) ->
    Forall (fun r => 0 < denom r) (low_given lo bnd s) ->
    Forall (fun r => 0 < denom r) (high_given hi bnd s) ->
    run_step v s = Done u ->
    (0 < denom (lo u) /\ toQ (lo u) == fold_left (fun m r => Qmax m (toQ r)) (low_given lo bnd s) (toQ (lo v))) /\
    (0 < denom (hi u) /\ toQ (hi u) == fold_left (fun m r => Qmin m (toQ r)) (high_given hi bnd s) (toQ (hi v)))) ->
  frac_bounds_accumulate S lo hi bnd.
Proof.
  intros St l. induction l as [|s l IH]; intros v v' Hu Hl Hh Gl Gh E.
  - unfold run in E. cbn in E. injection E as <-. now split.
  - inversion Hu as [|? ? Hs Hu']; subst. cbn [flat_map] in *.
    apply Forall_app in Gl as [Gl1 Gl2]. apply Forall_app in Gh as [Gh1 Gh2].
    unfold run in E. cbn [ofold] in E. apply obind_inv in E. destruct E as (u & Eu & E).
    destruct (St s v u Hs Hl Hh Gl1 Gh1 Eu) as ((A & B) & (C & D)).
    destruct (IH u v' Hu' A C Gl2 Gh2 E) as [X Y].
    rewrite !fold_left_app. split.
    + rewrite X. now apply fold_Qmax_proper.
    + rewrite Y. now apply fold_Qmin_proper.
Qed.
