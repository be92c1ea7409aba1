(** Floats: addition and multiplication keep the order. *)
From Coq Require Import ZArith Reals List Bool Lia Lra.
From Flocq Require Import Core BinarySingleNaN.
From Verif Require Import M_Outcome M_Ints M_Float M_Value M_Types S_Types S_Float S_Totals S_Monotone
  L_Outcome L_Ints L_Float L_FloatTotals L_Monotone.
Import ListNotations.
Local Open Scope Z_scope.

Section Order.
  Variables prec emax : Z.
  Context (Hp : Prec_gt_0 prec) (He : Prec_lt_emax prec emax).
  Notation bf := (binary_float prec emax).
  Notation near := (nearest prec emax).
  Notation M := (bpow radix2 emax).
  Local Open Scope R_scope.
  Instance near_valid : Valid_exp (FLT_exp (3 - emax - prec) prec).
  Proof. apply FLT_exp_valid. exact Hp. Qed.

  Lemma M_pos : 0 < M. Proof. apply bpow_gt_0. Qed.
  Lemma ext_strict (x : bf) : is_finite x = true -> - M < ext x < M.
  Proof. intros Fx. rewrite ext_finite by exact Fx. apply Rabs_lt_inv, abs_B2R_lt_emax. Qed.
  Lemma leb_ext (x y : bf) : is_nan x = false -> is_nan y = false -> Bleb x y = true <-> ext x <= ext y.
  Proof.
    intros Nx Ny. pose proof (ltb_ext prec emax y x Ny Nx) as E.
    assert (Bltb y x = negb (Bleb x y)) as E2.
    { change (Bltb y x) with (match Bcompare y x with Some Lt => true | _ => false end).
      change (Bleb x y) with (match Bcompare x y with Some (Lt | Eq) => true | _ => false end).
      rewrite (Bcompare_swap _ _ x y). destruct (Bcompare x y) as [[]|] eqn:C; try reflexivity.
      exfalso. destruct x, y; discriminate. }
    rewrite E2 in E. destruct (Bleb x y); cbn in E; split; try easy; intros G.
    - destruct (Rlt_bool_spec (ext y) (ext x)); [discriminate|lra].
    - exfalso. destruct (Rlt_bool_spec (ext y) (ext x)); [lra|discriminate].
  Qed.
  Lemma leb_inv (x y : bf) : Bleb x y = true -> is_nan x = false /\ is_nan y = false /\ ext x <= ext y.
  Proof.
    intros H. assert (is_nan x = false) by (destruct x; [reflexivity..|discriminate|reflexivity]).
    assert (is_nan y = false) by (destruct x, y; try reflexivity; discriminate).
    repeat split; try assumption. apply leb_ext; assumption.
  Qed.
  Lemma eqb_inv (x y : bf) : Beqb x y = true -> is_nan x = false /\ is_nan y = false /\ ext x = ext y.
  Proof.
    intros H.
    assert (A : Bleb x y = true /\ Bleb y x = true).
    { change (Beqb x y) with (match Bcompare x y with Some Eq => true | _ => false end) in H.
      change (Bleb x y) with (match Bcompare x y with Some (Lt | Eq) => true | _ => false end).
      change (Bleb y x) with (match Bcompare y x with Some (Lt | Eq) => true | _ => false end).
      rewrite (Bcompare_swap _ _ x y). destruct (Bcompare x y) as [[]|]; try discriminate. split; reflexivity. }
    destruct A as [A B]. apply leb_inv in A, B. repeat split; try tauto. lra.
  Qed.
  Lemma ext_zero s : ext (B754_zero s : bf) = 0. Proof. reflexivity. Qed.
  Lemma ext_top : ext (B754_infinity false : bf) = M. Proof. reflexivity. Qed.
  Lemma ext_bot : ext (B754_infinity true : bf) = - M. Proof. reflexivity. Qed.
  Lemma ext_one : ext (b_one prec emax Hp He) = 1.
  Proof. rewrite ext_finite by apply one_fin. apply one_R. Qed.

  (** Numbers that do not fit become infinities. *)
  Definition cap (r : R) : R := Rmax (- M) (Rmin M r).
  Lemma cap_le r r' : r <= r' -> cap r <= cap r'.
  Proof. intros. unfold cap, Rmax, Rmin. repeat destruct Rle_dec; lra. Qed.
  Lemma cap_id r : ~ too_large emax r -> cap r = r.
  Proof. unfold too_large, cap. intros H. assert (- M < r < M) by (apply Rabs_lt_inv; lra). unfold Rmax, Rmin. repeat destruct Rle_dec; lra. Qed.
  Lemma cap_pos r : too_large emax r -> 0 <= r -> cap r = M.
  Proof. unfold too_large, cap. intros H P. rewrite Rabs_pos_eq in H by exact P. pose proof M_pos. unfold Rmax, Rmin. repeat destruct Rle_dec; lra. Qed.
  Lemma cap_neg r : too_large emax r -> r <= 0 -> cap r = - M.
  Proof. unfold too_large, cap. intros H P. rewrite Rabs_left1 in H by exact P. pose proof M_pos. unfold Rmax, Rmin. repeat destruct Rle_dec; lra. Qed.
  Lemma near_le r r' : r <= r' -> near r <= near r'.
  Proof. intros. unfold nearest. apply round_le; auto with typeclass_instances. Qed.
  Lemma near_0 : near 0 = 0.
  Proof. unfold nearest. apply round_0; auto with typeclass_instances. Qed.
  Lemma near_ge0 r : 0 <= r -> 0 <= near r.
  Proof. intros. rewrite <- near_0. apply near_le. assumption. Qed.
  Lemma near_le0 r : r <= 0 -> near r <= 0.
  Proof. intros. rewrite <- near_0. apply near_le. assumption. Qed.

  Lemma sign_of (x : bf) : is_finite x = true -> if Bsign x then B2R x <= 0 else 0 <= B2R x.
  Proof.
    destruct x as [s| | |s m e B]; try discriminate; intros _; cbn.
    - destruct s; lra.
    - destruct s; cbn; [apply F2R_le_0|apply F2R_ge_0]; cbn; lia.
  Qed.

  (** Sums. *)
  Lemma plus_fin (x y : bf) : is_finite x = true -> is_finite y = true ->
    ext (Bplus mode_NE x y) = cap (near (B2R x + B2R y)).
  Proof.
    intros Fx Fy. pose proof (Bplus_correct prec emax _ _ mode_NE x y Fx Fy) as N.
    change (SpecFloat.fexp prec emax) with (FLT_exp (3 - emax - prec) prec) in N.
    cbn [round_mode] in N. fold (near (B2R x + B2R y)) in N.
    destruct (Rlt_bool_spec (Rabs (near (B2R x + B2R y))) M) as [L|L].
    - destruct N as (A & B & _). rewrite ext_finite by exact B. rewrite A. symmetry. apply cap_id. unfold too_large. lra.
    - destruct N as [A B]. apply SF_infinity in A. rewrite A.
      pose proof (sign_of x Fx) as Sx. pose proof (sign_of y Fy) as Sy. rewrite <- B in Sy.
      destruct (Bsign x); cbn [ext]; symmetry.
      + apply cap_neg; [exact L|]. apply near_le0. lra.
      + apply cap_pos; [exact L|]. apply near_ge0. lra.
  Qed.
  Lemma plus_nan (x y : bf) : is_nan (Bplus mode_NE x y) = false -> is_nan x = false /\ is_nan y = false.
  Proof. destruct x as [| | |], y as [| | |]; try (split; reflexivity); cbn; discriminate. Qed.
  Lemma inf_plus s (y : bf) : is_nan (Bplus mode_NE (B754_infinity s) y) = false -> Bplus mode_NE (B754_infinity s) y = B754_infinity s.
  Proof. destruct y as [|s'| |]; try reflexivity; try discriminate. destruct s, s'; cbn; intros; try discriminate; reflexivity. Qed.
  Lemma plus_inf s (x : bf) : is_nan (Bplus mode_NE x (B754_infinity s)) = false -> Bplus mode_NE x (B754_infinity s) = B754_infinity s.
  Proof. destruct x as [|s'| |]; try reflexivity; try discriminate. destruct s, s'; cbn; intros; try discriminate; reflexivity. Qed.
  Lemma split_fin (x : bf) : is_nan x = false -> is_finite x = true \/ x = B754_infinity true \/ x = B754_infinity false.
  Proof. destruct x as [|[]| |]; try discriminate; auto. Qed.
  Lemma top_only (x : bf) : is_nan x = false -> M <= ext x -> x = B754_infinity false.
  Proof.
    intros N H. pose proof M_pos. destruct (split_fin x N) as [Fx|[->| ->]]; [|cbn in H; lra|reflexivity].
    pose proof (ext_strict x Fx). lra.
  Qed.
  Lemma bottom_only (x : bf) : is_nan x = false -> ext x <= - M -> x = B754_infinity true.
  Proof.
    intros N H. pose proof M_pos. destruct (split_fin x N) as [Fx|[->| ->]]; [|reflexivity|cbn in H; lra].
    pose proof (ext_strict x Fx). lra.
  Qed.

  Lemma plus_le (x y x' y' : bf) : is_nan (Bplus mode_NE x y) = false -> is_nan (Bplus mode_NE x' y') = false ->
    ext x <= ext x' -> ext y <= ext y' -> ext (Bplus mode_NE x y) <= ext (Bplus mode_NE x' y').
  Proof.
    intros N N' Lx Ly. destruct (plus_nan _ _ N) as [Nx Ny], (plus_nan _ _ N') as [Nx' Ny'].
    pose proof (ext_bounds prec emax (Bplus mode_NE x y)) as Bz. pose proof (ext_bounds prec emax (Bplus mode_NE x' y')) as Bz'.
    destruct (split_fin x Nx) as [Fx|[->| ->]].
    2: { rewrite (inf_plus _ _ N). rewrite ?ext_top, ?ext_bot. lra. }
    2: { cbn in Lx. pose proof (top_only x' Nx' Lx) as ->. rewrite (inf_plus _ _ N'). rewrite ?ext_top, ?ext_bot. lra. }
    destruct (split_fin y Ny) as [Fy|[->| ->]].
    2: { rewrite (plus_inf _ _ N). rewrite ?ext_top, ?ext_bot. lra. }
    2: { cbn in Ly. pose proof (top_only y' Ny' Ly) as ->. rewrite (plus_inf _ _ N'). rewrite ?ext_top, ?ext_bot. lra. }
    destruct (split_fin x' Nx') as [Fx'|[->| ->]].
    2: { pose proof (ext_strict x Fx). cbn in Lx. lra. }
    2: { rewrite (inf_plus _ _ N'). rewrite ?ext_top, ?ext_bot. lra. }
    destruct (split_fin y' Ny') as [Fy'|[->| ->]].
    2: { pose proof (ext_strict y Fy). cbn in Ly. lra. }
    2: { rewrite (plus_inf _ _ N'). rewrite ?ext_top, ?ext_bot. lra. }
    rewrite !plus_fin by assumption. apply cap_le, near_le. rewrite !ext_finite in Lx, Ly by assumption. lra.
  Qed.

  (** Products. *)
  Lemma mult_fin (x y : bf) : is_finite x = true -> is_finite y = true ->
    ext (Bmult mode_NE x y) = cap (near (B2R x * B2R y)).
  Proof.
    intros Fx Fy. destruct (mult_spec prec emax Hp He x y Fx Fy) as [A B].
    destruct (too_large_dec emax (near (B2R x * B2R y))) as [L|L].
    - rewrite (B L). pose proof (sign_of x Fx) as Sx. pose proof (sign_of y Fy) as Sy.
      destruct (Bsign x), (Bsign y); cbn [xorb ext]; symmetry.
      + apply cap_pos; [exact L|]. apply near_ge0. nra.
      + apply cap_neg; [exact L|]. apply near_le0. nra.
      + apply cap_neg; [exact L|]. apply near_le0. nra.
      + apply cap_pos; [exact L|]. apply near_ge0. nra.
    - destruct (A L) as [Fz E]. rewrite ext_finite by exact Fz. rewrite E. symmetry. apply cap_id. exact L.
  Qed.
  Lemma mult_nan (x y : bf) : is_nan (Bmult mode_NE x y) = false -> is_nan x = false /\ is_nan y = false.
  Proof. destruct x as [| | |], y as [| | |]; try (split; reflexivity); cbn; discriminate. Qed.
  Lemma strict_sign (x : bf) s m e B : x = B754_finite s m e B -> if s then ext x < 0 else 0 < ext x.
  Proof. intros ->. destruct s; cbn; [apply F2R_lt_0|apply F2R_gt_0]; cbn; lia. Qed.
  Lemma inf_mult s (y : bf) : is_nan (Bmult mode_NE (B754_infinity s) y) = false -> 0 <= ext y ->
    Bmult mode_NE (B754_infinity s) y = B754_infinity s /\ 0 < ext y.
  Proof.
    pose proof M_pos. destruct y as [|[]| |s' m e B]; cbn; try discriminate; intros _ P.
    - lra.
    - rewrite xorb_false_r. split; [reflexivity|lra].
    - pose proof (strict_sign (B754_finite s' m e B) s' m e B eq_refl) as Q. cbn in Q. destruct s'; [lra|].
      rewrite xorb_false_r. split; [reflexivity|exact Q].
  Qed.
  Lemma mult_inf (x : bf) : is_nan (Bmult mode_NE x (B754_infinity false)) = false ->
    0 < ext x /\ Bmult mode_NE x (B754_infinity false) = B754_infinity false \/
    ext x < 0 /\ Bmult mode_NE x (B754_infinity false) = B754_infinity true.
  Proof.
    pose proof M_pos. destruct x as [|[]| |s' m e B]; cbn; try discriminate; intros _.
    - right. split; [lra|reflexivity].
    - left. split; [lra|reflexivity].
    - pose proof (strict_sign (B754_finite s' m e B) s' m e B eq_refl) as Q. cbn in Q.
      destruct s'; [right|left]; (split; [exact Q|reflexivity]).
  Qed.

  Lemma mult_le (x y x' y' : bf) : is_nan (Bmult mode_NE x y) = false -> is_nan (Bmult mode_NE x' y') = false ->
    ext x <= ext x' -> 0 <= ext y -> ext y <= ext y' -> 0 <= ext x \/ ext y = ext y' ->
    ext (Bmult mode_NE x y) <= ext (Bmult mode_NE x' y').
  Proof.
    intros N N' Lx Py Ly C. destruct (mult_nan _ _ N) as [Nx Ny], (mult_nan _ _ N') as [Nx' Ny'].
    pose proof (ext_bounds prec emax (Bmult mode_NE x y)) as Bz. pose proof (ext_bounds prec emax (Bmult mode_NE x' y')) as Bz'.
    pose proof M_pos as PM.
    destruct (split_fin x Nx) as [Fx|[->| ->]].
    2: { destruct (inf_mult _ _ N Py) as [-> _]. rewrite ?ext_top, ?ext_bot. lra. }
    2: { cbn in Lx. pose proof (top_only x' Nx' Lx) as ->. destruct (inf_mult _ _ N' ltac:(lra)) as [-> _]. rewrite ?ext_top, ?ext_bot. lra. }
    destruct (split_fin y Ny) as [Fy|[->| ->]].
    2: { cbn in Py. lra. }
    2: { cbn in Ly. pose proof (top_only y' Ny' Ly) as ->.
         destruct (mult_inf _ N) as [[P ->]|[P ->]]; [|rewrite ?ext_top, ?ext_bot; lra]. destruct (mult_inf _ N') as [[P' ->]|[P' ->]]; rewrite ?ext_top, ?ext_bot; lra. }
    destruct (split_fin x' Nx') as [Fx'|[->| ->]].
    2: { pose proof (ext_strict x Fx). cbn in Lx. lra. }
    2: { destruct (inf_mult _ _ N' ltac:(lra)) as [-> _]. rewrite ?ext_top, ?ext_bot. lra. }
    destruct (split_fin y' Ny') as [Fy'|[->| ->]].
    2: { pose proof (ext_strict y Fy). cbn in Ly. lra. }
    2: { destruct C as [C|C]; [|pose proof (ext_strict y Fy) as Q; cbn in C; lra].
         destruct (mult_inf _ N') as [[P' ->]|[P' _]]; [rewrite ?ext_top, ?ext_bot; lra|lra]. }
    rewrite !mult_fin by assumption. apply cap_le, near_le. rewrite !ext_finite in * by assumption. destruct C; nra.
  Qed.
  Lemma mult_ge0 (x y : bf) : is_nan (Bmult mode_NE x y) = false -> 0 <= ext x -> 0 <= ext y -> 0 <= ext (Bmult mode_NE x y).
  Proof.
    intros N Px Py. destruct (mult_nan _ _ N) as [Nx Ny]. pose proof M_pos.
    destruct (split_fin x Nx) as [Fx|[->| ->]]; [|cbn in Px; lra|destruct (inf_mult _ _ N Py) as [-> _]; rewrite ?ext_top, ?ext_bot; lra].
    destruct (split_fin y Ny) as [Fy|[->| ->]]; [|cbn in Py; lra|destruct (mult_inf _ N) as [[P ->]|[P ->]]; rewrite ?ext_top, ?ext_bot; lra].
    rewrite mult_fin by assumption. rewrite !ext_finite in * by assumption.
    assert (Q : 0 <= near (B2R x * B2R y)) by (apply near_ge0; nra). unfold cap, Rmax, Rmin. repeat destruct Rle_dec; lra.
  Qed.
  (** Neutral operands. *)
  Lemma mult_one_any (x : bf) : is_nan x = false -> Bmult mode_NE x (b_one prec emax Hp He) = x.
  Proof.
    intros N. destruct (split_fin x N) as [Fx|[->| ->]]; [apply mult_one; exact Fx|..];
    pose proof ext_one as E; pose proof (one_fin prec emax Hp He) as O; destruct (b_one prec emax Hp He) as [| | |s m e B] eqn:Eq; try discriminate;
      try (cbn in E; lra); pose proof (strict_sign _ _ _ _ _ eq_refl : if s then ext (B754_finite s m e B) < 0 else _) as Q;
      destruct s; try lra; reflexivity.
  Qed.
  Lemma plus_zero_any (x : bf) : is_nan x = false ->
    is_nan (Bplus mode_NE x (B754_zero false)) = false /\ ext (Bplus mode_NE x (B754_zero false)) = ext x.
  Proof.
    intros N. destruct (split_fin x N) as [Fx|[->| ->]]; [|split; reflexivity..].
    destruct (plus_spec prec emax Hp He x (B754_zero false) Fx eq_refl) as [Fz E].
    { cbn [B2R]. rewrite Rplus_0_r, near_id by assumption. pose proof (abs_B2R_lt_emax prec emax x). unfold too_large. lra. }
    split; [apply fin_not_nan; exact Fz|]. rewrite !ext_finite by assumption. rewrite E. cbn [B2R]. rewrite Rplus_0_r. apply near_id.
  Qed.
End Order.
