(** Proofs about the default of float stats. *)
From Coq Require Import ZArith Reals Lia Lra List Bool.
From Flocq Require Import Core BinarySingleNaN.
From Verif Require Import M_Outcome M_Ints M_Ratio M_Float M_Value M_Types S_Ratio S_Types S_Float S_Neutral
  L_Outcome L_Ints L_Ratio L_Types2 L_Float L_FloatProofs.
Import ListNotations.
Local Open Scope Z_scope.

Section Neutral.
  Variables prec emax : Z.
  Context (Hp : Prec_gt_0 prec) (He : Prec_lt_emax prec emax).
  Let bf := binary_float prec emax.
  Let F := binF prec emax Hp He.
  Notation one := (b_one prec emax Hp He).
  Notation hiv := (b_maxv prec emax Hp He).
  Notation lov := (b_minv prec emax Hp He).
  Notation bmax := (b_max prec emax).
  Notation bmin := (b_min prec emax).

  Lemma one_positive : exists m e H, one = B754_finite false m e H.
  Proof.
    pose proof (one_R prec emax Hp He) as O. pose proof (one_fin prec emax Hp He) as Fi.
    pose proof (Bsign_Bone prec emax Hp He) as Sg. change (Bone (prec:=prec) (emax:=emax)) with one in Sg.
    destruct one as [s|s| |s m e H]; try easy; cbn in O, Sg; [lra|]. subst s. now exists m, e, H.
  Qed.
  Lemma times_one (x : bf) : Bmult mode_NE x one = x.
  Proof.
    destruct (is_finite x) eqn:E; [now apply mult_one|].
    destruct one_positive as (m & e & H & ->). destruct x as [|[]| |]; try congruence; easy.
  Qed.
  Lemma one_times (x : bf) : Bmult mode_NE one x = x.
  Proof.
    destruct (is_finite x) eqn:Fx.
    - pose proof (Bmult_correct prec emax _ _ mode_NE one x) as M.
      rewrite (one_R prec emax Hp He), Rmult_1_l in M.
      rewrite round_generic in M by (auto with typeclass_instances; apply generic_format_B2R).
      rewrite Rlt_bool_true in M by apply abs_B2R_lt_emax.
      destruct M as (A & B & C). rewrite (one_fin prec emax Hp He), Fx in B.
      apply B2R_Bsign_inj; try easy.
      rewrite C by now apply fin_not_nan. unfold b_one. rewrite Bsign_Bone. apply xorb_false_l.
    - destruct one_positive as (m & e & H & ->). destruct x as [|[]| |]; try congruence; easy.
  Qed.
  Lemma plus_zero (x : bf) : Bplus mode_NE x (B754_zero false) = x <-> unsigned_zero x.
  Proof. unfold unsigned_zero. destruct x as [[]|[]| |]; cbn; split; try easy; congruence. Qed.
  Lemma zero_plus (x : bf) : Bplus mode_NE (B754_zero false) x = x <-> unsigned_zero x.
  Proof. unfold unsigned_zero. destruct x as [[]|[]| |]; cbn; split; try easy; congruence. Qed.

  Lemma finite_ge (x : bf) : is_finite x = true -> Bltb x lov = false.
  Proof.
    intros Fx. rewrite Bltb_correct by (easy || apply min_fin).
    apply Rlt_bool_false. now apply (finite_le_max prec emax Hp He x).
  Qed.
  Lemma finite_le (x : bf) : is_finite x = true -> Bltb hiv x = false.
  Proof.
    intros Fx. rewrite Bltb_correct by (easy || apply max_fin).
    apply Rlt_bool_false. now apply (finite_le_max prec emax Hp He x).
  Qed.

  (** The lower bound of the default, on either side. *)
  Lemma max_low_r (x : bf) : bmax x lov = x <-> lower_counts x.
  Proof.
    unfold lower_counts. split.
    - intros E. split; intros ->; easy.
    - intros [N I]. destruct (is_finite x) eqn:Fx.
      + unfold b_max. rewrite fin_not_nan by easy. cbn [is_nan lov]. now rewrite finite_ge.
      + destruct x as [|[]| |]; try congruence; easy.
  Qed.
  Lemma max_low_l (x : bf) : bmax lov x = x <-> lower_counts x.
  Proof.
    unfold lower_counts. split.
    - intros E. split; intros ->; easy.
    - intros [N I]. destruct (is_finite x) eqn:Fx.
      + unfold b_max. change (is_nan lov) with false. rewrite fin_not_nan by easy. cbn [negb].
        destruct (Bltb lov x) eqn:L; [easy|].
        pose proof (finite_le_max prec emax Hp He x Fx) as [A _].
        rewrite Bltb_correct in L by (easy || apply min_fin).
        assert (B2R lov = B2R x) as E.
        { revert L. case Rlt_bool_spec; intros H; [easy|]. intros _. lra. }
        apply B2R_Bsign_inj; try easy.
        assert (Lneg : (B2R lov < 0)%R).
        { unfold b_minv. rewrite B2R_Bopp, max_R.
          pose proof (bpow_lt radix2 (emax - prec) emax). unfold Prec_gt_0 in Hp. 
          specialize (H ltac:(lia)). lra. }
        change (Bsign lov) with true. symmetry.
        destruct x as [s|s| |[] m e Hx]; try easy; cbn [B2R] in E.
        { lra. }
        exfalso. rewrite E in Lneg.
        assert (0 < F2R (Float radix2 (SpecFloat.cond_Zopp false (Zpos m)) e))%R by (apply F2R_gt_0; cbn; lia).
        cbn [B2R] in Lneg. lra.
      + destruct x as [|[]| |]; try congruence; easy.
  Qed.
  Lemma min_high_r (x : bf) : bmin x hiv = x <-> upper_counts x.
  Proof.
    unfold upper_counts. split.
    - intros E. split; intros ->; easy.
    - intros [N I]. destruct (is_finite x) eqn:Fx.
      + unfold b_min. rewrite fin_not_nan by easy. cbn [is_nan hiv]. now rewrite finite_le.
      + destruct x as [|[]| |]; try congruence; easy.
  Qed.
  Lemma min_high_l (x : bf) : bmin hiv x = x <-> upper_counts x.
  Proof.
    unfold upper_counts. split.
    - intros E. split; intros ->; easy.
    - intros [N I]. destruct (is_finite x) eqn:Fx.
      + unfold b_min. change (is_nan hiv) with false. rewrite fin_not_nan by easy.
        destruct (Bltb x hiv) eqn:L; [easy|].
        pose proof (finite_le_max prec emax Hp He x Fx) as [_ A].
        rewrite Bltb_correct in L by (easy || apply max_fin).
        assert (B2R hiv = B2R x) as E.
        { revert L. case Rlt_bool_spec; intros H; [easy|]. intros _. lra. }
        apply B2R_Bsign_inj; try easy.
        assert (Lpos : (0 < B2R hiv)%R).
        { rewrite max_R. pose proof (bpow_lt radix2 (emax - prec) emax). unfold Prec_gt_0 in Hp.
          specialize (H ltac:(lia)). lra. }
        change (Bsign hiv) with false. symmetry.
        destruct x as [s|s| |[] m e Hx]; try easy; cbn [B2R] in E.
        { lra. }
        exfalso. rewrite E in Lpos.
        assert (F2R (Float radix2 (SpecFloat.cond_Zopp true (Zpos m)) e) < 0)%R by (apply F2R_lt_0; cbn; lia).
        cbn [B2R] in Lpos. lra.
      + destruct x as [|[]| |]; try congruence; easy.
  Qed.

  (** A bound given to the default counts as given directly. *)
  Lemma max_through (l x : bf) : lower_counts l -> bmax l (bmax lov x) = bmax l x.
  Proof.
    intros Hl. destruct (is_nan x) eqn:Nx.
    { destruct x; try easy. change (bmax lov B754_nan) with lov. rewrite (proj2 (max_low_r l) Hl).
      now destruct l. }
    destruct x as [|[]| |] eqn:Ex; try easy;
      try (rewrite (proj2 (max_low_l _)) by (split; easy); reflexivity).
    change (bmax lov (B754_infinity true)) with lov. rewrite (proj2 (max_low_r l) Hl).
    destruct Hl. destruct l as [|[]| |[]]; try congruence; easy.
  Qed.
  Lemma min_through (l x : bf) : upper_counts l -> bmin l (bmin hiv x) = bmin l x.
  Proof.
    intros Hl. destruct (is_nan x) eqn:Nx.
    { destruct x; try easy. change (bmin hiv B754_nan) with hiv. rewrite (proj2 (min_high_r l) Hl).
      now destruct l. }
    destruct x as [|[]| |] eqn:Ex; try easy;
      try (rewrite (proj2 (min_high_l _)) by (split; easy); reflexivity).
    change (bmin hiv (B754_infinity false)) with hiv. rewrite (proj2 (min_high_r l) Hl).
    destruct Hl. destruct l as [|[]| |[]]; try congruence; easy.
  Qed.
  (** Zero plus a number, added, is the number added. *)
  Lemma plus_through (a x : bf) : unsigned_zero a -> Bplus mode_NE a (Bplus mode_NE (B754_zero false) x) = Bplus mode_NE a x.
  Proof.
    intros Ha. destruct x as [[]|[]| |]; try reflexivity.
    change (Bplus mode_NE (B754_zero false) (B754_zero true)) with (@B754_zero prec emax false).
    destruct a as [[]|[]| |]; try reflexivity. now destruct Ha.
  Qed.

  Lemma quad_eq {A M} (a a' l l' h h' : A) (m m' : M) : Done (Quad a l h m) = Done (Quad a' l' h' m') <-> a = a' /\ l = l' /\ h = h' /\ m = m'.
  Proof. split; [intros [=]; auto|intros (-> & -> & -> & ->); reflexivity]. Qed.

  Lemma C12_StatFloat_proof :
    let S := statFloat F in
    (forall v, (sv_join S v (sv_default S) = Done v <-> settled_float v) /\
               (sv_join S (sv_default S) v = Done v <-> settled_float v)) /\
    splittable S settled_float (fun _ => True).
  Proof.
    intros S. split.
    - intros [a l h m]. cbn -[Bplus Bmult b_max b_min b_one b_maxv b_minv]. rewrite !quad_eq. unfold settled_float. cbn [addend vmin vmax mult].
      rewrite plus_zero, zero_plus, max_low_r, max_low_l, min_high_r, min_high_l, times_one, one_times. tauto.
    - intros [a l h m] o (Ha & Hl & Hh) _ Ho. cbn in Ha, Hl, Hh.
      destruct o as [x|x|x|x|x|x|x]; try destruct x; try easy; unfold into_stat; cbn -[Bplus Bmult b_max b_min b_one b_maxv b_minv]; apply quad_eq;
        rewrite ?(proj2 (plus_zero a) Ha), ?(proj2 (max_low_r l) Hl), ?(proj2 (min_high_r h) Hh), ?times_one, ?one_times,
          ?max_through, ?min_through, ?plus_through by assumption; auto.
  Qed.
  Lemma C12_StatFloatAdditive_proof :
    let S := statFloatAdditive F in
    (forall v, (sv_join S v (sv_default S) = Done v <-> settled_additive v) /\
               (sv_join S (sv_default S) v = Done v <-> settled_additive v)) /\
    splittable S settled_additive (fun _ => True).
  Proof.
    intros S. split.
    - intros [a l h m]. cbn -[Bplus Bmult b_max b_min b_one b_maxv b_minv]. rewrite !quad_eq. unfold settled_additive, settled_float. cbn [addend vmin vmax mult].
      rewrite !plus_zero, !zero_plus, max_low_r, max_low_l, min_high_r, min_high_l. tauto.
    - intros [a l h m] o [(Ha & Hl & Hh) Hm] _ Ho. cbn in Ha, Hl, Hh, Hm.
      destruct o as [x|x|x|x|x|x|x]; try destruct x; try easy; unfold into_stat; cbn -[Bplus Bmult b_max b_min b_one b_maxv b_minv]; apply quad_eq;
        rewrite ?(proj2 (plus_zero a) Ha), ?(proj2 (plus_zero m) Hm), ?(proj2 (max_low_r l) Hl), ?(proj2 (min_high_r h) Hh),
          ?max_through, ?min_through, ?plus_through by assumption; auto.
  Qed.
  Lemma C12_StatMult_proof :
    let S := statMult F in
    (forall v, (sv_join S v (sv_default S) = Done v <-> settled_mult v) /\
               (sv_join S (sv_default S) v = Done v <-> settled_mult v)) /\
    splittable S settled_mult (fun _ => True).
  Proof.
    intros S.
    assert (Q : forall l l' h h' m m' : bf, Done (@Tri F l h m) = Done (@Tri F l' h' m') <-> l = l' /\ h = h' /\ m = m').
    { split; [intros [=]; auto|intros (-> & -> & ->); reflexivity]. }
    split.
    - intros [l h m]. cbn -[Bplus Bmult b_max b_min b_one b_maxv b_minv]. rewrite !Q. unfold settled_mult. cbn [t_min t_max t_mult].
      pose proof (max_low_r l) as A1. pose proof (max_low_l l) as A2. pose proof (min_high_r h) as A3. pose proof (min_high_l h) as A4.
      pose proof (times_one m) as A5. pose proof (one_times m) as A6. split; split.
      + intros (X & Y & _). split; [exact (proj1 A1 X)|exact (proj1 A3 Y)].
      + intros (X & Y). split; [exact (proj2 A1 X)|]. split; [exact (proj2 A3 Y)|exact A5].
      + intros (X & Y & _). split; [exact (proj1 A2 X)|exact (proj1 A4 Y)].
      + intros (X & Y). split; [exact (proj2 A2 X)|]. split; [exact (proj2 A4 Y)|exact A6].
    - intros [l h m] o [Hl Hh] _ Ho. cbn in Hl, Hh.
      destruct o as [x|x|x|x|x|x|x]; try destruct x; try easy; unfold into_stat; cbn -[Bplus Bmult b_max b_min b_one b_maxv b_minv]; apply Q;
        rewrite ?(proj2 (max_low_r l) Hl), ?(proj2 (min_high_r h) Hh), ?times_one, ?one_times,
          ?max_through, ?min_through by assumption; auto.
  Qed.
End Neutral.
