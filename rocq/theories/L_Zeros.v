(** Proofs: which zero [min] and [max] pick changes no result but the sign of a zero. *)
From Coq Require Import ZArith List Bool Lia Reals.
From Flocq Require Import Core BinarySingleNaN.
From Verif Require Import M_Outcome M_Ints M_Float M_Value M_Types S_Types S_Totals S_Zeros.
Import ListNotations.
Local Open Scope Z_scope.

Section Zeros.
  Variables prec emax : Z.
  Context (Hp : Prec_gt_0 prec) (He : Prec_lt_emax prec emax).
  Let bf := binary_float prec emax.
  Notation F := (binF prec emax Hp He).

  (** The same thing by cases. *)
  Inductive alike : bf -> bf -> Prop :=
  | alike_refl x : alike x x
  | alike_zero s s' : alike (B754_zero s) (B754_zero s').

  Lemma alike_same x y : alike x y <-> same x y.
  Proof.
    unfold same. split.
    - intros [z|s s'].
      + destruct z as [s|s| |s m e H]; [left; destruct s; reflexivity|left; destruct s; reflexivity|right; split; reflexivity|left].
        rewrite Beqb_correct by reflexivity. apply Req_bool_true. reflexivity.
      + left. destruct s, s'; reflexivity.
    - intros [E | [Hx Hy]].
      + destruct (is_finite x) eqn:Fx; destruct (is_finite y) eqn:Fy.
        * rewrite Beqb_correct in E by assumption.
          assert (B : B2R x = B2R y) by (revert E; case Req_bool_spec; [auto|discriminate]).
          destruct (is_finite_strict x) eqn:Sx; destruct (is_finite_strict y) eqn:Sy.
          { rewrite (B2R_inj _ _ x y Sx Sy B). constructor. }
          { assert (Zy : B2R y = 0%R) by (destruct y; cbn in *; congruence || reflexivity).
            rewrite Zy in B. destruct x; cbn in Sx; try discriminate. cbn in B.
            apply eq_0_F2R in B. destruct s; discriminate B. }
          { assert (Zx : B2R x = 0%R) by (destruct x; cbn in *; congruence || reflexivity).
            rewrite Zx in B. destruct y; cbn in Sy; try discriminate. cbn in B. symmetry in B.
            apply eq_0_F2R in B. destruct s; discriminate B. }
          { destruct x; cbn in *; try discriminate; destruct y; cbn in *; try discriminate. constructor. }
        * destruct x; try discriminate Fx; destruct y as [|s'| |]; try discriminate Fy;
            repeat match goal with s : bool |- _ => destruct s end; discriminate E.
        * destruct y; try discriminate Fy; destruct x as [|s'| |]; try discriminate Fx;
            repeat match goal with s : bool |- _ => destruct s end; discriminate E.
        * destruct x as [|s| |]; try discriminate Fx; destruct y as [|s'| |]; try discriminate Fy;
            repeat match goal with s : bool |- _ => destruct s end; try discriminate E; constructor.
      + destruct x; try discriminate Hx; destruct y; try discriminate Hy. constructor.
  Qed.

  Lemma alike_sym x y : alike x y -> alike y x.
  Proof. intros []; constructor. Qed.
  Lemma alike_trans x y z : alike x y -> alike y z -> alike x z.
  Proof. intros []; [auto|]. intros H. inversion H; subst; constructor. Qed.
  Lemma alike_nan x y : alike x y -> is_nan x = is_nan y.
  Proof. intros []; reflexivity. Qed.

  Lemma alike_plus x x' y y' : alike x x' -> alike y y' -> alike (Bplus mode_NE x y) (Bplus mode_NE x' y').
  Proof.
    intros [a|s s'] [b|t t']; try constructor.
    - destruct a as [r|r| |r m e H]; try (constructor; fail).
      destruct r, t, t'; constructor.
    - destruct b as [r|r| |r m e H]; try (constructor; fail).
      destruct r, s, s'; constructor.
    - destruct s, s', t, t'; constructor.
  Qed.
  Lemma alike_mult x x' y y' : alike x x' -> alike y y' -> alike (Bmult mode_NE x y) (Bmult mode_NE x' y').
  Proof.
    intros [a|s s'] [b|t t']; try constructor.
    - destruct a as [r|r| |r m e H]; constructor.
    - destruct b as [r|r| |r m e H]; constructor.
  Qed.
  Lemma alike_ltb x x' y y' : alike x x' -> alike y y' -> Bltb x y = Bltb x' y'.
  Proof.
    intros [a|s s'] [b|t t']; try reflexivity.
  Qed.

  Lemma alike_bmin x x' y y' : alike x x' -> alike y y' -> alike (b_min prec emax x y) (b_min prec emax x' y').
  Proof.
    intros Hx Hy. unfold b_min. rewrite <- (alike_nan _ _ Hx), <- (alike_nan _ _ Hy), <- (alike_ltb _ _ _ _ Hy Hx).
    destruct (is_nan x); [exact Hy|]. destruct (is_nan y); [exact Hx|]. destruct (Bltb y x); assumption.
  Qed.
  Lemma alike_bmax x x' y y' : alike x x' -> alike y y' -> alike (b_max prec emax x y) (b_max prec emax x' y').
  Proof.
    intros Hx Hy. unfold b_max. rewrite <- (alike_nan _ _ Hx), <- (alike_nan _ _ Hy), <- (alike_ltb _ _ _ _ Hx Hy).
    destruct (is_nan x); [exact Hy|]. destruct (is_nan y); [exact Hx|]. destruct (Bltb x y); assumption.
  Qed.

  Lemma leb_cmp (x y : bf) : Bleb x y = match Bcompare x y with Some Lt | Some Eq => true | _ => false end.
  Proof. reflexivity. Qed.
  Lemma ltb_cmp (x y : bf) : Bltb x y = match Bcompare x y with Some Lt => true | _ => false end.
  Proof. reflexivity. Qed.
  Lemma eqb_cmp (x y : bf) : Beqb x y = match Bcompare x y with Some Eq => true | _ => false end.
  Proof. reflexivity. Qed.
  Lemma cmp_some (x y : bf) : is_nan x = false -> is_nan y = false -> exists c, Bcompare x y = Some c.
  Proof.
    intros Hx Hy. unfold Bcompare. destruct x as [|[]| |]; try discriminate Hx; destruct y as [|[]| |]; try discriminate Hy; eexists; cbn; reflexivity.
  Qed.

  Lemma leb_not_ltb (x y : bf) : Bleb x y = true -> Bltb y x = true -> False.
  Proof.
    rewrite leb_cmp, ltb_cmp, (Bcompare_swap _ _ x y). destruct (Bcompare x y) as [[]|]; cbn; discriminate.
  Qed.
  Lemma leb_same (x y : bf) : Bleb x y = true -> Bltb x y = false -> alike x y.
  Proof.
    intros A B. apply alike_same. left. rewrite leb_cmp in A. rewrite ltb_cmp in B. rewrite eqb_cmp.
    destruct (Bcompare x y) as [[]|]; auto; discriminate.
  Qed.

  Lemma picks_min C x y : alike (p_min C x y) (b_min prec emax x y).
  Proof.
    destruct (p_min_ok _ _ C x y) as (N1 & N2 & N3). unfold b_min.
    destruct (is_nan x) eqn:Ex; [rewrite N1 by reflexivity; constructor|].
    destruct (is_nan y) eqn:Ey; [rewrite N2 by reflexivity; constructor|].
    destruct (N3 eq_refl eq_refl) as ([E|E] & L1 & L2); rewrite E in *.
    - destruct (Bltb y x) eqn:L; [destruct (leb_not_ltb _ _ L2 L)|constructor].
    - destruct (Bltb y x) eqn:L; [constructor|]. apply leb_same; assumption.
  Qed.
  Lemma picks_max C x y : alike (p_max C x y) (b_max prec emax x y).
  Proof.
    destruct (p_max_ok _ _ C x y) as (N1 & N2 & N3). unfold b_max.
    destruct (is_nan x) eqn:Ex; [rewrite N1 by reflexivity; constructor|].
    destruct (is_nan y) eqn:Ey; [rewrite N2 by reflexivity; constructor|].
    destruct (N3 eq_refl eq_refl) as ([E|E] & L1 & L2); rewrite E in *.
    - destruct (Bltb x y) eqn:L; [destruct (leb_not_ltb _ _ L2 L)|constructor].
    - destruct (Bltb x y) eqn:L; [constructor|]. apply alike_sym, leb_same; assumption.
  Qed.
  Lemma picked_min C x x' y y' : alike x x' -> alike y y' -> alike (p_min C x y) (b_min prec emax x' y').
  Proof. intros Hx Hy. eapply alike_trans; [apply picks_min|apply alike_bmin; assumption]. Qed.
  Lemma picked_max C x x' y y' : alike x x' -> alike y y' -> alike (p_max C x y) (b_max prec emax x' y').
  Proof. intros Hx Hy. eapply alike_trans; [apply picks_max|apply alike_bmax; assumption]. Qed.

  (** ** Values *)
  Definition qalike (v w : quad bf bf) : Prop :=
    alike (addend v) (addend w) /\ alike (vmin v) (vmin w) /\ alike (vmax v) (vmax w) /\ alike (mult v) (mult w).
  Definition talike (v w : tri F) : Prop :=
    alike (t_min v) (t_min w) /\ alike (t_max v) (t_max w) /\ alike (t_mult v) (t_mult w).
  Lemma qalike_refl v : qalike v v. Proof. repeat split; constructor. Qed.
  Lemma talike_refl v : talike v v. Proof. repeat split; constructor. Qed.

  Ltac al := first [assumption | apply alike_refl | apply picked_min | apply picked_max | apply alike_plus | apply alike_mult].

  Lemma reached_float_alike h v : reached_float prec emax Hp He h v ->
    exists w, value_of h = Done w /\ qalike v w.
  Proof.
    intros R. induction R as [|b|C h o v w R IH E|C h k v u w R IH R2 IH2 E].
    - eexists. split; [reflexivity|apply qalike_refl].
    - eexists. split; [reflexivity|apply qalike_refl].
    - destruct IH as (v' & V & Q). cbn [value_of]. rewrite V. cbn [obind].
      destruct Q as (Q1 & Q2 & Q3 & Q4).
      destruct o; try solve [destruct x]; cbn in E |- *; injection E as <-; eexists; (split; [reflexivity|]);
        unfold qalike; cbn; repeat split; repeat al.
    - destruct IH as (v' & V & Q1 & Q2 & Q3 & Q4). destruct IH2 as (u' & U & P1 & P2 & P3 & P4).
      cbn [value_of]. rewrite V, U. cbn [obind]. cbn in E |- *. injection E as <-.
      eexists; (split; [reflexivity|]). unfold qalike; cbn; repeat split; repeat al.
  Qed.
  Lemma reached_additive_alike h v : reached_additive prec emax Hp He h v ->
    exists w, value_of h = Done w /\ qalike v w.
  Proof.
    intros R. induction R as [|b|C h o v w R IH E|C h k v u w R IH R2 IH2 E].
    - eexists. split; [reflexivity|apply qalike_refl].
    - eexists. split; [reflexivity|apply qalike_refl].
    - destruct IH as (v' & V & Q). cbn [value_of]. rewrite V. cbn [obind].
      destruct Q as (Q1 & Q2 & Q3 & Q4).
      destruct o; try solve [destruct x]; cbn in E |- *; injection E as <-; eexists; (split; [reflexivity|]);
        unfold qalike; cbn; repeat split; repeat al.
    - destruct IH as (v' & V & Q1 & Q2 & Q3 & Q4). destruct IH2 as (u' & U & P1 & P2 & P3 & P4).
      cbn [value_of]. rewrite V, U. cbn [obind]. cbn in E |- *. injection E as <-.
      eexists; (split; [reflexivity|]). unfold qalike; cbn; repeat split; repeat al.
  Qed.
  Lemma reached_mult_alike h v : reached_mult prec emax Hp He h v ->
    exists w, value_of h = Done w /\ talike v w.
  Proof.
    intros R. induction R as [|b|C h o v w R IH E|C h k v u w R IH R2 IH2 E].
    - eexists. split; [reflexivity|apply talike_refl].
    - eexists. split; [reflexivity|apply talike_refl].
    - destruct IH as (v' & V & Q). cbn [value_of]. rewrite V. cbn [obind].
      destruct Q as (Q1 & Q2 & Q3).
      destruct o; try solve [destruct x]; cbn in E |- *; injection E as <-; eexists; (split; [reflexivity|]);
        unfold talike; cbn; repeat split; repeat al.
    - destruct IH as (v' & V & Q1 & Q2 & Q3). destruct IH2 as (u' & U & P1 & P2 & P3).
      cbn [value_of]. rewrite V, U. cbn [obind]. cbn in E |- *. injection E as <-.
      eexists; (split; [reflexivity|]). unfold talike; cbn; repeat split; repeat al.
  Qed.

  Lemma C74_float_proof : forall h v C, reached_float prec emax Hp He h v ->
    same_worth (sv_eval (statFloat (picky prec emax Hp He C)) v) (worth h).
  Proof.
    intros h v C R. destruct (reached_float_alike h v R) as (w & W & Q1 & Q2 & Q3 & Q4).
    unfold worth, same_worth. rewrite W. cbn. do 2 eexists. split; [reflexivity|]. split; [reflexivity|].
    apply alike_same. unfold f_bound. cbn. repeat al.
  Qed.
  Lemma C74_additive_proof : forall h v C, reached_additive prec emax Hp He h v ->
    same_worth (sv_eval (statFloatAdditive (picky prec emax Hp He C)) v) (worth h).
  Proof.
    intros h v C R. destruct (reached_additive_alike h v R) as (w & W & Q1 & Q2 & Q3 & Q4).
    unfold worth, same_worth. rewrite W. cbn. do 2 eexists. split; [reflexivity|]. split; [reflexivity|].
    apply alike_same. unfold f_bound. cbn. repeat al.
  Qed.
  Lemma C74_mult_proof : forall h v C, reached_mult prec emax Hp He h v ->
    same_worth (sv_eval (statMult (picky prec emax Hp He C)) (to_picky prec emax Hp He C v)) (worth h).
  Proof.
    intros h v C R. destruct (reached_mult_alike h v R) as (w & W & Q1 & Q2 & Q3).
    unfold worth, same_worth. rewrite W. cbn. do 2 eexists. split; [reflexivity|]. split; [reflexivity|].
    apply alike_same. unfold f_bound. cbn. repeat al.
  Qed.

  Lemma C74_same_means_proof : forall x y : bf, same x y ->
    B2R x = B2R y /\ is_finite x = is_finite y /\ is_nan x = is_nan y /\
    forall z, Bltb x z = Bltb y z /\ Bltb z x = Bltb z y /\ Beqb x z = Beqb y z /\
              (is_nan x = false -> is_nan z = false -> Bleb x z = Bleb y z).
  Proof.
    intros x y H. apply alike_same in H. destruct H as [x|s s']; [repeat split|].
    repeat split.
  Qed.

  Lemma second_min_ok : keeps_min (second_min prec emax).
  Proof.
    intros x y. unfold second_min. destruct (is_nan x) eqn:Ex; destruct (is_nan y) eqn:Ey; repeat split; try discriminate; auto.
    - intros _. destruct x; try discriminate Ex; destruct y; try discriminate Ey; reflexivity.
    - destruct (Bltb x y); auto.
    - destruct (cmp_some x y Ex Ey) as [c E]. rewrite ltb_cmp, E, leb_cmp.
      destruct c; [rewrite Bcompare_swap, E; reflexivity| |rewrite Bcompare_swap, E; reflexivity].
      assert (Bltb x x = false \/ Bltb x x = true) as _ by (destruct (Bltb x x); auto).
      destruct (cmp_some x x Ex Ex) as [d D]. rewrite D. pose proof (Bcompare_swap _ _ x x) as S0. rewrite D in S0.
      destruct d; [reflexivity|reflexivity|discriminate S0].
    - destruct (cmp_some x y Ex Ey) as [c E]. rewrite ltb_cmp, E, leb_cmp.
      destruct (cmp_some y y Ey Ey) as [d D]. pose proof (Bcompare_swap _ _ y y) as S0. rewrite D in S0.
      destruct c; [rewrite D|rewrite E; reflexivity|rewrite D]; (destruct d; [reflexivity|reflexivity|discriminate S0]).
  Qed.
  Lemma second_max_ok : keeps_max (second_max prec emax).
  Proof.
    intros x y. unfold second_max. destruct (is_nan x) eqn:Ex; destruct (is_nan y) eqn:Ey; repeat split; try discriminate; auto.
    - intros _. destruct x; try discriminate Ex; destruct y; try discriminate Ey; reflexivity.
    - destruct (Bltb y x); auto.
    - destruct (cmp_some y x Ey Ex) as [c E]. rewrite ltb_cmp, E, leb_cmp.
      destruct (cmp_some x x Ex Ex) as [d D]. pose proof (Bcompare_swap _ _ x x) as S0. rewrite D in S0.
      destruct c; [rewrite Bcompare_swap, E; reflexivity|rewrite D|rewrite Bcompare_swap, E; reflexivity];
        (destruct d; [reflexivity|reflexivity|discriminate S0]).
    - destruct (cmp_some y x Ey Ex) as [c E]. rewrite ltb_cmp, E, leb_cmp.
      destruct (cmp_some y y Ey Ey) as [d D]. pose proof (Bcompare_swap _ _ y y) as S0. rewrite D in S0.
      destruct c; [rewrite D|rewrite E; reflexivity|rewrite D]; (destruct d; [reflexivity|reflexivity|discriminate S0]).
  Qed.
  Lemma first_min_ok : keeps_min (b_min prec emax).
  Proof.
    intros x y. unfold b_min. destruct (is_nan x) eqn:Ex; destruct (is_nan y) eqn:Ey; repeat split; try discriminate; auto.
    - destruct (Bltb y x); auto.
    - destruct (cmp_some y x Ey Ex) as [c E]. rewrite ltb_cmp, E, leb_cmp.
      destruct (cmp_some x x Ex Ex) as [d D]. pose proof (Bcompare_swap _ _ x x) as S0. rewrite D in S0.
      destruct c; [rewrite D|rewrite E; reflexivity|rewrite D]; (destruct d; [reflexivity|reflexivity|discriminate S0]).
    - destruct (cmp_some y x Ey Ex) as [c E]. rewrite ltb_cmp, E, leb_cmp.
      destruct (cmp_some y y Ey Ey) as [d D]. pose proof (Bcompare_swap _ _ y y) as S0. rewrite D in S0.
      destruct c; [rewrite Bcompare_swap, E; reflexivity|rewrite D|rewrite Bcompare_swap, E; reflexivity];
        (destruct d; [reflexivity|reflexivity|discriminate S0]).
  Qed.
  Lemma first_max_ok : keeps_max (b_max prec emax).
  Proof.
    intros x y. unfold b_max. destruct (is_nan x) eqn:Ex; destruct (is_nan y) eqn:Ey; repeat split; try discriminate; auto.
    - destruct (Bltb x y); auto.
    - destruct (cmp_some x y Ex Ey) as [c E]. rewrite ltb_cmp, E, leb_cmp.
      destruct (cmp_some x x Ex Ex) as [d D]. pose proof (Bcompare_swap _ _ x x) as S0. rewrite D in S0.
      destruct c; [rewrite D|rewrite E; reflexivity|rewrite D]; (destruct d; [reflexivity|reflexivity|discriminate S0]).
    - destruct (cmp_some x y Ex Ey) as [c E]. rewrite ltb_cmp, E, leb_cmp.
      destruct (cmp_some y y Ey Ey) as [d D]. pose proof (Bcompare_swap _ _ y y) as S0. rewrite D in S0.
      destruct c; [rewrite Bcompare_swap, E; reflexivity|rewrite D|rewrite Bcompare_swap, E; reflexivity];
        (destruct d; [reflexivity|reflexivity|discriminate S0]).
  Qed.
  Lemma C74_contract_proof : keeps_min (b_min prec emax) /\ keeps_max (b_max prec emax) /\
    keeps_min (second_min prec emax) /\ keeps_max (second_max prec emax).
  Proof. exact (conj first_min_ok (conj first_max_ok (conj second_min_ok second_max_ok))). Qed.

  Lemma alike_nonzero x y : alike x y -> (forall s, y <> B754_zero s) -> x = y.
  Proof. intros [z|s s'] H; [reflexivity|]. destruct (H s' eq_refl). Qed.

  Lemma C74_rounding_proof : forall C R (x : bf), round_with R (picky prec emax Hp He C) x = round_with R F x.
  Proof.
    intros C R x. destruct R; try reflexivity. cbn.
    pose proof (is_finite_strict_Bone prec emax _ _) as S1.
    pose proof (Bsign_Bone prec emax _ _) as S2.
    change (is_finite_strict (b_one prec emax Hp He) = true) in S1. change (Bsign (b_one prec emax Hp He) = false) in S2.
    destruct (b_one prec emax Hp He) as [|s| |s m e H]; try discriminate S1. cbn in S2. subst s.
    destruct (Bltb (B754_zero false) x).
    - f_equal. apply alike_nonzero; [apply picks_max|]. intros s. unfold b_max.
      destruct (is_nan (Bnearbyint mode_ZR x)); [discriminate|]. cbn [is_nan].
      destruct (Bnearbyint mode_ZR x) as [r|r| |r m' e' H']; try discriminate.
      + destruct (Bltb _ _); discriminate.
      + destruct (Bltb _ _); discriminate.
    - destruct (Bltb x (B754_zero false)); [|reflexivity].
      f_equal. apply alike_nonzero; [apply picks_min|]. intros s. unfold b_min.
      destruct (is_nan (Bnearbyint mode_ZR x)); [discriminate|].
      change (Bminus mode_NE (B754_zero false) (B754_finite false m e H)) with (B754_finite true m e H).
      cbn [is_nan].
      destruct (Bnearbyint mode_ZR x) as [r|r| |r m' e' H']; try discriminate.
      + destruct (Bltb _ _); discriminate.
      + destruct (Bltb _ _); discriminate.
  Qed.

  (** The model's own choice is one of them. *)
  Definition firsts : picks prec emax := Picks (b_min prec emax) (b_max prec emax) first_min_ok first_max_ok.
  Lemma C74_own_float_proof : forall h v, value_of h = Done v -> reached_float prec emax Hp He h v.
  Proof.
    induction h as [|b|h IH o|h IH k IH2]; intros v V; cbn [value_of] in V.
    - injection V as <-. constructor.
    - injection V as <-. constructor.
    - destruct (value_of h) as [w| | |]; try discriminate V. cbn [obind] in V.
      apply (by_call _ _ _ _ _ firsts h o w); [apply IH; reflexivity|]. destruct o; try solve [destruct x]; exact V.
    - destruct (value_of h) as [w| | |]; try discriminate V. cbn [obind] in V.
      destruct (value_of k) as [u| | |]; try discriminate V. cbn [obind] in V.
      apply (by_join _ _ _ _ _ firsts h k w u); [apply IH; reflexivity|apply IH2; reflexivity|exact V].
  Qed.
  Lemma C74_own_additive_proof : forall h v, value_of h = Done v -> reached_additive prec emax Hp He h v.
  Proof.
    induction h as [|b|h IH o|h IH k IH2]; intros v V; cbn [value_of] in V.
    - injection V as <-. constructor.
    - injection V as <-. constructor.
    - destruct (value_of h) as [w| | |]; try discriminate V. cbn [obind] in V.
      apply (by_call _ _ _ _ _ firsts h o w); [apply IH; reflexivity|]. destruct o; try solve [destruct x]; exact V.
    - destruct (value_of h) as [w| | |]; try discriminate V. cbn [obind] in V.
      destruct (value_of k) as [u| | |]; try discriminate V. cbn [obind] in V.
      apply (by_join _ _ _ _ _ firsts h k w u); [apply IH; reflexivity|apply IH2; reflexivity|exact V].
  Qed.
  Lemma C74_own_mult_proof : forall h v, value_of h = Done v -> reached_mult prec emax Hp He h v.
  Proof.
    induction h as [|b|h IH o|h IH k IH2]; intros v V; cbn [value_of] in V.
    - injection V as <-. constructor.
    - injection V as <-. constructor.
    - destruct (value_of h) as [w| | |]; try discriminate V. cbn [obind] in V.
      apply (by_call _ _ _ _ _ firsts h o w); [apply IH; reflexivity|].
      destruct o; try solve [destruct x]; destruct w; cbn in V |- *; rewrite <- V; reflexivity.
    - destruct (value_of h) as [w| | |]; try discriminate V. cbn [obind] in V.
      destruct (value_of k) as [u| | |]; try discriminate V. cbn [obind] in V.
      apply (by_join _ _ _ _ _ firsts h k w u); [apply IH; reflexivity|apply IH2; reflexivity|].
      cbn in V |- *. rewrite <- V. reflexivity.
  Qed.
  Lemma C74_own_proof :
    (forall h v, value_of h = Done v -> reached_float prec emax Hp He h v) /\
    (forall h v, value_of h = Done v -> reached_additive prec emax Hp He h v) /\
    (forall h v, value_of h = Done v -> reached_mult prec emax Hp He h v).
  Proof. exact (conj C74_own_float_proof (conj C74_own_additive_proof C74_own_mult_proof)). Qed.
End Zeros.

(** With the last zero picked, an upper bound of [0.0] and then [-0.0] gives [-0.0]. *)
Definition seconds : picks 24 128 :=
  Picks (second_min 24 128) (second_max 24 128) (second_min_ok 24 128) (second_max_ok 24 128).
Lemma C74_sign_refuted_proof :
  let S := statMult f32F in
  let h : history S := Applied (Applied (@FromBase S (b_one 24 128 prec24 emax128)) (@OMax S (B754_zero false))) (@OMax S (B754_zero true)) in
  worth h = Done (B754_zero false) /\
  exists v, reached_mult 24 128 prec24 emax128 h v /\
    sv_eval (statMult (picky 24 128 prec24 emax128 seconds)) (to_picky 24 128 prec24 emax128 seconds v) = Done (B754_zero true).
Proof.
  intros S h. split; [vm_compute; reflexivity|].
  eexists. split.
  - eapply (by_call _ _ _ _ _ seconds).
    + eapply (by_call _ _ _ _ _ seconds); [apply by_base|cbn; reflexivity].
    + cbn; reflexivity.
  - vm_compute. reflexivity.
Qed.
