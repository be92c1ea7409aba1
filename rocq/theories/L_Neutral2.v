(** Proofs about the default of float stats: integers with float multipliers, fractions, and which
    values arise. *)
From Coq Require Import ZArith Reals Lia Lra List Bool.
From Flocq Require Import Core BinarySingleNaN Plus_error.
From Verif Require Import M_Outcome M_Ints M_Ratio M_Float M_Value M_Types S_Ratio S_Types S_Float S_Totals S_ValueSerde S_Neutral
  L_Outcome L_Ints L_Ratio L_Types2 L_Float L_FloatProofs L_Neutral.
Import ListNotations.
Local Open Scope Z_scope.

Lemma C12_StatIntFloatMul_proof :
  forall prec emax Hp He oc t R, let S := statIntFloatMul prec emax Hp He oc t R in
  default_neutral S (quad_ok (prim t) (fun _ => True)) /\
  splittable S (quad_ok (prim t) (fun _ => True)) (op_ok (S := S) (z_ok (prim t)) (fun _ => True) (z_ok (prim t))).
Proof.
  intros prec emax Hp He oc t R S. split.
  - intros [a l h m] (Ha & Hl & Hh & _). cbn in Ha, Hl, Hh.
    cbn -[Bmult b_one i_add i_max i_min]. rewrite times_one, one_times. unfold i_add.
    change {| i_ty := t; i_flav := FPrim |} with (prim t).
    pose proof Ha as Ha'. pose proof Hl as Hl'. pose proof Hh as Hh'. unfold z_ok in Hl', Hh'. cbn [prim i_ty] in Hl', Hh'.
    rewrite Z.add_0_r. change (0 + a) with a. rewrite i_norm_id by assumption. cbn [obind].
    rewrite i_max_low, i_max_low', i_min_high, i_min_high' by lia. auto.
  - intros [a l h m] o (Ha & Hl & Hh & _) Ho Hb. cbn in Ha, Hl, Hh.
    pose proof (zero_ok (prim t)) as Z0.
    pose proof Hl as Hl'. pose proof Hh as Hh'. unfold z_ok in Hl', Hh'. cbn [prim i_ty] in Hl', Hh'.
    destruct o as [x|x|x|x|x|x|x]; try solve [destruct x]; try easy; cbn in Ho; unfold into_stat; cbn -[Bmult b_one i_add i_max i_min];
      unfold q_add, q_min, q_max, i_add; change {| i_ty := t; i_flav := FPrim |} with (prim t);
      cbn [addend vmin vmax mult obind];
      repeat first [ rewrite Z.add_0_r | rewrite Z.add_0_l | rewrite i_norm_id by assumption | rewrite times_one | rewrite one_times
        | progress cbn [obind addend vmin vmax mult] ];
      rewrite ?(i_max_low l (imin t)), ?(i_min_high h (imax t)) by lia; try reflexivity;
      unfold z_ok in Ho; cbn [prim i_ty] in Ho;
      rewrite ?(i_max_low' x (imin t)), ?(i_min_high' x (imax t)) by lia; reflexivity.
Qed.

(** ** Fractions *)
Section Fractions.
  Variables (oc : bool) (t : ity).
  Let F := fracF oc t.

  Lemma frac_add_zero x : reduced t x -> r_add oc t x (r_int 0) = Done x /\ r_add oc t (r_int 0) x = Done x.
  Proof.
    intros [[Hn Hd] Hg]. destruct x as [n d]. cbn [numer denom] in *.
    pose proof (imin_le0 t) as I0.
    assert (A : forall (a : Z), ity_ok t a -> chk oc t a = Done a) by (intros; now apply chk_id).
    unfold r_add, r_addsub, r_int. cbn [numer denom].
    destruct (Z.eqb_spec d 1) as [->|Nd].
    - rewrite Z.eqb_refl. unfold p_add. rewrite Z.add_0_r, Z.add_0_l, A by (unfold ity_ok; lia). cbn [obind].
      unfold r_new. split; apply r_reduce_id; repeat split; cbn; lia || easy.
    - destruct (Z.eqb_spec 1 d) as [E|_]; [congruence|].
      assert (L : forall a b, 0 < a -> 0 < b -> a * b = d -> a = 1 \/ b = 1 -> r_lcm oc t a b = Done d).
      { intros a b Ha Hb E Ho. unfold r_lcm. destruct (Z.eqb_spec a 0); [lia|]. cbn [andb].
        assert (G : Z.gcd a b = 1) by (destruct Ho as [->| ->]; [apply Z.gcd_1_l|apply Z.gcd_1_r]).
        unfold r_gcd. rewrite G, A by (unfold ity_ok; lia). cbn [obind].
        rewrite p_div_ok by (unfold ity_ok; nia). cbn [obind]. rewrite Z.quot_1_r. unfold p_mul.
        rewrite E, A by (unfold ity_ok; lia). cbn [obind].
        unfold p_abs. rewrite Z.abs_eq by lia. destruct (signed t); [|reflexivity]. apply A. unfold ity_ok; lia. }
      rewrite (L d 1), (L 1 d) by lia. cbn [obind].
      rewrite !p_div_ok by (unfold ity_ok; lia). cbn [obind].
      rewrite Z.quot_1_r, Z.quot_same by lia. unfold p_mul, p_add. rewrite Z.mul_1_r, Z.mul_0_l.
      repeat (rewrite ?Z.add_0_r, ?Z.add_0_l, A by (unfold ity_ok; lia); cbn [obind]).
      unfold r_new. split; apply r_reduce_id; repeat split; cbn; lia || easy.
  Qed.

  Lemma frac_max_low x : reduced t x -> r_max x (r_int (imin t)) = x /\ r_max (r_int (imin t)) x = x.
  Proof.
    intros [[Hn Hd] Hg]. destruct x as [n d]. cbn [numer denom] in *.
    pose proof (imin_le0 t) as I0. unfold r_max, r_ltb, r_cmp, r_int. cbn [numer denom]. rewrite Z.mul_1_r.
    assert (E1 : forall P : Prop, imin t * d = n -> (d = 1 -> n = imin t -> P) -> P).
    { intros P E K. assert (d = 1) as D1.
      { apply Z.divide_1_r_nonneg; [lia|]. rewrite <- Hg. apply Z.gcd_greatest; [exists (imin t); lia|apply Z.divide_refl]. }
      apply K; [exact D1|nia]. }
    split.
    - destruct (Z.compare_spec (imin t * d) n) as [E|E|E]; try reflexivity; [|nia].
      apply (E1 _ E). intros -> ->. reflexivity.
    - destruct (Z.compare_spec n (imin t * d)) as [E|E|E]; try reflexivity. nia.
  Qed.
  Lemma frac_min_high x : reduced t x -> r_min x (r_int (imax t)) = x /\ r_min (r_int (imax t)) x = x.
  Proof.
    intros [[Hn Hd] Hg]. destruct x as [n d]. cbn [numer denom] in *.
    pose proof (imax_ge127 t) as I1. unfold r_min, r_ltb, r_cmp, r_int. cbn [numer denom]. rewrite Z.mul_1_r.
    assert (E1 : forall P : Prop, imax t * d = n -> (d = 1 -> n = imax t -> P) -> P).
    { intros P E K. assert (d = 1) as D1.
      { apply Z.divide_1_r_nonneg; [lia|]. rewrite <- Hg. apply Z.gcd_greatest; [exists (imax t); lia|apply Z.divide_refl]. }
      apply K; [exact D1|nia]. }
    split.
    - destruct (Z.compare_spec (imax t * d) n) as [E|E|E]; try reflexivity. nia.
    - destruct (Z.compare_spec n (imax t * d)) as [E|E|E]; try reflexivity; [|nia].
      apply (E1 _ (eq_sym E)). intros -> ->. reflexivity.
  Qed.

  Ltac frac_rw :=
    repeat match goal with
    | |- context [r_add oc t ?x (r_int 0)] => rewrite (proj1 (frac_add_zero x ltac:(assumption)))
    | |- context [r_add oc t (r_int 0) ?x] => rewrite (proj2 (frac_add_zero x ltac:(assumption)))
    | |- context [r_mul oc t ?x (r_int 1)] => rewrite (r_mul_one_r oc t x ltac:(assumption))
    | |- context [r_mul oc t (r_int 1) ?x] => rewrite (r_mul_one_l oc t x ltac:(assumption))
    | |- context [r_max ?x (r_int (imin t))] => rewrite (proj1 (frac_max_low x ltac:(assumption)))
    | |- context [r_max (r_int (imin t)) ?x] => rewrite (proj2 (frac_max_low x ltac:(assumption)))
    | |- context [r_min ?x (r_int (imax t))] => rewrite (proj1 (frac_min_high x ltac:(assumption)))
    | |- context [r_min (r_int (imax t)) ?x] => rewrite (proj2 (frac_min_high x ltac:(assumption)))
    | |- _ => progress cbn [obind addend vmin vmax mult t_min t_max t_mult]
    end.
  Ltac frac_split :=
    unfold into_stat; cbn [F fracF statFloat statFloatAdditive statMult sv_default sv_add sv_mul sv_min sv_max sv_or sv_not sv_join
      f_zero f_one f_minv f_maxv f_add f_mul f_max f_min write_to obind addend vmin vmax mult t_min t_max t_mult];
    unfold fq_add, fq_min, fq_max; cbn [F fracF f_zero f_one f_minv f_maxv f_add f_mul f_max f_min]; frac_rw.

  Lemma C12_fraction_proof :
    (default_neutral (statFloat F) (frac_quad_ok t) /\
     splittable (statFloat F) (frac_quad_ok t) (op_ok (S := statFloat F) (reduced t) (reduced t) (reduced t))) /\
    (default_neutral (statFloatAdditive F) (frac_quad_ok t) /\
     splittable (statFloatAdditive F) (frac_quad_ok t) (op_ok (S := statFloatAdditive F) (reduced t) (reduced t) (reduced t))) /\
    (default_neutral (statMult F) (frac_tri_ok oc t) /\
     splittable (statMult F) (frac_tri_ok oc t) (op_ok (S := statMult F) (fun _ => True) (reduced t) (reduced t))).
  Proof.
    split; [|split]; split.
    - intros [a l h m] (Ha & Hl & Hh & Hm). cbn [addend vmin vmax mult] in *. split; frac_split; reflexivity.
    - intros [a l h m] o (Ha & Hl & Hh & Hm) Ho Hb. cbn [addend vmin vmax mult] in *.
      destruct o as [x|x|x|x|x|x|x]; try solve [destruct x]; try easy; cbn in Ho; frac_split; reflexivity.
    - intros [a l h m] (Ha & Hl & Hh & Hm). cbn [addend vmin vmax mult] in *. split; frac_split; reflexivity.
    - intros [a l h m] o (Ha & Hl & Hh & Hm) Ho Hb. cbn [addend vmin vmax mult] in *.
      destruct o as [x|x|x|x|x|x|x]; try solve [destruct x]; try easy; cbn in Ho; frac_split; reflexivity.
    - intros [l h m] (Hl & Hh & Hm). cbn [t_min t_max t_mult] in *. split; frac_split; reflexivity.
    - intros [l h m] o (Hl & Hh & Hm) Ho Hb. cbn [t_min t_max t_mult] in *.
      destruct o as [x|x|x|x|x|x|x]; try solve [destruct x]; try easy; cbn in Ho; frac_split; reflexivity.
  Qed.
End Fractions.

(** ** Which values arise *)
Section Built.
  Variables prec emax : Z.
  Context (Hp : Prec_gt_0 prec) (He : Prec_lt_emax prec emax).
  Let bf := binary_float prec emax.
  Let F := binF prec emax Hp He.

  Lemma max_counts (x y : bf) : lower_counts x -> lower_counts (b_max prec emax x y).
  Proof.
    intros [N I]. split; intros E; destruct x as [s|[]| |s m e B]; try congruence; destruct y as [s'|[]| |s' m' e' B']; try (cbn in E; discriminate E);
      revert E; unfold b_max; cbn [is_nan]; match goal with |- context [Bltb ?a ?b] => destruct (Bltb a b) eqn:L end; try discriminate;
      destruct s; discriminate.
  Qed.
  Lemma min_counts (x y : bf) : upper_counts x -> upper_counts (b_min prec emax x y).
  Proof.
    intros [N I]. split; intros E; destruct x as [s|[]| |s m e B]; try congruence; destruct y as [s'|[]| |s' m' e' B']; try (cbn in E; discriminate E);
      revert E; unfold b_min; cbn [is_nan]; match goal with |- context [Bltb ?a ?b] => destruct (Bltb a b) eqn:L end; try discriminate;
      destruct s; discriminate.
  Qed.
  Lemma plus_unsigned (x y : bf) : unsigned_zero x -> unsigned_zero (Bplus mode_NE x y).
  Proof.
    intros Hx. destruct x as [[]|[]| |s m e B]; try (now destruct Hx); destruct y as [[]|[]| |s' m' e' B']; try (intros E; discriminate E).
    set (x := B754_finite s m e B). set (y := B754_finite s' m' e' B'). intros E.
    pose proof (Bplus_correct prec emax _ _ mode_NE x y eq_refl eq_refl) as M. rewrite E in M.
    revert M. case Rlt_bool_spec; intros R M; [|cbn in M; destruct M as [M _]; destruct s; discriminate M].
    destruct M as (V & _ & Sg). cbn [B2R Bsign] in V, Sg.
    assert (Z : (B2R x + B2R y = 0)%R).
    { destruct (Req_dec (B2R x + B2R y) 0) as [Z|Z]; [exact Z|exfalso].
      symmetry in V. revert V. apply round_plus_neq_0; try apply generic_format_B2R; auto with typeclass_instances.
      - now apply FLT_exp_valid.
      - apply monotone_exp_not_FTZ; [now apply FLT_exp_valid|apply FLT_exp_monotone]. }
    rewrite Z, Rcompare_Eq in Sg by reflexivity. symmetry in Sg. apply andb_prop in Sg. destruct Sg as [S1 S2].
    cbn in S1, S2. subst s s'. cbn [x y B2R] in Z.
    assert (F2R (Float radix2 (SpecFloat.cond_Zopp true (Zpos m)) e) < 0)%R by (apply F2R_lt_0; cbn; lia).
    assert (F2R (Float radix2 (SpecFloat.cond_Zopp true (Zpos m')) e') < 0)%R by (apply F2R_lt_0; cbn; lia).
    lra.
  Qed.

  Lemma high_counts : upper_counts (b_maxv prec emax Hp He).
  Proof. split; intros E; discriminate E. Qed.
  Lemma low_counts : lower_counts (b_minv prec emax Hp He).
  Proof. split; intros E; discriminate E. Qed.

  Lemma C12_float_built_proof :
    (forall (h : history (statFloat F)) v,
       operands (op_of (S := statFloat F) (fun _ => True) (fun _ => True) (fun _ => True) unsigned_zero) h ->
       value_of h = Done v -> settled_float v) /\
    (forall (h : history (statFloatAdditive F)) v,
       operands (op_of (S := statFloatAdditive F) (fun _ => True) (fun _ => True) (fun _ => True) unsigned_zero) h ->
       value_of h = Done v -> settled_additive v) /\
    (forall (h : history (statMult F)) v, value_of h = Done v -> settled_mult v).
  Proof.
    pose proof high_counts as U. pose proof low_counts as L.
    assert (Z0 : @unsigned_zero prec emax (B754_zero false)) by (intros E; discriminate E).
    split; [|split].
    - induction h as [|b|h IH o|h IH k IH']; intros v Ho Hv; cbn [value_of operands] in *.
      + injection Hv as <-. repeat split; cbn; try apply U; try apply L; exact Z0.
      + injection Hv as <-. repeat split; cbn; try apply U; try apply L; exact Ho.
      + destruct Ho as [Ho Oo]. apply obind_inv in Hv as (w & Hw & Hv). destruct (IH w Ho Hw) as (Wa & Wl & Wh).
        destruct w as [a l h' m]. cbn [addend vmin vmax] in Wa, Wl, Wh.
        destruct o as [x|x|x|x|x|x|x]; try destruct x as []; cbn -[Bplus Bmult b_max b_min b_maxv b_minv b_one] in Hv; injection Hv as <-; unfold settled_float; cbn [addend vmin vmax];
          auto using plus_unsigned, max_counts, min_counts.
      + destruct Ho as [Ho Ok]. apply obind_inv in Hv as (w & Hw & Hv). apply obind_inv in Hv as (u & Hu & Hv).
        destruct (IH w Ho Hw) as (Wa & Wl & Wh). destruct w as [a l h' m], u as [a' l' h'' m']. cbn [addend vmin vmax] in Wa, Wl, Wh.
        cbn -[Bplus Bmult b_max b_min] in Hv. injection Hv as <-. unfold settled_float; cbn [addend vmin vmax];
          auto using plus_unsigned, max_counts, min_counts.
    - induction h as [|b|h IH o|h IH k IH']; intros v Ho Hv; cbn [value_of operands] in *.
      + injection Hv as <-. repeat split; cbn; try apply U; try apply L; exact Z0.
      + injection Hv as <-. repeat split; cbn; try apply U; try apply L; try exact Ho; exact Z0.
      + destruct Ho as [Ho Oo]. apply obind_inv in Hv as (w & Hw & Hv). destruct (IH w Ho Hw) as [(Wa & Wl & Wh) Wm].
        destruct w as [a l h' m]. cbn [addend vmin vmax mult] in Wa, Wl, Wh, Wm.
        destruct o as [x|x|x|x|x|x|x]; try destruct x as []; cbn -[Bplus Bmult b_max b_min b_maxv b_minv b_one] in Hv; injection Hv as <-; unfold settled_additive, settled_float; cbn [addend vmin vmax mult];
          auto using plus_unsigned, max_counts, min_counts.
      + destruct Ho as [Ho Ok]. apply obind_inv in Hv as (w & Hw & Hv). apply obind_inv in Hv as (u & Hu & Hv).
        destruct (IH w Ho Hw) as [(Wa & Wl & Wh) Wm]. destruct w as [a l h' m], u as [a' l' h'' m']. cbn [addend vmin vmax mult] in Wa, Wl, Wh, Wm.
        cbn -[Bplus Bmult b_max b_min] in Hv. injection Hv as <-. unfold settled_additive, settled_float; cbn [addend vmin vmax mult];
          auto using plus_unsigned, max_counts, min_counts.
    - induction h as [|b|h IH o|h IH k IH']; intros v Hv; cbn [value_of] in *.
      + injection Hv as <-. repeat split; cbn; try apply U; apply L.
      + injection Hv as <-. repeat split; cbn; try apply U; apply L.
      + apply obind_inv in Hv as (w & Hw & Hv). destruct (IH w Hw) as (Wl & Wh).
        destruct w as [l h' m]. cbn [t_min t_max] in Wl, Wh.
        destruct o as [x|x|x|x|x|x|x]; try destruct x as []; cbn -[Bplus Bmult b_max b_min b_maxv b_minv b_one] in Hv; injection Hv as <-; unfold settled_mult; cbn [t_min t_max];
          auto using max_counts, min_counts.
      + apply obind_inv in Hv as (w & Hw & Hv). apply obind_inv in Hv as (u & Hu & Hv).
        destruct (IH w Hw) as (Wl & Wh). destruct w as [l h' m], u as [l' h'' m']. cbn [t_min t_max] in Wl, Wh.
        cbn -[Bplus Bmult b_max b_min] in Hv. injection Hv as <-. unfold settled_mult; cbn [t_min t_max];
          auto using max_counts, min_counts.
  Qed.
End Built.

Lemma C12_float_refuted_proof :
  forall prec emax Hp He, let F := binF prec emax Hp He in
  let v := sv_from_base (statFloat F) (B754_zero true) in
  sv_join (statFloat F) v (sv_default _) = Done (sv_from_base (statFloat F) (B754_zero false)) /\
  ~ default_neutral (statFloat F) (fun v => exists h : history (statFloat F), value_of h = Done v).
Proof.
  intros prec emax Hp He F v.
  destruct (C12_StatFloat_proof prec emax Hp He) as [N _].
  assert (J : sv_join (statFloat F) v (sv_default _) = Done (sv_from_base (statFloat F) (B754_zero false))).
  { unfold v. cbn -[Bmult b_max b_min b_maxv b_minv b_one]. rewrite times_one.
    rewrite (proj2 (max_low_r prec emax Hp He _) (low_counts prec emax Hp He)).
    rewrite (proj2 (min_high_r prec emax Hp He _) (high_counts prec emax Hp He)). reflexivity. }
  split; [exact J|].
  intros D. destruct (D v) as [E _].
  - exists (@FromBase (statFloat F) (B754_zero true)). reflexivity.
  - rewrite J in E. discriminate E.
Qed.
