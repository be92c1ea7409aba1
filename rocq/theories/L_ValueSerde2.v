From Coq Require Import String ZArith Lia Bool List.
From Flocq Require Import Core BinarySingleNaN.
From Verif Require Import M_Outcome M_Ints M_Ratio M_Float M_Value M_Types M_Qualifier M_Stat M_HashMap M_Pair M_Defaults M_Querier M_Poison M_Serde M_ValueSerde
  S_Totals S_ValueSerde L_Outcome L_Ints L_ValueSerde.
Import ListNotations.
Local Open Scope Z_scope.

Lemma num_iff T d z : rd (leaf_num T) d = Some z <->
  exists x, d = DInt x /\ match i_flav T with FSaturating => z = sat (i_ty T) x | _ => z = x /\ small (i_ty T) x end.
Proof.
  unfold leaf_num. destruct T as [t []]; cbn [i_flav i_ty].
  - rewrite int_iff. split; [intros [-> H]; eauto|intros (x & -> & -> & H); auto].
  - rewrite int_iff. split; [intros [-> H]; eauto|intros (x & -> & -> & H); auto].
  - cbn. split.
    + destruct d; try discriminate. intros H; injection H as <-. eauto.
    + intros (x & -> & ->). reflexivity.
Qed.
Lemma num_small T d z : rd (leaf_num T) d = Some z -> small (i_ty T) z.
Proof.
  intros H. apply num_iff in H as (x & _ & H). destruct (i_flav T); try (exact (eq_ind_r (fun y => small (i_ty T) y) (proj2 H) (proj1 H))). subst z. apply in_range_iff, sat_range.
Qed.
Lemma back_int t z : back (leaf_int t) z <-> small t z.
Proof. unfold back. rewrite int_iff. cbn. split; [intros [_ H]; exact H|auto]. Qed.
Lemma back_num T z : back (leaf_num T) z <-> small (i_ty T) z.
Proof.
  unfold back. rewrite num_iff. destruct T as [t []]; unfold leaf_num; cbn [i_flav i_ty wr leaf_int]; split.
  - intros (x & E & -> & H). exact H.
  - intros H; eauto.
  - intros (x & E & -> & H). exact H.
  - intros H; eauto.
  - intros (x & E & H). injection E as <-. rewrite H. apply in_range_iff, sat_range.
  - intros H. exists z. split; [reflexivity|]. rewrite sat_id; [reflexivity|apply in_range_iff, H].
Qed.

Section Back.
  Variable named strict : bool.
  Context {A M : Type} (LA : leaf A) (LM : leaf M).
  Lemma back_quad v : back LA (addend v) -> back LA (vmin v) -> back LA (vmax v) -> back LM (mult v) -> back (leaf_quad named strict LA LM) v.
  Proof.
    unfold back. intros H1 H2 H3 H4. apply quad_iff. exists (wr LA (addend v)), (wr LA (vmin v)), (wr LA (vmax v)), (wr LM (mult v)).
    split; [|auto]. apply fields_of_iff; [nodup|].
    apply (written_struct named strict [("addend", wr LA (addend v)); ("min", wr LA (vmin v)); ("max", wr LA (vmax v)); ("mult", wr LM (mult v))]%string). nodup.
  Qed.
  Lemma back_rounded v : back LA (addend v) -> back LA (vmin v) -> back LA (vmax v) -> back LM (mult v) -> back (leaf_rounded named strict LA LM) v.
  Proof.
    unfold back. intros H1 H2 H3 H4. apply rounded_iff. exists (wr LA (addend v)), (wr LA (vmin v)), (wr LA (vmax v)), (wr LM (mult v)).
    split; [|auto]. apply fields_of_iff; [nodup|].
    apply (written_struct named strict [("addend", wr LA (addend v)); ("min", wr LA (vmin v)); ("max", wr LA (vmax v)); ("mult", wr LM (mult v)); ("rounding", DNull)]%string). nodup.
  Qed.
  Lemma back_percent v : back LA (addend v) -> back LA (vmin v) -> back LA (vmax v) -> back LM (mult v) -> back (leaf_percent named strict LA LM) v.
  Proof.
    unfold back. intros H1 H2 H3 H4. apply percent_iff. exists (wr LA (addend v)), (wr LA (vmin v)), (wr LA (vmax v)), (wr LM (mult v)).
    split; [|auto]. apply fields_of_iff; [nodup|].
    apply (written_struct named strict [("addend", wr LA (addend v)); ("mult", wr LM (mult v)); ("min", wr LA (vmin v)); ("max", wr LA (vmax v)); ("rounding", DNull)]%string). nodup.
  Qed.
  Lemma back_prio v : back LA (p_value v) -> small I32 (p_priority v) -> back (leaf_prio named strict LA) v.
  Proof.
    unfold back. intros H1 H2. apply prio_iff. exists (wr LA (p_value v)), (DInt (p_priority v)).
    split; [|split; [exact H1|apply int_iff; auto]]. apply fields_of_iff; [nodup|].
    apply (written_struct named strict [("value", wr LA (p_value v)); ("priority", DInt (p_priority v))]%string). nodup.
  Qed.
  Lemma back_once v : (forall a, v = Found a -> back LA a) -> back (leaf_once named LA) v.
  Proof.
    intros H. unfold back. apply once_iff. destruct v as [|a|]; cbn [wr leaf_once].
    - left. apply variant_of_iff; [nodup|]. apply written_variant; [nodup|reflexivity].
    - exists (wr LA a). split; [|apply H; reflexivity]. apply variant_of_iff; [nodup|]. apply written_variant; [nodup|reflexivity].
    - left. apply variant_of_iff; [nodup|]. apply written_variant; [nodup|reflexivity].
  Qed.
End Back.
Lemma back_mult named strict F (LF : leaf (fcar F)) v : back LF (t_min v) -> back LF (t_max v) -> back LF (t_mult v) -> back (leaf_mult named strict LF) v.
Proof.
  unfold back. intros H1 H2 H3. apply mult_iff. exists (wr LF (t_min v)), (wr LF (t_max v)), (wr LF (t_mult v)).
  split; [|auto]. apply fields_of_iff; [nodup|].
  apply (written_struct named strict [("min", wr LF (t_min v)); ("max", wr LF (t_max v)); ("mult", wr LF (t_mult v))]%string). nodup.
Qed.
Lemma back_flags named strict G (LG : leaf (gcar G)) v : back LG (f_not v) -> back LG (f_or v) -> back (leaf_flags named strict LG) v.
Proof.
  unfold back. intros H1 H2. apply flags_iff. exists (wr LG (f_not v)), (wr LG (f_or v)).
  split; [|auto]. apply fields_of_iff; [nodup|].
  apply (written_struct named strict [("not", wr LG (f_not v)); ("or", wr LG (f_or v))]%string). nodup.
Qed.
Lemma back_ratio strict t r : small_ratio t r -> back (leaf_ratio strict (leaf_int t)) r.
Proof.
  intros (H1 & H2 & H3). unfold back. apply ratio_iff. exists (DInt (numer r)), (DInt (denom r)).
  split; [exists []; auto|]. rewrite !int_iff. auto.
Qed.
Lemma back_op named S (La : leaf (addT S)) Lm Lb Lr Lz o : op_back La Lm Lb Lr Lz o -> back (leaf_op named La Lm Lb Lr Lz) o.
Proof.
  intros H. unfold back. apply op_iff.
  destruct o as [x|x|x|x|x|x|x]; cbn [wr leaf_op];
    (eexists; split; [|exact H]; apply variant_of_iff; [nodup|apply written_variant; [nodup|reflexivity]]).
Qed.

(** ** Loaded numbers *)
Lemma num_loaded T d z : rd (leaf_num T) d = Some z -> small (i_ty T) z.
Proof. apply num_small. Qed.
Lemma ratio_loaded strict t d r : rd (leaf_ratio strict (leaf_int t)) d = Some r -> small_ratio t r.
Proof. intros H. apply ratio_iff in H as (a & b & _ & Ha & Hb & Hn). apply int_iff in Ha as [_ Ha], Hb as [_ Hb]. repeat split; assumption. Qed.

(** ** Built numbers *)
Lemma small_ok t z : small t z <-> ity_ok t z.
Proof. apply in_range_iff. Qed.
Lemma small_0 t : small t 0.
Proof. apply small_ok. pose proof (imin_le0 t). pose proof (imax_ge127 t). split; lia. Qed.
Lemma small_1 t : small t 1.
Proof. apply small_ok. pose proof (imin_le0 t). pose proof (imax_ge127 t). split; lia. Qed.
Lemma small_min t : small t (imin t).
Proof. apply small_ok. pose proof (imin_le0 t). pose proof (imax_ge127 t). split; lia. Qed.
Lemma small_max t : small t (imax t).
Proof. apply small_ok. pose proof (imin_le0 t). pose proof (imax_ge127 t). split; lia. Qed.
Lemma small_i_max t a b : small t a -> small t b -> small t (i_max a b).
Proof. unfold i_max. destruct (b <? a); auto. Qed.
Lemma small_i_min t a b : small t a -> small t b -> small t (i_min a b).
Proof. unfold i_min. destruct (b <? a); auto. Qed.
Lemma small_i_add oc T a b r : i_add oc T a b = Done r -> small (i_ty T) r.
Proof. intros H. apply small_ok. eapply i_norm_range. exact H. Qed.
Lemma small_i_mul oc T a b r : i_mul oc T a b = Done r -> small (i_ty T) r.
Proof. intros H. apply small_ok. eapply i_norm_range. exact H. Qed.
Lemma small_p oc t z r : chk oc t z = Done r -> small t r.
Proof. intros H. apply small_ok. eapply chk_range. exact H. Qed.
Lemma small_div t a b r : p_div t a b = Done r -> small t r.
Proof. unfold p_div. destruct (b =? 0); [discriminate|]. destruct (in_range t (a ÷ b)) eqn:E; [|discriminate]. intros H; injection H as <-. exact E. Qed.

Lemma small_unit t : small_ratio t (r_int 1).
Proof. repeat split; cbn; try apply small_1. lia. Qed.
Lemma r_new_small oc t n d r : small t n -> small t d -> r_new oc t n d = Done r -> small_ratio t r.
Proof.
  intros Hn Hd. unfold r_new, r_reduce. cbn [numer denom]. destruct (d =? 0) eqn:D0; [discriminate|]. apply Z.eqb_neq in D0.
  destruct (n =? 0) eqn:N0; [intros H; injection H as <-; repeat split; cbn; auto using small_0, small_1; lia|]. apply Z.eqb_neq in N0.
  destruct (n =? d) eqn:ND; [intros H; injection H as <-; apply small_unit|]. apply Z.eqb_neq in ND.
  apply small_ok in Hn, Hd. unfold ity_ok in *.
  assert (G : ity_ok t (Z.gcd n d)).
  { pose proof (Z.gcd_nonneg n d). pose proof (imin_le0 t). pose proof (imax_ge127 t).
    assert (Hg : Z.gcd n d <= Z.abs d). { apply Z.divide_pos_le; [lia|]. apply Z.divide_abs_r, Z.gcd_divide_r. }
    assert (Hg' : Z.gcd n d <= Z.abs n). { apply Z.divide_pos_le; [lia|]. apply Z.divide_abs_r, Z.gcd_divide_l. }
    split; [lia|]. destruct (signed t) eqn:S; [apply signed_imin in S|apply unsigned_imin in S; lia].
    destruct (Z.le_gt_cases (Z.gcd n d) (imax t)) as [K|K]; [exact K|]. exfalso. apply ND. lia. }
  unfold r_gcd. rewrite chk_id by exact G. cbn [obind].
  assert (Hg0 : Z.gcd n d <> 0). { intros E. apply Z.gcd_eq_0_r in E. contradiction. }
  destruct (p_div t n (Z.gcd n d)) as [n'|p| |] eqn:E1; cbn [obind]; try discriminate.
  destruct (p_div t d (Z.gcd n d)) as [d'|p| |] eqn:E2; cbn [obind]; try discriminate.
  assert (S1 := small_div _ _ _ _ E1). assert (S2 := small_div _ _ _ _ E2).
  assert (D' : d' <> 0).
  { unfold p_div in E2. destruct (Z.gcd n d =? 0); [discriminate|]. destruct (in_range t _); [|discriminate]. injection E2 as <-. intros E.
    destruct (Z.gcd_divide_r n d) as [k Hk]. rewrite Hk in E at 1. rewrite Z.quot_mul in E by exact Hg0. subst k. lia. }
  destruct (d' <? 0) eqn:Ed.
  - apply Z.ltb_lt in Ed. destruct (p_sub oc t 0 n') as [x|p| |] eqn:E3; cbn [obind]; try discriminate.
    destruct (p_sub oc t 0 d') as [y|p| |] eqn:E4; cbn [obind]; try discriminate. intros H; injection H as <-.
    split; [eapply small_p; exact E3|]. split; [eapply small_p; exact E4|]. cbn [denom]. unfold p_sub, chk in E4. destruct (in_range t (0 - d')) eqn:R.
    + injection E4 as <-. lia.
    + destruct oc; [discriminate|]. injection E4 as <-. intros E. destruct (wrap_congr t (- d')) as [k Hk]. rewrite E in Hk.
      apply small_ok in S2. unfold ity_ok in S2. pose proof (imax_eq t). pose proof (modulus_pos t). pose proof (imax_ge127 t).
      assert (d' = k * modulus t) by lia. assert (- d' <= modulus t - 1) by lia. clear - H0 H2 H3 Ed. assert (k <= -1) by nia. nia.
  - intros H; injection H as <-. repeat split; assumption.
Qed.
Lemma r_mul_small oc t x y r : r_mul oc t x y = Done r -> small_ratio t r.
Proof.
  unfold r_mul. intros H.
  repeat match type of H with (let! _ := ?m in _) = _ => let E := fresh "E" in destruct m eqn:E; cbn [obind] in H; try discriminate H end.
  eapply r_new_small; [| |exact H]; unfold p_mul in *; eapply small_p; eassumption.
Qed.
Lemma r_add_small oc t x y r : small_ratio t y -> r_add oc t x y = Done r -> small_ratio t r.
Proof.
  intros (_ & Hy & _). unfold r_add, r_addsub. destruct (denom x =? denom y).
  - destruct (p_add oc t (numer x) (numer y)) eqn:E; cbn [obind]; try discriminate. intros H. eapply r_new_small; [| |exact H]; [eapply small_p; exact E|exact Hy].
  - intros H.
    repeat match type of H with (let! _ := ?m in _) = _ => let E := fresh "E" in destruct m eqn:E; cbn [obind] in H; try discriminate H end.
    eapply r_new_small; [| |exact H]; [eapply small_p; eassumption|].
    unfold r_lcm in E. destruct ((denom x =? 0) && (denom y =? 0)); [injection E as <-; apply small_0|].
    repeat match type of E with (let! _ := ?m in _) = _ => let E' := fresh "E" in destruct m eqn:E'; cbn [obind] in E; try discriminate E end.
    destruct (signed t); [eapply small_p; exact E|]. injection E as <-. eapply small_p; eassumption.
Qed.

Lemma kept {S : StatValue} (ok : stat_op S -> Prop) (P : val S -> Prop) :
  P (sv_default S) -> (forall b, ok (OBase b) -> P (sv_from_base S b)) ->
  (forall o v w, ok o -> P v -> write_to o v = Done w -> P w) ->
  (forall u v w, P u -> P v -> sv_join S u v = Done w -> P w) ->
  forall h v, operands ok h -> value_of h = Done v -> P v.
Proof.
  intros H0 HB HO HJ. induction h as [|b|h IH o|h IH k IK]; intros v Hok Hv; cbn in Hok, Hv.
  - injection Hv as <-. exact H0.
  - injection Hv as <-. apply HB, Hok.
  - destruct (value_of h) as [u| | |]; cbn [obind] in Hv; try discriminate. destruct Hok as [Hh Ho]. eapply HO; [exact Ho| |exact Hv]. apply IH; auto.
  - destruct (value_of h) as [u| | |]; cbn [obind] in Hv; try discriminate. destruct (value_of k) as [w| | |]; cbn [obind] in Hv; try discriminate.
    destruct Hok as [Hh Hk]. eapply HJ; [| |exact Hv]; [apply IH; auto|apply IK; auto].
Qed.

Lemma q_add_small oc T {M} ok (v w : quad Z M) x : small_quad (i_ty T) ok v -> q_add oc T v x = Done w -> small_quad (i_ty T) ok w.
Proof.
  intros (H1 & H2 & H3 & H4). unfold q_add. destruct (i_add oc T (addend v) x) eqn:E; cbn [obind]; try discriminate. intros H; injection H as <-.
  repeat split; cbn; auto. eapply small_i_add; exact E.
Qed.
Lemma q_min_small t {M} ok (v w : quad Z M) x : small t x -> small_quad t ok v -> q_min v x = Done w -> small_quad t ok w.
Proof. intros Hx (H1 & H2 & H3 & H4) H. injection H as <-. repeat split; cbn; auto using small_i_max. Qed.
Lemma q_max_small t {M} ok (v w : quad Z M) x : small t x -> small_quad t ok v -> q_max v x = Done w -> small_quad t ok w.
Proof. intros Hx (H1 & H2 & H3 & H4) H. injection H as <-. repeat split; cbn; auto using small_i_min. Qed.

Ltac binds H := repeat match type of H with (let! _ := ?m in _) = _ => let E := fresh "E" in destruct m eqn:E; cbn [obind] in H; try discriminate H end.

Lemma built_int oc T (h : history (statInt oc T)) v :
  operands (op_of (S:=statInt oc T) (small (i_ty T)) (small (i_ty T)) (small (i_ty T)) (small (i_ty T))) h -> value_of h = Done v -> small_quad (i_ty T) (small (i_ty T)) v.
Proof.
  apply (kept (S:=statInt oc T)).
  - repeat split; cbn; auto using small_0, small_1, small_min, small_max.
  - intros b Hb. repeat split; cbn; auto using small_0, small_1, small_min, small_max.
  - intros [x|x|x|x|x|x|x] u w Ho Hu; cbn; try (destruct x; fail).
    + apply q_add_small, Hu.
    + intros H; binds H. injection H as <-. destruct Hu as (H1 & H2 & H3 & H4). repeat split; cbn; auto. eapply small_i_mul; eassumption.
    + apply q_min_small; assumption.
    + apply q_max_small; assumption.
    + intros H; injection H as <-. repeat split; cbn; auto using small_0, small_1, small_min, small_max.
  - intros u v' w (A1 & A2 & A3 & A4) (B1 & B2 & B3 & B4); cbn. intros H; binds H. injection H as <-.
    repeat split; cbn; auto using small_i_max, small_i_min; [eapply small_i_add|eapply small_i_mul]; eassumption.
Qed.
Lemma built_pctadd oc T R scale (h : history (statPctAdd oc T R scale)) v :
  operands (op_of (S:=statPctAdd oc T R scale) (small (i_ty T)) (small (i_ty T)) (small (i_ty T)) (small (i_ty T))) h -> value_of h = Done v -> small_quad (i_ty T) (small (i_ty T)) v.
Proof.
  apply (kept (S:=statPctAdd oc T R scale)).
  - repeat split; cbn; auto using small_0, small_1, small_min, small_max.
  - intros b Hb. repeat split; cbn; auto using small_0, small_1, small_min, small_max.
  - intros [x|x|x|x|x|x|x] u w Ho Hu; cbn; try (destruct x; fail).
    + apply q_add_small, Hu.
    + intros H; binds H. injection H as <-. destruct Hu as (H1 & H2 & H3 & H4). repeat split; cbn; auto. eapply small_i_add; eassumption.
    + apply q_min_small; assumption.
    + apply q_max_small; assumption.
    + intros H; injection H as <-. repeat split; cbn; auto using small_0, small_1, small_min, small_max.
  - intros u v' w (A1 & A2 & A3 & A4) (B1 & B2 & B3 & B4); cbn. intros H; binds H. injection H as <-.
    repeat split; cbn; auto using small_i_max, small_i_min; eapply small_i_add; eassumption.
Qed.
Lemma built_fraction oc T R (h : history (statIntFraction oc T R)) v :
  operands (op_of (S:=statIntFraction oc T R) (small (i_ty T)) (small_ratio (i_ty T)) (small (i_ty T)) (small (i_ty T))) h -> value_of h = Done v -> small_quad (i_ty T) (small_ratio (i_ty T)) v.
Proof.
  apply (kept (S:=statIntFraction oc T R)).
  - split; [|split; [|split]]; cbn; auto using small_0, small_1, small_min, small_max, small_unit.
  - intros b Hb. split; [|split; [|split]]; cbn; auto using small_0, small_1, small_min, small_max, small_unit.
  - intros [x|x|x|x|x|x|x] u w Ho Hu; cbn; try (destruct x; fail).
    + apply q_add_small, Hu.
    + intros H; binds H. injection H as <-. destruct Hu as (H1 & H2 & H3 & H4). split; [|split; [|split]]; cbn; auto. eapply r_mul_small; eassumption.
    + apply q_min_small; assumption.
    + apply q_max_small; assumption.
    + intros H; injection H as <-. split; [|split; [|split]]; cbn; auto using small_0, small_1, small_min, small_max, small_unit.
  - intros u v' w (A1 & A2 & A3 & A4) (B1 & B2 & B3 & B4); cbn. intros H; binds H. injection H as <-.
    split; [|split; [|split]]; cbn; auto using small_i_max, small_i_min; [eapply small_i_add|eapply r_mul_small]; eassumption.
Qed.
Lemma built_pct oc T R scale (h : history (statPct oc T R scale)) v :
  operands (op_of (S:=statPct oc T R scale) (small (i_ty T)) (small (i_ty T)) (small (i_ty T)) (small (i_ty T))) h -> value_of h = Done v -> small_quad (i_ty T) (small_ratio (i_ty T)) v.
Proof.
  apply (kept (S:=statPct oc T R scale)).
  - split; [|split; [|split]]; cbn; auto using small_0, small_1, small_min, small_max, small_unit.
  - intros b Hb. split; [|split; [|split]]; cbn; auto using small_0, small_1, small_min, small_max, small_unit.
  - intros [x|x|x|x|x|x|x] u w Ho Hu; cbn; try (destruct x; fail).
    + apply q_add_small, Hu.
    + intros H; binds H. injection H as <-. destruct Hu as (H1 & H2 & H3 & H4). split; [|split; [|split]]; cbn; auto. eapply r_mul_small; eassumption.
    + apply q_min_small; assumption.
    + apply q_max_small; assumption.
    + intros H; injection H as <-. split; [|split; [|split]]; cbn; auto using small_0, small_1, small_min, small_max, small_unit.
  - intros u v' w (A1 & A2 & A3 & A4) (B1 & B2 & B3 & B4); cbn. intros H; binds H. injection H as <-.
    split; [|split; [|split]]; cbn; auto using small_i_max, small_i_min; [eapply small_i_add|eapply r_add_small]; eassumption.
Qed.
Section FM.
  Variables prec emax : Z.
  Context (Hp : Prec_gt_0 prec) (He : Prec_lt_emax prec emax).
  Lemma built_floatmul oc t R (h : history (statIntFloatMul prec emax Hp He oc t R)) v :
    operands (op_of (S:=statIntFloatMul prec emax Hp He oc t R) (small t) (fun _ => True) (small t) (small t)) h -> value_of h = Done v -> small_quad t (fun _ => True) v.
  Proof.
    apply (kept (S:=statIntFloatMul prec emax Hp He oc t R)).
    - repeat split; cbn; auto using small_0, small_1, small_min, small_max.
    - intros b Hb. repeat split; cbn; auto using small_0, small_1, small_min, small_max.
    - intros [x|x|x|x|x|x|x] u w Ho Hu; cbn; try (destruct x; fail).
      + apply (q_add_small oc {| i_ty := t; i_flav := FPrim |}), Hu.
      + intros H; injection H as <-. destruct Hu as (H1 & H2 & H3 & H4). repeat split; cbn; auto.
      + apply q_min_small; assumption.
      + apply q_max_small; assumption.
      + intros H; injection H as <-. repeat split; cbn; auto using small_0, small_1, small_min, small_max.
    - intros u v' w (A1 & A2 & A3 & A4) (B1 & B2 & B3 & B4); cbn. intros H; binds H. injection H as <-.
      repeat split; cbn; auto using small_i_max, small_i_min. apply (small_i_add oc {| i_ty := t; i_flav := FPrim |} _ _ _ E).
  Qed.
End FM.
