(** Totals of the float stats over fractions: what the values hold. *)
From Coq Require Import ZArith Znumtheory QArith Qminmax List Lia Permutation Setoid.
From Verif Require Import M_Outcome M_Ints M_Ratio M_Float M_Value M_Types S_Ratio S_Types S_Totals S_FloatTotals S_FracTotals
  L_Outcome L_Ints L_Ratio L_Round L_RatioQ L_Float L_Totals L_Totals2 L_FracTotals.
Import ListNotations.
Local Open Scope Z_scope.

Lemma is_frac_zero t : is_frac t (qsum []) (r_int 0). Proof. apply (is_frac_int t 0), zero_fits. Qed.
Lemma is_frac_unit t : is_frac t (qproduct []) (r_int 1). Proof. apply (is_frac_int t 1), one_fits. Qed.
Lemma is_frac_sum_app t l l' a b c : is_frac t (qsum l) a -> is_frac t (qsum l') b -> r_add true t a b = Done c -> is_frac t (qsum (l ++ l')) c.
Proof. intros A B H. eapply is_frac_eq; [symmetry; apply qsum_app|]. eapply is_frac_add; eassumption. Qed.
Lemma is_frac_prod_app t l l' a b c : is_frac t (qproduct l) a -> is_frac t (qproduct l') b -> r_mul true t a b = Done c -> is_frac t (qproduct (l ++ l')) c.
Proof. intros A B H. eapply is_frac_eq; [symmetry; apply qproduct_app|]. eapply is_frac_mul; eassumption. Qed.

(** ** Overflow checks on *)
Section Checked.
  Variable t : ity.
  Lemma float_checked (h : history (statFloat (fracF true t))) :
    Forall (reduced t) (gains h same same) -> Forall (reduced t) (factors h same) ->
    forall v, value_of h = Done v ->
    is_frac t (qsum (gains h same same)) (addend v) /\ is_frac t (qproduct (factors h same)) (mult v).
  Proof.
    pose proof (is_frac_zero t) as Z0. pose proof (is_frac_unit t) as O1. unfold gains, factors, same.
    induction h as [|b|h IH o|h IHh k IHk]; intros Fg Ff v Hv; cbn [value_of] in Hv.
    - injection Hv as <-. cbn. auto.
    - injection Hv as <-. cbn [gathered sv_from_base statFloat addend mult] in *. inversion Fg; subst. split; [apply is_frac_sum; assumption|exact O1].
    - apply obind_inv in Hv. destruct Hv as [w [Hw Hv]].
      destruct o as [x|x|[]|[]|x|x|x]; cbn [write_to gathered] in *; rewrite ?app_nil_r in *;
        cbn [sv_add sv_mul sv_min sv_max sv_or sv_not sv_from_base statFloat] in Hv; unfold fq_add, fq_min, fq_max in Hv; one_op; try discriminate;
        try (injection Hv as <-); cbn [addend mult] in *; auto.
      + apply Forall_app in Fg. destruct Fg as [Fg Fx]. inversion Fx; subst. destruct (IH Fg Ff w Hw) as [A M]. split; [|exact M].
        eapply is_frac_sum_app; [exact A|apply is_frac_sum; eassumption|exact E].
      + apply Forall_app in Ff. destruct Ff as [Ff Fx]. inversion Fx; subst. destruct (IH Fg Ff w Hw) as [A M]. split; [exact A|].
        eapply is_frac_prod_app; [exact M|apply is_frac_prod; eassumption|exact E].
      + inversion Fg; subst. split; [apply is_frac_sum; assumption|exact O1].
    - apply obind_inv in Hv. destruct Hv as [w1 [H1 Hv]]. apply obind_inv in Hv. destruct Hv as [w2 [H2 Hv]].
      cbn [gathered sv_join statFloat] in *. one_op. injection Hv as <-. cbn [addend mult].
      apply Forall_app in Fg, Ff. destruct Fg as [Fg1 Fg2], Ff as [Ff1 Ff2].
      destruct (IHh Fg1 Ff1 w1 H1) as [L1 U1], (IHk Fg2 Ff2 w2 H2) as [L2 U2]. split; [eapply is_frac_sum_app|eapply is_frac_prod_app]; eassumption.
  Qed.
  Lemma additive_checked (h : history (statFloatAdditive (fracF true t))) :
    Forall (reduced t) (gains h same same) -> Forall (reduced t) (factors h same) ->
    forall v, value_of h = Done v ->
    is_frac t (qsum (gains h same same)) (addend v) /\ is_frac t (qsum (factors h same)) (mult v).
  Proof.
    pose proof (is_frac_zero t) as Z0. unfold gains, factors, same.
    induction h as [|b|h IH o|h IHh k IHk]; intros Fg Ff v Hv; cbn [value_of] in Hv.
    - injection Hv as <-. cbn. auto.
    - injection Hv as <-. cbn [gathered sv_from_base statFloatAdditive addend mult] in *. inversion Fg; subst. split; [apply is_frac_sum; assumption|exact Z0].
    - apply obind_inv in Hv. destruct Hv as [w [Hw Hv]].
      destruct o as [x|x|[]|[]|x|x|x]; cbn [write_to gathered] in *; rewrite ?app_nil_r in *;
        cbn [sv_add sv_mul sv_min sv_max sv_or sv_not sv_from_base statFloatAdditive] in Hv; unfold fq_add, fq_min, fq_max in Hv; one_op; try discriminate;
        try (injection Hv as <-); cbn [addend mult] in *; auto.
      + apply Forall_app in Fg. destruct Fg as [Fg Fx]. inversion Fx; subst. destruct (IH Fg Ff w Hw) as [A M]. split; [|exact M].
        eapply is_frac_sum_app; [exact A|apply is_frac_sum; eassumption|exact E].
      + apply Forall_app in Ff. destruct Ff as [Ff Fx]. inversion Fx; subst. destruct (IH Fg Ff w Hw) as [A M]. split; [exact A|].
        eapply is_frac_sum_app; [exact M|apply is_frac_sum; eassumption|exact E].
      + inversion Fg; subst. split; [apply is_frac_sum; assumption|exact Z0].
    - apply obind_inv in Hv. destruct Hv as [w1 [H1 Hv]]. apply obind_inv in Hv. destruct Hv as [w2 [H2 Hv]].
      cbn [gathered sv_join statFloatAdditive] in *. one_op. injection Hv as <-. cbn [addend mult].
      apply Forall_app in Fg, Ff. destruct Fg as [Fg1 Fg2], Ff as [Ff1 Ff2].
      destruct (IHh Fg1 Ff1 w1 H1) as [L1 U1], (IHk Fg2 Ff2 w2 H2) as [L2 U2]. split; eapply is_frac_sum_app; eassumption.
  Qed.
  Lemma mult_checked (h : history (statMult (fracF true t))) :
    Forall (reduced t) (scales h same same) -> forall v, value_of h = Done v -> is_frac t (qproduct (scales h same same)) (t_mult v).
  Proof.
    pose proof (is_frac_unit t) as O1. unfold scales, same.
    induction h as [|b|h IH o|h IHh k IHk]; intros Ff v Hv; cbn [value_of] in Hv.
    - injection Hv as <-. cbn. auto.
    - injection Hv as <-. cbn [gathered sv_from_base statMult t_mult] in *. inversion Ff; subst. apply is_frac_prod; assumption.
    - apply obind_inv in Hv. destruct Hv as [w [Hw Hv]].
      destruct o as [[]|x|[]|[]|x|x|x]; cbn [write_to gathered] in *; rewrite ?app_nil_r in *;
        cbn [sv_add sv_mul sv_min sv_max sv_or sv_not sv_from_base statMult] in Hv; one_op; try discriminate;
        try (injection Hv as <-); cbn [t_mult] in *; auto.
      + apply Forall_app in Ff. destruct Ff as [Ff Fx]. inversion Fx; subst. 
        eapply is_frac_prod_app; [apply IH; eassumption|apply is_frac_prod; eassumption|exact E].
      + inversion Ff; subst. apply is_frac_prod; assumption.
    - apply obind_inv in Hv. destruct Hv as [w1 [H1 Hv]]. apply obind_inv in Hv. destruct Hv as [w2 [H2 Hv]].
      cbn [gathered sv_join statMult] in *. one_op. injection Hv as <-. cbn [t_mult].
      apply Forall_app in Ff. destruct Ff as [Ff1 Ff2]. eapply is_frac_prod_app; [apply IHh|apply IHk|]; eassumption.
  Qed.
End Checked.

(** ** Room for the sums and products *)
Lemma scaled_app D l l' : scaled D (l ++ l') = scaled D l ++ scaled D l'. Proof. apply map_app. Qed.
Lemma adds_over_app t D l l' : adds_over t D (l ++ l') -> adds_over t D l /\ adds_over t D l'.
Proof.
  intros (H1 & H2 & H3). apply Forall_app in H2. rewrite scaled_app, room_app in H3.
  pose proof (room_nonneg (scaled D l)). pose proof (room_nonneg (scaled D l')). unfold adds_over. intuition lia.
Qed.
Lemma abs_sum_room l : Z.abs (sum l) <= room l.
Proof. induction l as [|x l IH]; [reflexivity|]. rewrite room_cons. change (sum (x :: l)) with (x + sum l). lia. Qed.
Lemma room_abs_in x l : In x l -> Z.abs x <= room l.
Proof. induction l as [|y l IH]; [intros []|]. rewrite room_cons. pose proof (room_nonneg l). intros [->|Hx]; [lia|]. specialize (IH Hx). lia. Qed.

Lemma qsum_scaled D l : 0 < D -> Forall (fun r => 0 < denom r) l -> Forall (fun r => (denom r | D)) l ->
  (qsum l == Qmake (sum (scaled D l)) (Z.to_pos D))%Q.
Proof.
  intros HD Hp Hd. induction l as [|r l IH]; [unfold Qeq; cbn; lia|].
  inversion Hp; inversion Hd; subst. rewrite qsum_cons, IH by assumption.
  change (sum (scaled D (r :: l))) with (numer r * (D / denom r) + sum (scaled D l)).
  assert (E : D = denom r * (D / denom r)) by (apply Z_div_exact_full_2; [lia|]; apply Z.mod_divide; [lia|assumption]).
  set (k := D / denom r) in *. set (s := sum (scaled D l)).
  unfold toQ, Qeq, Qplus. cbn [Qnum Qden]. rewrite Pos2Z.inj_mul, !Z2Pos.id by lia.
  assert (E' : numer r * D = numer r * k * denom r) by (rewrite E at 1; ring). rewrite E'. ring.
Qed.

(** A reduced fraction equal to [n/D] divides it. *)
Lemma is_frac_over t a n D : 0 < D -> is_frac t (Qmake n (Z.to_pos D)) a -> exists k, 0 < k /\ D = k * denom a /\ n = k * numer a.
Proof.
  intros HD [[[Hn Hd] Hg] E]. unfold toQ, Qeq in E. cbn [Qnum Qden] in E. rewrite !Z2Pos.id in E by lia.
  assert (Dv : (denom a | D)).
  { apply Z.gauss with (numer a); [exists n; lia|]. rewrite Z.gcd_comm. exact Hg. }
  destruct Dv as [k Hk]. exists k. split; [nia|]. split; [exact Hk|]. subst D. nia.
Qed.

Lemma p_quot t a b k : 0 < b -> 0 < k -> a = k * b -> ity_ok t a -> p_div t a b = Done k.
Proof. intros Hb Hk -> Ha. rewrite p_div_ok by assumption. rewrite Z.quot_mul by lia. reflexivity. Qed.

(** Addition succeeds over a common denominator with room for the numerators. *)
Lemma add_over t D x y kx ky : reduced t x -> reduced t y -> 0 < D <= imax t ->
  0 < kx -> 0 < ky -> D = kx * denom x -> D = ky * denom y ->
  Z.abs (numer x * kx) + Z.abs (numer y * ky) <= imax t -> (signed t = false -> 0 <= numer x /\ 0 <= numer y) ->
  exists z, r_add true t x y = Done z.
Proof.
  intros [[Hxn Hxd] _] [[Hyn Hyd] _] HD Hkx Hky Ex Ey Hs Hu. destruct x as [n1 d1], y as [n2 d2]. cbn [numer denom] in *.
  unfold r_add, r_addsub. cbn [numer denom]. pose proof (imin_le0 t) as I0.
  destruct (Z.eqb_spec d1 d2) as [->|Hne].
  - assert (kx = ky) by nia. subst ky. unfold p_add. rewrite chk_id.
    + cbn [obind]. destruct (r_reduce_positive t (Frac (n1 + n2) d2) true) as (z & Hz & _); [|exact Hyd|exists z; exact Hz].
      cbn [numer]. apply fits_by_size; [nia|]. intros U. destruct (Hu U). lia.
    + apply fits_by_size; [nia|]. intros U. destruct (Hu U). lia.
  - assert (Rd1 : ity_ok t d1) by (unfold ity_ok; lia). assert (Rd2 : ity_ok t d2) by (unfold ity_ok; lia).
    pose proof (lcm_divides d1 d2 ltac:(lia) ltac:(lia)) as (D1 & D2 & Pl).
    set (l := d1 * Z.quot d2 (Z.gcd d1 d2)) in *.
    assert (LD : (l | D)).
    { pose proof (gcd_pos_r d1 d2 ltac:(lia)) as G.
      pose proof (quot_exact d2 (Z.gcd d1 d2) ltac:(lia) (Z.gcd_divide_r d1 d2)) as E2.
      pose proof (quot_exact d1 (Z.gcd d1 d2) ltac:(lia) (Z.gcd_divide_l d1 d2)) as E1.
      assert (E : Z.lcm d1 d2 = l).
      { unfold Z.lcm. rewrite Z.abs_eq.
        - unfold l. rewrite Z.quot_div_nonneg by lia. reflexivity.
        - apply Z.mul_nonneg_nonneg; [lia|]. apply Z.div_pos; lia. }
      rewrite <- E. apply Z.lcm_least; [exists kx|exists ky]; assumption. }
    destruct LD as [j Hj]. assert (Hj0 : 0 < j) by nia. assert (Hl : l <= D) by nia.
    assert (EL : r_lcm true t d1 d2 = Done l).
    { unfold r_lcm. destruct (Z.eqb_spec d1 0); [lia|]. cbn [andb].
      pose proof (gcd_pos_r d1 d2 ltac:(lia)). pose proof (gcd_le_r d1 d2 ltac:(lia)).
      unfold r_gcd. rewrite chk_id by (unfold ity_ok; lia). cbn [obind]. rewrite p_div_ok by assumption. cbn [obind].
      unfold p_mul. fold l. rewrite chk_id by (unfold ity_ok; lia). cbn [obind].
      destruct (signed t); [|reflexivity]. unfold p_abs. rewrite chk_id by (unfold ity_ok; lia). rewrite Z.abs_eq by lia. reflexivity. }
    rewrite EL. cbn [obind]. destruct D1 as [q1 Q1], D2 as [q2 Q2].
    assert (0 < q1) by nia. assert (0 < q2) by nia.
    rewrite (p_quot t l d1 q1) by (unfold ity_ok; lia || assumption). cbn [obind].
    assert (kx = j * q1) by nia. assert (ky = j * q2) by nia. subst kx ky.
    assert (B1 : Z.abs (n1 * q1) <= Z.abs (n1 * (j * q1))) by (rewrite !Z.abs_mul; rewrite (Z.abs_eq j), (Z.abs_eq q1) by lia; nia).
    assert (B2 : Z.abs (n2 * q2) <= Z.abs (n2 * (j * q2))) by (rewrite !Z.abs_mul; rewrite (Z.abs_eq j), (Z.abs_eq q2) by lia; nia).
    unfold p_mul. rewrite chk_id by (apply fits_by_size; [lia|intros U; destruct (Hu U); nia]). cbn [obind].
    rewrite (p_quot t l d2 q2) by (unfold ity_ok; lia || assumption). cbn [obind].
    rewrite chk_id by (apply fits_by_size; [lia|intros U; destruct (Hu U); nia]). cbn [obind].
    unfold p_add. assert (Hf : ity_ok t (n1 * q1 + n2 * q2)) by (apply fits_by_size; [lia|intros U; destruct (Hu U); nia]).
    rewrite chk_id by exact Hf. cbn [obind].
    destruct (r_reduce_positive t (Frac (n1 * q1 + n2 * q2) l) true Hf ltac:(cbn [denom]; lia)) as (z & Hz & _). exists z. exact Hz.
Qed.

Lemma unsigned_numer t x : signed t = false -> reduced t x -> 0 <= numer x.
Proof. intros U [[Hn _] _]. rewrite unsigned_imin in Hn by exact U. lia. Qed.
Lemma all_pos t l : Forall (reduced t) l -> Forall (fun r => 0 < denom r) l.
Proof. intros H. eapply Forall_impl; [|exact H]. intros r [[_ Hd] _]. lia. Qed.

Lemma sums_fit oc t D l l' a b : Forall (reduced t) (l ++ l') -> adds_over t D (l ++ l') ->
  is_frac t (qsum l) a -> is_frac t (qsum l') b -> exists z, r_add oc t a b = Done z /\ is_frac t (qsum (l ++ l')) z.
Proof.
  intros F HA A B. pose proof F as F0. apply Forall_app in F. destruct F as [F F'].
  destruct (adds_over_app _ _ _ _ HA) as [(HD & Hd & _) (_ & Hd' & _)]. destruct HA as (_ & _ & Hr). rewrite scaled_app, room_app in Hr.
  pose proof (abs_sum_room (scaled D l)). pose proof (abs_sum_room (scaled D l')).
  destruct (is_frac_over t a (sum (scaled D l)) D ltac:(lia)) as (kx & K1 & K2 & K3).
  { eapply is_frac_eq; [apply qsum_scaled; [lia|eapply all_pos; eassumption|assumption]|exact A]. }
  destruct (is_frac_over t b (sum (scaled D l')) D ltac:(lia)) as (ky & K1' & K2' & K3').
  { eapply is_frac_eq; [apply qsum_scaled; [lia|eapply all_pos; eassumption|assumption]|exact B]. }
  destruct (add_over t D a b kx ky (proj1 A) (proj1 B) HD K1 K1' K2 K2') as [z Hz].
  - rewrite (Z.mul_comm _ kx), (Z.mul_comm _ ky), <- K3, <- K3'. lia.
  - intros U. split; eapply unsigned_numer; [exact U|apply A|exact U|apply B].
  - exists z. split; [apply r_add_mono; exact Hz|]. eapply is_frac_sum_app; eassumption.
Qed.

Lemma qproduct_over l : Forall (fun r => 0 < denom r) l -> 0 < under l /\ (qproduct l == Qmake (over l) (Z.to_pos (under l)))%Q.
Proof.
  intros H. induction H as [|r l Hr _ [P IH]]; [split; reflexivity|].
  change (under (r :: l)) with (denom r * under l). change (over (r :: l)) with (numer r * over l). split; [nia|].
  rewrite qproduct_cons, IH. unfold toQ, Qeq, Qmult. cbn [Qnum Qden]. rewrite Pos2Z.inj_mul, !Z2Pos.id by nia. reflexivity.
Qed.
Lemma is_frac_multiplies t l m : Forall (reduced t) l -> is_frac t (qproduct l) m <-> multiplies t l m.
Proof.
  intros F. destruct (qproduct_over l (all_pos t l F)) as [P E]. unfold is_frac, multiplies. rewrite E. split; intros [R H]; (split; [exact R|]);
    pose proof (reduced_pos t m R); unfold toQ, Qeq in *; cbn [Qnum Qden] in *; rewrite !Z2Pos.id in * by assumption; exact H.
Qed.
Lemma products_fit oc t l l' a b : Forall (reduced t) (l ++ l') -> room_frac (l ++ l') <= imax t ->
  is_frac t (qproduct l) a -> is_frac t (qproduct l') b -> exists z, r_mul oc t a b = Done z /\ is_frac t (qproduct (l ++ l')) z.
Proof.
  intros F Hr A B. pose proof F as F0. apply Forall_app in F. destruct F as [F F'].
  apply (is_frac_multiplies t l a F) in A. apply (is_frac_multiplies t l' b F') in B.
  destruct (multiplies_fits oc t l l' a b F0 Hr A B) as (z & Hz & M). exists z. split; [exact Hz|]. apply is_frac_multiplies; assumption.
Qed.

Section Fits.
  Variables (oc : bool) (t : ity).
  Lemma float_fits D (h : history (statFloat (fracF oc t))) : steady h ->
    Forall (reduced t) (gains h same same) -> Forall (reduced t) (factors h same) ->
    adds_over t D (gains h same same) -> room_frac (factors h same) <= imax t ->
    exists v, value_of h = Done v /\ is_frac t (qsum (gains h same same)) (addend v) /\ is_frac t (qproduct (factors h same)) (mult v).
  Proof.
    pose proof (is_frac_zero t) as Z0. pose proof (is_frac_unit t) as O1. unfold gains, factors, same.
    induction h as [|b|h IH o|h IHh k IHk]; intros St Fg Ff Rg Rf; cbn [value_of].
    - eexists. split; [reflexivity|]. cbn. auto.
    - eexists. split; [reflexivity|]. cbn [gathered sv_from_base statFloat addend mult] in *. inversion Fg; subst. split; [apply is_frac_sum; assumption|exact O1].
    - destruct St as [St So].
      destruct o as [x|x|[]|[]|x|x|x]; try destruct So; cbn [gathered] in *; rewrite ?app_nil_r in *.
      + pose proof Fg as F. apply Forall_app in Fg. destruct Fg as [Fg Fx]. inversion Fx; subst.
        destruct (IH St Fg Ff (proj1 (adds_over_app _ _ _ _ Rg)) Rf) as (w & -> & A & M). cbn [obind write_to sv_add statFloat]. unfold fq_add.
        destruct (sums_fit oc t D _ _ _ _ F Rg A (is_frac_sum t x ltac:(assumption))) as (z & Hz & Az).
        cbn [f_add fracF]. rewrite Hz. cbn [obind]. eexists. split; [reflexivity|]. split; assumption.
      + pose proof Ff as F. apply Forall_app in Ff. destruct Ff as [Ff Fx]. inversion Fx; subst.
        destruct (IH St Fg Ff Rg (room_frac_le_l t _ _ _ F Rf)) as (w & -> & A & M). cbn [obind write_to sv_mul statFloat].
        destruct (products_fit oc t _ _ _ _ F Rf M (is_frac_prod t x ltac:(assumption))) as (z & Hz & Az).
        cbn [f_mul fracF]. rewrite Hz. cbn [obind]. eexists. split; [reflexivity|]. split; assumption.
      + destruct (IH St Fg Ff Rg Rf) as (w & -> & A & M). eexists. split; [reflexivity|]. split; assumption.
      + destruct (IH St Fg Ff Rg Rf) as (w & -> & A & M). eexists. split; [reflexivity|]. split; assumption.
    - destruct St as [Sh Sk]. cbn [gathered] in *. pose proof Fg as FG. pose proof Ff as FF.
      apply Forall_app in Fg, Ff. destruct Fg as [Fg1 Fg2], Ff as [Ff1 Ff2].
      destruct (IHh Sh Fg1 Ff1 (proj1 (adds_over_app _ _ _ _ Rg)) (room_frac_le_l t _ _ _ FF Rf)) as (w1 & -> & A1 & M1).
      destruct (IHk Sk Fg2 Ff2 (proj2 (adds_over_app _ _ _ _ Rg)) (room_frac_le_r t _ _ _ FF Rf)) as (w2 & -> & A2 & M2).
      cbn [obind sv_join statFloat f_add f_mul fracF].
      destruct (sums_fit oc t D _ _ _ _ FG Rg A1 A2) as (z & -> & Az). destruct (products_fit oc t _ _ _ _ FF Rf M1 M2) as (y & -> & Ay).
      cbn [obind]. eexists. split; [reflexivity|]. split; assumption.
  Qed.
  Lemma additive_fits D D' (h : history (statFloatAdditive (fracF oc t))) : steady h ->
    Forall (reduced t) (gains h same same) -> Forall (reduced t) (factors h same) ->
    adds_over t D (gains h same same) -> adds_over t D' (factors h same) ->
    exists v, value_of h = Done v /\ is_frac t (qsum (gains h same same)) (addend v) /\ is_frac t (qsum (factors h same)) (mult v).
  Proof.
    pose proof (is_frac_zero t) as Z0. unfold gains, factors, same.
    induction h as [|b|h IH o|h IHh k IHk]; intros St Fg Ff Rg Rf; cbn [value_of].
    - eexists. split; [reflexivity|]. cbn. auto.
    - eexists. split; [reflexivity|]. cbn [gathered sv_from_base statFloatAdditive addend mult] in *. inversion Fg; subst. split; [apply is_frac_sum; assumption|exact Z0].
    - destruct St as [St So].
      destruct o as [x|x|[]|[]|x|x|x]; try destruct So; cbn [gathered] in *; rewrite ?app_nil_r in *.
      + pose proof Fg as F. apply Forall_app in Fg. destruct Fg as [Fg Fx]. inversion Fx; subst.
        destruct (IH St Fg Ff (proj1 (adds_over_app _ _ _ _ Rg)) Rf) as (w & -> & A & M). cbn [obind write_to sv_add statFloatAdditive]. unfold fq_add.
        destruct (sums_fit oc t D _ _ _ _ F Rg A (is_frac_sum t x ltac:(assumption))) as (z & Hz & Az).
        cbn [f_add fracF]. rewrite Hz. cbn [obind]. eexists. split; [reflexivity|]. split; assumption.
      + pose proof Ff as F. apply Forall_app in Ff. destruct Ff as [Ff Fx]. inversion Fx; subst.
        destruct (IH St Fg Ff Rg (proj1 (adds_over_app _ _ _ _ Rf))) as (w & -> & A & M). cbn [obind write_to sv_mul statFloatAdditive].
        destruct (sums_fit oc t D' _ _ _ _ F Rf M (is_frac_sum t x ltac:(assumption))) as (z & Hz & Az).
        cbn [f_add fracF]. rewrite Hz. cbn [obind]. eexists. split; [reflexivity|]. split; assumption.
      + destruct (IH St Fg Ff Rg Rf) as (w & -> & A & M). eexists. split; [reflexivity|]. split; assumption.
      + destruct (IH St Fg Ff Rg Rf) as (w & -> & A & M). eexists. split; [reflexivity|]. split; assumption.
    - destruct St as [Sh Sk]. cbn [gathered] in *. pose proof Fg as FG. pose proof Ff as FF.
      apply Forall_app in Fg, Ff. destruct Fg as [Fg1 Fg2], Ff as [Ff1 Ff2].
      destruct (IHh Sh Fg1 Ff1 (proj1 (adds_over_app _ _ _ _ Rg)) (proj1 (adds_over_app _ _ _ _ Rf))) as (w1 & -> & A1 & M1).
      destruct (IHk Sk Fg2 Ff2 (proj2 (adds_over_app _ _ _ _ Rg)) (proj2 (adds_over_app _ _ _ _ Rf))) as (w2 & -> & A2 & M2).
      cbn [obind sv_join statFloatAdditive f_add fracF].
      destruct (sums_fit oc t D _ _ _ _ FG Rg A1 A2) as (z & -> & Az). destruct (sums_fit oc t D' _ _ _ _ FF Rf M1 M2) as (y & Hy & Ay).
      cbn [obind]. rewrite Hy. cbn [obind]. eexists. split; [reflexivity|]. split; assumption.
  Qed.
  Lemma mult_fits (h : history (statMult (fracF oc t))) : steady h ->
    Forall (reduced t) (scales h same same) -> room_frac (scales h same same) <= imax t ->
    exists v, value_of h = Done v /\ is_frac t (qproduct (scales h same same)) (t_mult v).
  Proof.
    pose proof (is_frac_unit t) as O1. unfold scales, same.
    induction h as [|b|h IH o|h IHh k IHk]; intros St Ff Rf; cbn [value_of].
    - eexists. split; [reflexivity|]. cbn. auto.
    - eexists. split; [reflexivity|]. cbn [gathered sv_from_base statMult t_mult] in *. inversion Ff; subst. apply is_frac_prod; assumption.
    - destruct St as [St So].
      destruct o as [[]|x|[]|[]|x|x|x]; try destruct So; cbn [gathered] in *; rewrite ?app_nil_r in *.
      + pose proof Ff as F. apply Forall_app in Ff. destruct Ff as [Ff Fx]. inversion Fx; subst.
        destruct (IH St Ff (room_frac_le_l t _ _ _ F Rf)) as (w & -> & M). cbn [obind write_to sv_mul statMult].
        destruct (products_fit oc t _ _ _ _ F Rf M (is_frac_prod t x ltac:(assumption))) as (z & Hz & Az).
        cbn [f_mul fracF]. rewrite Hz. cbn [obind]. eexists. split; [reflexivity|]. assumption.
      + destruct (IH St Ff Rf) as (w & -> & M). eexists. split; [reflexivity|]. assumption.
      + destruct (IH St Ff Rf) as (w & -> & M). eexists. split; [reflexivity|]. assumption.
    - destruct St as [Sh Sk]. cbn [gathered] in *. pose proof Ff as FF.
      apply Forall_app in Ff. destruct Ff as [Ff1 Ff2].
      destruct (IHh Sh Ff1 (room_frac_le_l t _ _ _ FF Rf)) as (w1 & -> & M1).
      destruct (IHk Sk Ff2 (room_frac_le_r t _ _ _ FF Rf)) as (w2 & -> & M2).
      cbn [obind sv_join statMult f_mul fracF].
      destruct (products_fit oc t _ _ _ _ FF Rf M1 M2) as (y & Hy & Ay). rewrite Hy.
      cbn [obind]. eexists. split; [reflexivity|]. assumption.
  Qed.
End Fits.
