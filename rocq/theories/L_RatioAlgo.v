(** The algorithms compute what [M_Ratio] says. *)
From Coq Require Import ZArith QArith List Bool Lia Znumtheory.
From Verif Require Import M_Outcome M_Ints M_Ratio M_RatioAlgo S_Ratio L_Outcome L_Ints L_Ratio L_Round L_RatioQ.
Local Open Scope Z_scope.

(** ** Trailing zeros *)
Lemma tz_pos_nonneg p : 0 <= tz_pos p.
Proof. induction p; cbn [tz_pos]; lia. Qed.
Lemma tz_nonneg z : 0 <= tz z.
Proof. destruct z; cbn [tz]; try lia; apply tz_pos_nonneg. Qed.
Lemma tz_pos_spec p : exists o, Zpos p = Zpos o * 2 ^ tz_pos p /\ Z.odd (Zpos o) = true.
Proof.
  induction p as [p IH | p IH |]; cbn [tz_pos].
  - exists (xI p). split; [rewrite Z.pow_0_r; lia | reflexivity].
  - destruct IH as (o & E & Ho). exists o. split; [|exact Ho].
    rewrite Z.pow_add_r by (try lia; apply tz_pos_nonneg). change (2 ^ 1) with 2.
    rewrite Pos2Z.inj_xO, E. ring.
  - exists xH. split; reflexivity.
Qed.
Lemma tz_spec z : z <> 0 -> z = strip z * 2 ^ tz z /\ Z.odd (strip z) = true.
Proof.
  intros Hz. unfold strip. rewrite Z.shiftr_div_pow2 by apply tz_nonneg.
  assert (P2 : 0 < 2 ^ tz z) by (apply Z.pow_pos_nonneg; [lia | apply tz_nonneg]).
  assert (H : exists o, z = o * 2 ^ tz z /\ Z.odd o = true).
  { destruct z as [| p | p]; [lia | |]; destruct (tz_pos_spec p) as (o & E & Ho).
    - exists (Zpos o). split; assumption.
    - exists (Zneg o). cbn [tz]. split.
      + change (Zneg p) with (- Zpos p). rewrite E at 1. change (Zneg o) with (- Zpos o). ring.
      + change (Zneg o) with (- Zpos o). rewrite Z.odd_opp. exact Ho. }
  destruct H as (o & E & Ho).
  assert (D : z / 2 ^ tz z = o) by (rewrite E at 1; apply Z.div_mul; lia).
  rewrite D. split; assumption.
Qed.
Lemma strip_pos z : 0 < z -> 0 < strip z.
Proof.
  intros H. destruct (tz_spec z ltac:(lia)) as [E _].
  assert (P2 : 0 < 2 ^ tz z) by (apply Z.pow_pos_nonneg; [lia | apply tz_nonneg]). nia.
Qed.
Lemma tz_bits z : z <> 0 -> Z.testbit z (tz z) = true /\ (forall i, 0 <= i < tz z -> Z.testbit z i = false).
Proof.
  intros Hz. destruct (tz_spec z Hz) as [E O]. pose proof (tz_nonneg z) as N. split.
  - rewrite E at 1. rewrite Z.mul_pow2_bits by exact N. rewrite Z.sub_diag, Z.bit0_odd. exact O.
  - intros i Hi. rewrite E at 1. apply Z.mul_pow2_bits_low. lia.
Qed.
Lemma tz_unique z k : z <> 0 -> 0 <= k -> Z.testbit z k = true -> (forall i, 0 <= i < k -> Z.testbit z i = false) -> tz z = k.
Proof.
  intros Hz Hk Hb Hl. destruct (tz_bits z Hz) as [B L]. pose proof (tz_nonneg z).
  destruct (Z.lt_trichotomy (tz z) k) as [H1 | [H1 | H1]]; [| exact H1 |].
  - rewrite Hl in B by lia. discriminate.
  - rewrite L in Hb by lia. discriminate.
Qed.
Lemma lor_nonzero a b : a <> 0 -> Z.lor a b <> 0.
Proof. intros H E. apply Z.lor_eq_0_iff in E. tauto. Qed.
Lemma tz_lor a b : a <> 0 -> b <> 0 -> tz (Z.lor a b) = Z.min (tz a) (tz b).
Proof.
  intros Ha Hb. pose proof (tz_nonneg a). pose proof (tz_nonneg b).
  destruct (tz_bits a Ha) as [Ba La]. destruct (tz_bits b Hb) as [Bb Lb].
  apply tz_unique; [apply lor_nonzero, Ha | lia | |].
  - rewrite Z.lor_spec. destruct (Z.min_spec (tz a) (tz b)) as [[_ ->] | [_ ->]].
    + rewrite Ba. reflexivity.
    + rewrite Bb. apply orb_true_r.
  - intros i Hi. rewrite Z.lor_spec, La, Lb by lia. reflexivity.
Qed.
Lemma tz_abs z : tz (Z.abs z) = tz z.
Proof. destruct z; reflexivity. Qed.

(** ** gcd *)
Lemma odd_rel_prime_pow2 o k : Z.odd o = true -> 0 <= k -> rel_prime o (2 ^ k).
Proof.
  intros O Hk. revert k Hk. apply natlike_ind.
  - rewrite Z.pow_0_r. apply rel_prime_sym, rel_prime_1.
  - intros k Hk IH. rewrite Z.pow_succ_r by exact Hk. apply rel_prime_mult; [|exact IH].
    apply Zgcd_1_rel_prime. rewrite (Z.odd_spec o) in O. destruct O as [c ->].
    rewrite Z.gcd_comm. replace (2 * c + 1) with (1 + c * 2) by ring.
    rewrite Z.gcd_add_mult_diag_r. reflexivity.
Qed.
Lemma gcd_pow2_r x k n : Z.odd n = true -> 0 <= k -> Z.gcd n (2 ^ k * x) = Z.gcd n x.
Proof.
  intros O Hk. apply Z.divide_antisym_nonneg; try apply Z.gcd_nonneg.
  - apply Z.gcd_greatest; [apply Z.gcd_divide_l|].
    apply (Gauss _ (2 ^ k)); [apply Z.gcd_divide_r|].
    apply (rel_prime_div n); [apply odd_rel_prime_pow2; assumption | apply Z.gcd_divide_l].
  - apply Z.gcd_greatest; [apply Z.gcd_divide_l|]. apply Z.divide_mul_r, Z.gcd_divide_r.
Qed.
Lemma gcd_strip_r n x : Z.odd n = true -> x <> 0 -> Z.gcd n (strip x) = Z.gcd n x.
Proof.
  intros O Hx. destruct (tz_spec x Hx) as [E _].
  rewrite E at 2. rewrite Z.mul_comm. symmetry. apply gcd_pow2_r; [exact O | apply tz_nonneg].
Qed.
Lemma gcd_strips a b : a <> 0 -> b <> 0 ->
  Z.gcd a b = Z.gcd (strip a) (strip b) * 2 ^ Z.min (tz a) (tz b).
Proof.
  intros Ha Hb. destruct (tz_spec a Ha) as [Ea Oa]. destruct (tz_spec b Hb) as [Eb Ob].
  pose proof (tz_nonneg a) as Na. pose proof (tz_nonneg b) as Nb.
  assert (forall k o1 o2, 0 <= k -> Z.odd o1 = true -> 0 <= o2 ->
     Z.gcd (o1 * 2 ^ k) (strip b * 2 ^ (o2 + k)) = Z.gcd o1 (strip b) * 2 ^ k) as L.
  { intros k o1 o2 Hk Ho Hd. rewrite Z.pow_add_r, Z.mul_assoc by lia.
    rewrite Z.gcd_mul_mono_r, Z.abs_eq by (apply Z.pow_nonneg; lia).
    rewrite (Z.mul_comm (strip b)), gcd_pow2_r by assumption. reflexivity. }
  assert (forall k o1 o2, 0 <= k -> Z.odd o1 = true -> 0 <= o2 ->
     Z.gcd (strip a * 2 ^ (o2 + k)) (o1 * 2 ^ k) = Z.gcd (strip a) o1 * 2 ^ k) as R.
  { intros k o1 o2 Hk Ho Hd. rewrite Z.pow_add_r, Z.mul_assoc by lia.
    rewrite Z.gcd_mul_mono_r, Z.abs_eq by (apply Z.pow_nonneg; lia).
    rewrite (Z.mul_comm (strip a)), Z.gcd_comm, gcd_pow2_r by assumption. rewrite Z.gcd_comm. reflexivity. }
  rewrite Ea at 1. rewrite Eb at 1.
  destruct (Z.min_spec (tz a) (tz b)) as [[H ->] | [H ->]].
  - replace (tz b) with ((tz b - tz a) + tz a) by ring. apply L; [exact Na | exact Oa | lia].
  - replace (tz a) with ((tz a - tz b) + tz b) at 1 by ring. apply R; [exact Nb | exact Ob | lia].
Qed.

Lemma odd_sub_even m n : Z.odd m = true -> Z.odd n = true -> Z.odd (m - n) = false.
Proof. intros A B. rewrite Z.odd_sub, A, B. reflexivity. Qed.
Lemma strip_even_half z : 0 < z -> Z.odd z = false -> 2 * strip z <= z.
Proof.
  intros H O. destruct (tz_spec z ltac:(lia)) as [E Oz]. pose proof (tz_nonneg z) as N.
  assert (K : tz z <> 0).
  { intros K. rewrite K, Z.pow_0_r, Z.mul_1_r in E. rewrite <- E in Oz. congruence. }
  assert (P : 2 ^ tz z = 2 * 2 ^ (tz z - 1)) by (rewrite <- Z.pow_succ_r by lia; f_equal; lia).
  assert (0 < 2 ^ (tz z - 1)) by (apply Z.pow_pos_nonneg; lia).
  pose proof (strip_pos z H). rewrite E at 2. rewrite P. nia.
Qed.

(** Each round at least halves one of the numbers, and nothing overflows. *)
Lemma gcd_loop_ok oc t fuel : forall a b m n,
  (a + b < fuel)%nat -> 0 < m <= imax t -> 0 < n <= imax t -> m < 2 ^ Z.of_nat a -> n < 2 ^ Z.of_nat b ->
  Z.odd m = true -> Z.odd n = true ->
  gcd_loop oc t fuel m n = Done (Z.gcd m n).
Proof.
  induction fuel as [| f IH]; intros a b m n Hf Hm Hn Ha Hb Om On; [lia|].
  cbn [gcd_loop]. destruct (Z.eqb_spec m n) as [-> | Hne].
  { rewrite Z.gcd_diag, Z.abs_eq by lia. reflexivity. }
  assert (IM : imin t <= 0) by (unfold imin; destruct (signed t); [pose proof (Z.pow_nonneg 2 (bits t - 1)) |]; lia).
  destruct (Z.ltb_spec n m) as [H | H].
  - unfold p_sub. rewrite chk_id by (unfold ity_ok; lia). cbn [obind].
    pose proof (strip_even_half (m - n) ltac:(lia) (odd_sub_even m n Om On)) as HH.
    pose proof (strip_pos (m - n) ltac:(lia)).
    destruct a as [| a]; [rewrite Z.pow_0_r in Ha; lia|].
    rewrite Nat2Z.inj_succ, Z.pow_succ_r in Ha by lia.
    rewrite (IH a b); try lia.
    + f_equal. rewrite Z.gcd_comm, gcd_strip_r by (try assumption; lia).
      replace (m - n) with (m + (-1) * n) by ring. rewrite Z.gcd_add_mult_diag_r. apply Z.gcd_comm.
    + apply (tz_spec (m - n)). lia.
    + exact On.
  - unfold p_sub. rewrite chk_id by (unfold ity_ok; lia). cbn [obind].
    pose proof (strip_even_half (n - m) ltac:(lia) (odd_sub_even n m On Om)) as HH.
    pose proof (strip_pos (n - m) ltac:(lia)).
    destruct b as [| b]; [rewrite Z.pow_0_r in Hb; lia|].
    rewrite Nat2Z.inj_succ, Z.pow_succ_r in Hb by lia.
    rewrite (IH a b); try lia.
    + f_equal. rewrite gcd_strip_r by (try assumption; lia).
      replace (n - m) with (n + (-1) * m) by ring. rewrite Z.gcd_add_mult_diag_r. reflexivity.
    + exact Om.
    + apply (tz_spec (n - m)). lia.
Qed.

Lemma strip_le z : 0 < z -> strip z <= z.
Proof.
  intros H. destruct (tz_spec z ltac:(lia)) as [E _]. pose proof (tz_nonneg z) as N.
  assert (0 < 2 ^ tz z) by (apply Z.pow_pos_nonneg; lia). pose proof (strip_pos z H). nia.
Qed.
Lemma bits_pos t : 0 < bits t - 1.
Proof. destruct t; reflexivity. Qed.
Lemma imax_lt t : imax t < 2 ^ bits t.
Proof.
  unfold imax. destruct (signed t); [|lia].
  assert (2 ^ (bits t - 1) < 2 ^ bits t) by (apply Z.pow_lt_mono_r; pose proof (bits_pos t); lia). lia.
Qed.
Lemma imin_signed t : signed t = true -> imin t = - 2 ^ (bits t - 1).
Proof. intros H. unfold imin. rewrite H. reflexivity. Qed.
Lemma tz_pow2 k : 0 <= k -> tz (2 ^ k) = k.
Proof.
  intros H. apply tz_unique; [pose proof (Z.pow_pos_nonneg 2 k); lia | exact H | |].
  - apply Z.pow2_bits_true, H.
  - intros i Hi. apply Z.pow2_bits_false. lia.
Qed.
Lemma tz_opp z : tz (- z) = tz z.
Proof. destruct z; reflexivity. Qed.
Lemma strip_pow2 k : 0 <= k -> strip (- 2 ^ k) = -1.
Proof.
  intros H. assert (0 < 2 ^ k) by (apply Z.pow_pos_nonneg; lia).
  destruct (tz_spec (- 2 ^ k) ltac:(lia)) as [E _].
  rewrite tz_opp, tz_pow2 in E by exact H. nia.
Qed.

Lemma gcd_min_l k b : 0 <= k -> b <> 0 -> Z.gcd (- 2 ^ k) b = 2 ^ tz (Z.lor (- 2 ^ k) b).
Proof.
  intros Hk Hb. assert (0 < 2 ^ k) by (apply Z.pow_pos_nonneg; lia).
  rewrite gcd_strips, tz_lor by lia. rewrite strip_pow2 by exact Hk.
  change (-1) with (- (1)). rewrite Z.gcd_opp_l, Z.gcd_1_l. ring.
Qed.

Lemma stein_ok oc t a b : ity_ok t a -> ity_ok t b -> stein oc t a b = r_gcd oc t a b.
Proof.
  intros Ha Hb. unfold stein, r_gcd.
  pose proof (imin_le0 t) as I0.
  assert (ABS : forall z, ity_ok t z -> s_abs oc t z = chk oc t (Z.abs z)).
  { intros z Hz. unfold s_abs, p_abs. destruct (signed t) eqn:S; [reflexivity|].
    unfold ity_ok in Hz. rewrite (unsigned_imin t S) in Hz.
    rewrite Z.abs_eq, chk_id by (unfold ity_ok; rewrite ?(unsigned_imin t S); lia). reflexivity. }
  destruct (Z.eqb_spec a 0) as [-> | Na].
  { cbn [orb]. rewrite Z.lor_0_l, Z.gcd_0_l. apply ABS, Hb. }
  destruct (Z.eqb_spec b 0) as [-> | Nb].
  { cbn [orb]. rewrite Z.lor_0_r, Z.gcd_0_r. apply ABS, Ha. }
  cbn [orb]. rewrite Z.shiftl_mul_pow2 by apply tz_nonneg. rewrite Z.mul_1_l.
  pose proof (bits_pos t) as BP.
  assert (MIN : signed t = true -> forall x y, x = imin t -> y <> 0 -> ity_ok t y ->
     Z.gcd x y = 2 ^ tz (Z.lor x y) -> s_abs oc t (wrap t (2 ^ tz (Z.lor x y))) = chk oc t (Z.gcd x y)).
  { intros S x y -> Hy Oy G. rewrite <- G. rewrite (ABS _ (wrap_range t _)).
    pose proof (signed_imin t S) as SI.
    assert (GB : 0 <= Z.gcd (imin t) y <= - imin t).
    { split; [apply Z.gcd_nonneg|]. rewrite <- Z.gcd_opp_l. apply gcd_le_l. pose proof (imax_ge127 t). lia. }
    destruct (Z.eq_dec (Z.gcd (imin t) y) (- imin t)) as [E | E].
    - rewrite E. replace (wrap t (- imin t)) with (imin t).
      + rewrite Z.abs_neq by lia. reflexivity.
      + symmetry. transitivity (wrap t (imin t)).
        * apply wrap_eq. exists 1. pose proof (imax_eq t). lia.
        * apply wrap_id. unfold ity_ok. pose proof (imax_ge127 t). lia.
    - rewrite wrap_id by (unfold ity_ok; lia). rewrite Z.abs_eq by lia. reflexivity. }
  destruct (signed t && ((a =? imin t) || (b =? imin t))) eqn:C.
  { apply andb_true_iff in C. destruct C as [S C]. apply orb_true_iff in C.
    destruct C as [C | C]; apply Z.eqb_eq in C.
    - apply (MIN S a b C Nb Hb). rewrite C, (imin_signed t S). apply gcd_min_l; [lia | exact Nb].
    - rewrite Z.lor_comm, Z.gcd_comm. apply (MIN S b a C Na Ha).
      rewrite C, (imin_signed t S). apply gcd_min_l; [lia | exact Na]. }
  assert (AP : forall z, ity_ok t z -> z <> 0 -> (signed t = true -> z <> imin t) -> 0 < Z.abs z <= imax t).
  { intros z Hz N M. unfold ity_ok in Hz. destruct (signed t) eqn:S.
    - specialize (M eq_refl). rewrite (signed_imin t S) in *. lia.
    - rewrite (unsigned_imin t S) in Hz. lia. }
  assert (Aa : 0 < Z.abs a <= imax t).
  { apply AP; [exact Ha | exact Na |]. intros S E. rewrite S in C. cbn [andb] in C.
    apply orb_false_iff in C. destruct C as [C _]. apply Z.eqb_neq in C. contradiction. }
  assert (Ab : 0 < Z.abs b <= imax t).
  { apply AP; [exact Hb | exact Nb |]. intros S E. rewrite S in C. cbn [andb] in C.
    apply orb_false_iff in C. destruct C as [_ C]. apply Z.eqb_neq in C. contradiction. }
  rewrite (ABS a Ha), (ABS b Hb). rewrite !chk_id by (unfold ity_ok; lia). cbn [obind].
  pose proof (strip_pos (Z.abs a) ltac:(lia)). pose proof (strip_le (Z.abs a) ltac:(lia)).
  pose proof (strip_pos (Z.abs b) ltac:(lia)). pose proof (strip_le (Z.abs b) ltac:(lia)).
  pose proof (imax_lt t) as IL.
  rewrite (gcd_loop_ok oc t _ (Z.to_nat (bits t)) (Z.to_nat (bits t))).
  - cbn [obind]. f_equal. rewrite Z.shiftl_mul_pow2 by apply tz_nonneg.
    rewrite tz_lor by assumption. rewrite <- (tz_abs a), <- (tz_abs b).
    rewrite <- gcd_strips by lia. rewrite Z.gcd_abs_l, Z.gcd_abs_r.
    assert (0 <= Z.gcd a b <= imax t).
    { split; [apply Z.gcd_nonneg|]. rewrite <- Z.gcd_abs_l. pose proof (gcd_le_l (Z.abs a) b ltac:(lia)). lia. }
    rewrite wrap_id, chk_id by (unfold ity_ok; lia). reflexivity.
  - lia.
  - lia.
  - lia.
  - rewrite Z2Nat.id by lia. lia.
  - rewrite Z2Nat.id by lia. lia.
  - apply (tz_spec (Z.abs a)). lia.
  - apply (tz_spec (Z.abs b)). lia.
Qed.

(** ** Comparison by continued fractions *)
Lemma div_mod_floor_ok oc t a b : ity_ok t a -> 0 < b <= imax t ->
  div_mod_floor oc t a b = Done (a / b, a mod b).
Proof.
  intros Ha Hb. unfold div_mod_floor.
  rewrite p_div_ok, p_rem_ok by (try assumption; lia). cbn [obind].
  pose proof (Z.quot_rem' a b) as E. pose proof (imin_le0 t) as I0.
  assert (BF : b <? 0 = false) by (apply Z.ltb_ge; lia). rewrite BF, andb_false_r. cbn [orb].
  assert (BT : 0 <? b = true) by (apply Z.ltb_lt; lia). rewrite BT, andb_true_r.
  destruct (Z.ltb_spec (Z.rem a b) 0) as [R | R].
  - assert (A0 : a < 0) by (destruct (Z.lt_ge_cases a 0) as [L | L]; [exact L | pose proof (Z.rem_nonneg a b ltac:(lia) L); lia]).
    pose proof (Z.rem_bound_pos_neg a b ltac:(lia) ltac:(lia)) as RB.
    assert (Q : a / b = Z.quot a b - 1) by (symmetry; apply (Z.div_unique a b _ (Z.rem a b + b)); [lia | rewrite E at 1; ring]).
    assert (M : a mod b = Z.rem a b + b) by (symmetry; apply (Z.mod_unique a b (Z.quot a b - 1)); [lia | rewrite E at 1; ring]).
    unfold p_sub, p_add.
    pose proof (Z.div_le_lower_bound a b (imin t) ltac:(lia)) as LB. unfold ity_ok in *.
    assert (imin t <= a / b) by (apply LB; nia).
    assert (a / b < 0) by (apply Z.div_lt_upper_bound; lia).
    rewrite chk_id by (unfold ity_ok; lia). cbn [obind].
    rewrite chk_id by (unfold ity_ok; lia). cbn [obind]. rewrite Q, M. reflexivity.
  - assert (RB : Z.rem a b < b).
    { destruct (Z.lt_ge_cases a 0) as [L | L].
      - pose proof (Z.rem_bound_pos_neg a b ltac:(lia) ltac:(lia)). lia.
      - pose proof (Z.rem_bound_pos a b L ltac:(lia)). lia. }
    rewrite (Z.div_unique a b (Z.quot a b) (Z.rem a b)) by lia.
    rewrite <- (Z.mod_unique a b (Z.quot a b) (Z.rem a b)) by lia. reflexivity.
Qed.

Lemma compare_lt_by a b c d : 0 < b -> 0 < d -> a / b < c / d -> (a * d ?= c * b) = Lt.
Proof.
  intros Hb Hd H. apply Z.compare_lt_iff.
  pose proof (Z.div_mod a b ltac:(lia)). pose proof (Z.mod_pos_bound a b Hb).
  pose proof (Z.div_mod c d ltac:(lia)). pose proof (Z.mod_pos_bound c d Hd).
  assert (a < (a / b + 1) * b) by nia.
  assert (c / d * d <= c) by nia.
  assert (a * d < (a / b + 1) * b * d) by nia.
  assert ((a / b + 1) * b * d <= (c / d) * b * d) by (apply Z.mul_le_mono_nonneg_r; [lia|]; apply Z.mul_le_mono_nonneg_r; lia).
  assert (c / d * b * d <= c * b) by nia. lia.
Qed.

Lemma cf_cmp_ok oc t fuel : forall x y,
  valid t x -> valid t y -> (Z.to_nat (denom x) < fuel)%nat ->
  cf_cmp oc t fuel x y = Done (r_cmp x y).
Proof.
  induction fuel as [| f IH]; intros [a b] [c d]; unfold valid; cbn [numer denom]; intros [Va Vb] [Vc Vd] Hf; [lia|].
  cbn [cf_cmp numer denom]. unfold r_cmp. cbn [numer denom].
  destruct (Z.eqb_spec b d) as [-> | Nd].
  { replace (d <? 0) with false by (symmetry; apply Z.ltb_ge; lia).
    rewrite <- (Zmult_compare_compat_r a c d) by lia. reflexivity. }
  destruct (Z.eqb_spec a c) as [-> | Nc].
  { destruct (Z.eqb_spec c 0) as [-> | N0]; [reflexivity|].
    destruct (Z.ltb_spec c 0) as [L | L].
    - f_equal. destruct (Z.compare_spec b d); [lia | symmetry; apply Z.compare_lt_iff; nia | symmetry; apply Z.compare_gt_iff; nia].
    - f_equal. destruct (Z.compare_spec b d); [lia | symmetry; apply Z.compare_gt_iff; nia | symmetry; apply Z.compare_lt_iff; nia]. }
  rewrite (div_mod_floor_ok oc t a b) by assumption. cbn [obind].
  rewrite (div_mod_floor_ok oc t c d) by assumption. cbn [obind fst snd].
  pose proof (Z.div_mod a b ltac:(lia)) as Ea. pose proof (Z.mod_pos_bound a b ltac:(lia)) as Ra.
  pose proof (Z.div_mod c d ltac:(lia)) as Ec. pose proof (Z.mod_pos_bound c d ltac:(lia)) as Rc.
  destruct (Z.compare_spec (a / b) (c / d)) as [E | L | L].
  - assert (K : (a * d ?= c * b) = (a mod b * d ?= c mod d * b)).
    { rewrite Ea at 1. rewrite Ec at 1. rewrite <- E.
      replace ((b * (a / b) + a mod b) * d) with (b * (a / b) * d + a mod b * d) by ring.
      replace ((d * (a / b) + c mod d) * b) with (b * (a / b) * d + c mod d * b) by ring.
      apply Zcompare_plus_compat. }
    rewrite K. destruct (Z.eqb_spec (a mod b) 0) as [Za | Za]; destruct (Z.eqb_spec (c mod d) 0) as [Zc | Zc].
    + rewrite Za, Zc. reflexivity.
    + f_equal. symmetry. apply Z.compare_lt_iff. nia.
    + f_equal. symmetry. apply Z.compare_gt_iff. nia.
    + rewrite IH; cbn [numer denom].
      * cbn [obind]. unfold r_cmp. cbn [numer denom]. f_equal.
        rewrite <- Z.compare_antisym. f_equal; ring.
      * unfold valid; cbn [numer denom]. pose proof (imin_le0 t). lia.
      * unfold valid; cbn [numer denom]. pose proof (imin_le0 t). lia.
      * lia.
  - f_equal. symmetry. apply compare_lt_by; lia.
  - f_equal. symmetry. rewrite Z.compare_antisym, (compare_lt_by c d a b) by lia. reflexivity.
Qed.

Lemma C19_gcd_algorithm_proof :
  forall (oc : bool) (t : ity) (a b : Z),
  imin t <= a <= imax t -> imin t <= b <= imax t -> stein oc t a b = r_gcd oc t a b.
Proof. exact stein_ok. Qed.
Lemma C19_order_algorithm_proof :
  forall (oc : bool) (t : ity) (x y : ratio), valid t x -> valid t y ->
  forall fuel : nat, (Z.to_nat (denom x) < fuel)%nat ->
  cf_cmp oc t fuel x y = Done (Qcompare (toQ x) (toQ y)).
Proof.
  intros oc t x y Hx Hy fuel H. rewrite <- cmp_exact by (unfold valid in *; lia). apply cf_cmp_ok; assumption.
Qed.
