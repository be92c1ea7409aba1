From Coq Require Import ZArith Lia Bool.
From Verif Require Import M_Outcome M_Ints M_Ratio M_Float S_Ratio L_Outcome L_Ints L_Ratio.
Local Open Scope Z_scope.
Local Arguments Z.mul : simpl never.
Local Arguments Z.add : simpl never.
Local Arguments Z.sub : simpl never.
Local Arguments Z.opp : simpl never.
Local Arguments Z.gcd : simpl never.

Lemma quot_rem_cases n d : 0 < d ->
  (0 <= n -> n = d * Z.quot n d + Z.rem n d /\ 0 <= Z.rem n d < d /\ 0 <= Z.quot n d) /\
  (n <= 0 -> n = d * Z.quot n d + Z.rem n d /\ - d < Z.rem n d <= 0 /\ Z.quot n d <= 0).
Proof.
  intros Hd. pose proof (Z.quot_rem' n d) as E. split; intros Hn; (split; [exact E|]).
  - split; [apply Z.rem_bound_pos; lia|apply Z.quot_pos; lia].
  - split.
    + pose proof (Z.rem_bound_pos (- n) d ltac:(lia) Hd) as B. rewrite Z.rem_opp_l in B by lia. lia.
    + pose proof (Z.quot_pos (- n) d ltac:(lia) Hd) as B. rewrite Z.quot_opp_l in B by lia. lia.
Qed.

Lemma quot_is_trunc n d : 0 < d -> is_trunc n d (Z.quot n d).
Proof.
  intros Hd. destruct (quot_rem_cases n d Hd) as [H1 H2]. unfold is_trunc, is_floor, is_ceil.
  split; intros Hn; [specialize (H1 Hn)|specialize (H2 Hn)]; nia.
Qed.

Lemma ltb_zero x : 0 < denom x -> r_ltb x (r_int 0) = (numer x <? 0).
Proof.
  intros H. unfold r_ltb, r_cmp, r_int. cbn [numer denom]. rewrite Z.mul_1_r, Z.mul_0_l.
  reflexivity.
Qed.

Lemma ltb_zero' x : 0 < denom x -> r_ltb (r_int 0) x = (0 <? numer x).
Proof.
  intros H. unfold r_ltb, r_cmp, r_int. cbn [numer denom]. rewrite Z.mul_1_r, Z.mul_0_l.
  reflexivity.
Qed.

Lemma valid_r_int t z : ity_ok t z -> valid t (r_int z).
Proof. intros H. unfold valid, r_int; cbn. pose proof (imax_ge127 t). split; [exact H|lia]. Qed.

Lemma reduced_r_int t z : ity_ok t z -> reduced t (r_int z).
Proof. intros H. split; [apply valid_r_int; exact H|]. apply Z.gcd_1_r. Qed.

Lemma r_trunc_eq t x : valid t x -> r_trunc t x = Done (r_int (Z.quot (numer x) (denom x))).
Proof. intros [Hn Hd]. unfold r_trunc. rewrite p_div_ok by (assumption || lia). reflexivity. Qed.

(** floor: for n < 0 the quotient (n - d + 1) / d. *)
Lemma floor_quot n d : 0 < d -> n < 0 -> is_floor n d (Z.quot (n - d + 1) d).
Proof.
  intros Hd Hn. destruct (quot_rem_cases (n - d + 1) d Hd) as [_ H]. specialize (H ltac:(lia)).
  unfold is_floor. nia.
Qed.

Lemma ceil_quot n d : 0 < d -> 0 <= n -> is_ceil n d (Z.quot (n + d - 1) d).
Proof.
  intros Hd Hn. destruct (quot_rem_cases (n + d - 1) d Hd) as [H _]. specialize (H ltac:(lia)).
  unfold is_ceil. nia.
Qed.

Lemma r_floor_cases oc t x : valid t x ->
  (~ round_overflows Floor t (numer x) (denom x) ->
   exists y, r_floor oc t x = Done (r_int y) /\ is_floor (numer x) (denom x) y /\ ity_ok t y) /\
  (round_overflows Floor t (numer x) (denom x) -> r_floor true t x = Panics POverflow).
Proof.
  intros [Hn Hd]. destruct x as [n d]; cbn in *. unfold r_floor. rewrite ltb_zero by (cbn; lia). cbn.
  pose proof (imin_le0 t). pose proof (imax_ge127 t). split.
  - intros Hno. destruct (Z.ltb_spec n 0).
    + unfold p_sub, p_add. rewrite chk_id by (unfold ity_ok; lia). cbn [obind].
      rewrite chk_id by (unfold ity_ok; lia). cbn [obind].
      rewrite p_div_ok by (unfold ity_ok; lia).
      eexists. split; [reflexivity|]. split; [apply floor_quot; lia|].
      apply quot_range; unfold ity_ok; lia.
    + rewrite p_div_ok by (unfold ity_ok; lia).
      eexists. split; [reflexivity|]. split; [apply quot_is_trunc; lia|].
      apply quot_range; unfold ity_ok; lia.
  - intros [H1 H2]. destruct (Z.ltb_spec n 0); [|lia].
    unfold p_sub, chk. destruct (in_range t (n - d)) eqn:E; [|reflexivity].
    apply in_range_iff in E. unfold ity_ok in E. lia.
Qed.

Lemma r_ceil_cases oc t x : valid t x ->
  (~ round_overflows Ceil t (numer x) (denom x) ->
   exists y, r_ceil oc t x = Done (r_int y) /\ is_ceil (numer x) (denom x) y /\ ity_ok t y) /\
  (round_overflows Ceil t (numer x) (denom x) -> r_ceil true t x = Panics POverflow).
Proof.
  intros [Hn Hd]. destruct x as [n d]; cbn in *. unfold r_ceil. rewrite ltb_zero by (cbn; lia). cbn.
  pose proof (imin_le0 t). pose proof (imax_ge127 t). split.
  - intros Hno. destruct (Z.ltb_spec n 0).
    + rewrite p_div_ok by (unfold ity_ok; lia).
      eexists. split; [reflexivity|]. split; [apply quot_is_trunc; lia|].
      apply quot_range; unfold ity_ok; lia.
    + unfold p_sub, p_add. rewrite chk_id by (unfold ity_ok; lia). cbn [obind].
      rewrite chk_id by (unfold ity_ok; lia). cbn [obind].
      rewrite p_div_ok by (unfold ity_ok; lia).
      eexists. split; [reflexivity|]. split; [apply ceil_quot; lia|].
      apply quot_range; unfold ity_ok; lia.
  - intros [H1 H2]. destruct (Z.ltb_spec n 0); [lia|].
    unfold p_add, chk. destruct (in_range t (n + d)) eqn:E; [|reflexivity].
    apply in_range_iff in E. unfold ity_ok in E. lia.
Qed.

(** [0 - fract] inside [round] negates the fraction and reduces it. *)
Lemma zero_minus_fract oc t fn d : 0 < d <= imax t -> - d < fn < 0 -> signed t = true ->
  exists f, r_sub oc t (r_int 0) (Frac fn d) = Done f /\ reduced t f /\ numer f * d = - fn * denom f.
Proof.
  intros Hd Hf Hs. pose proof (signed_imin t Hs) as Im. pose proof (imax_ge127 t).
  unfold r_sub, r_addsub, r_int. cbn [numer denom].
  destruct (Z.eqb_spec 1 d); [lia|].
  assert (r_lcm oc t 1 d = Done d) as ->.
  { unfold r_lcm. cbn [Z.eqb andb]. unfold r_gcd. rewrite Z.gcd_1_l, chk_id by (unfold ity_ok; lia).
    cbn [obind]. rewrite p_div_ok by (unfold ity_ok; lia). cbn [obind]. rewrite Z.quot_1_r.
    unfold p_mul, p_abs. rewrite Z.mul_1_l, chk_id by (unfold ity_ok; lia). cbn [obind].
    rewrite Z.abs_eq, chk_id by (unfold ity_ok; lia). destruct (signed t); reflexivity. }
  cbn [obind]. rewrite !p_div_ok by (unfold ity_ok; lia). cbn [obind].
  unfold p_mul. rewrite Z.mul_0_l, chk_id by (unfold ity_ok; lia). cbn [obind].

  rewrite Z.quot_same, Z.mul_1_r by lia. rewrite chk_id by (unfold ity_ok; lia). cbn [obind].
  unfold p_sub. rewrite chk_id by (unfold ity_ok; lia). cbn [obind]. unfold r_new.
  destruct (r_reduce_positive t (Frac (0 - fn) d) oc) as [f [F1 [F2 F3]]]; cbn; unfold ity_ok; try lia.
  exists f. cbn in F3. split; [exact F1|]. split; [exact F2|]. rewrite F3. lia.
Qed.

Lemma r_addsub_ints oc t op a b : ity_ok t (op a b) ->
  r_addsub oc t (fun x y => chk oc t (op x y)) (r_int a) (r_int b) = Done (r_int (op a b)).
Proof.
  intros H. unfold r_addsub, r_int. cbn [numer denom]. rewrite Z.eqb_refl.
  rewrite chk_id by exact H. cbn [obind]. unfold r_new. apply r_reduce_id.
  exact (reduced_r_int t _ H).
Qed.

Lemma half_test d m : 0 < d -> 0 <= m < d ->
  (if Z.even d then Z.quot d 2 else Z.quot d 2 + 1) <= m <-> d <= 2 * m.
Proof.
  intros Hd Hm. rewrite Z.quot_div_nonneg by lia.
  pose proof (Z.div_mod d 2 ltac:(lia)). pose proof (Zmod_even d) as E.
  destruct (Z.even d); lia.
Qed.

Lemma round_up n d q r : 0 < d -> 0 <= n -> n = d * q + r -> 0 <= r < d -> d <= 2 * r ->
  is_round n d (q + 1).
Proof. intros. unfold is_round. assert (0 <= q) by nia. split; intros; lia. Qed.
Lemma round_down n d q r : 0 < d -> n <= 0 -> n = d * q + r -> - d < r <= 0 -> d <= - 2 * r ->
  is_round n d (q - 1).
Proof. intros. unfold is_round. assert (q <= 0) by nia. split; intros; lia. Qed.
Lemma round_keep n d q r : 0 < d -> n = d * q + r -> - d < 2 * r < d -> is_round n d q.
Proof. intros. unfold is_round. split; intros; lia. Qed.

Lemma r_round_spec oc t x : valid t x ->
  exists y, r_round oc t x = Done (r_int y) /\ is_round (numer x) (denom x) y /\ ity_ok t y.
Proof.
  intros Hv. destruct x as [n d]. pose proof Hv as [Hn Hd]; cbn in *.
  pose proof (imin_le0 t). pose proof (imax_ge127 t).
  unfold r_round. cbn [numer denom]. rewrite p_rem_ok by (unfold ity_ok; lia). cbn [obind].
  rewrite (r_trunc_eq t (Frac n d) Hv). cbn [numer denom].
  pose proof (quot_range t n d Hn ltac:(lia)) as Rq.
  destruct (quot_rem_cases n d ltac:(lia)) as [C1 C2].
  rewrite !ltb_zero by (cbn; lia). cbn [numer].
  destruct (Z.ltb_spec n 0) as [Hneg|Hpos].
  - (* n < 0 *)
    specialize (C2 ltac:(lia)). destruct C2 as [E [Br Bq]].
    set (q := Z.quot n d) in *. set (r := Z.rem n d) in *.
    assert (Hs : signed t = true).
    { destruct (signed t) eqn:S; [reflexivity|]. rewrite (unsigned_imin t S) in Hn. lia. }
    pose proof (signed_imin t Hs) as Im.
    destruct (Z.ltb_spec r 0) as [Hr|Hr].
    + destruct (zero_minus_fract oc t r d ltac:(lia) ltac:(lia) Hs) as [f [F1 [[[F2 F3] F4] F5]]].
      rewrite F1. cbn [obind]. rewrite p_div_ok by (unfold ity_ok; lia). cbn [obind].
      assert (Hf : 0 <= numer f < denom f) by nia.
      assert (Hq2 : 0 <= Z.quot (denom f) 2 /\ 2 * Z.quot (denom f) 2 <= denom f).
      { rewrite Z.quot_div_nonneg by lia. pose proof (Z.div_pos (denom f) 2).
        pose proof (Z.mul_div_le (denom f) 2). lia. }
      assert ((if Z.even (denom f) then Done (Z.quot (denom f) 2)
               else p_add oc t (Z.quot (denom f) 2) 1)
              = Done (if Z.even (denom f) then Z.quot (denom f) 2 else Z.quot (denom f) 2 + 1)) as ->.
      { destruct (Z.even (denom f)); [reflexivity|]. unfold p_add. apply chk_id. unfold ity_ok. lia. }
      cbn [obind]. pose proof (half_test (denom f) (numer f) ltac:(lia) Hf) as Ht.
      assert (Hlink : denom f <= 2 * numer f <-> d <= - 2 * r).
      { split; intros; nia. }
      destruct (Z.leb_spec (if Z.even (denom f) then Z.quot (denom f) 2 else Z.quot (denom f) 2 + 1) (numer f)) as [L|L].
      * apply Ht, Hlink in L.
        assert (Hd2 : 2 <= d) by lia.
        assert (Rq1 : ity_ok t (q - 1)) by (unfold ity_ok; nia).
        unfold r_sub, p_sub. rewrite (r_addsub_ints oc t Z.sub q 1 Rq1).
        eexists. split; [reflexivity|]. split; [|exact Rq1].
        apply (round_down n d q r); lia.
      * assert (~ d <= - 2 * r) by (intros K; apply Hlink, Ht in K; lia).
        eexists. split; [reflexivity|]. split; [|exact Rq]. apply (round_keep n d q r); lia.
    + (* exact *)
      assert (r = 0) by lia. cbn [obind denom numer]. rewrite p_div_ok by (unfold ity_ok; lia). cbn [obind].
      assert (Hq2 : 0 <= Z.quot d 2 /\ 2 * Z.quot d 2 <= d).
      { rewrite Z.quot_div_nonneg by lia. pose proof (Z.div_pos d 2).
        pose proof (Z.mul_div_le d 2). lia. }
      assert ((if Z.even d then Done (Z.quot d 2) else p_add oc t (Z.quot d 2) 1)
              = Done (if Z.even d then Z.quot d 2 else Z.quot d 2 + 1)) as ->.
      { destruct (Z.even d); [reflexivity|]. unfold p_add. apply chk_id. unfold ity_ok. lia. }
      cbn [obind]. pose proof (half_test d r ltac:(lia) ltac:(lia)) as Ht.
      destruct (Z.leb_spec (if Z.even d then Z.quot d 2 else Z.quot d 2 + 1) r) as [L|L].
      * apply Ht in L. lia.
      * eexists. split; [reflexivity|]. split; [|exact Rq]. apply (round_keep n d q r); lia.
  - (* 0 <= n *)
    specialize (C1 ltac:(lia)). destruct C1 as [E [Br Bq]].
    set (q := Z.quot n d) in *. set (r := Z.rem n d) in *.
    destruct (Z.ltb_spec r 0) as [Hr|Hr]; [lia|].
    cbn [obind denom numer]. rewrite p_div_ok by (unfold ity_ok; lia). cbn [obind].
    assert (Hq2 : 0 <= Z.quot d 2 /\ 2 * Z.quot d 2 <= d).
    { rewrite Z.quot_div_nonneg by lia. pose proof (Z.div_pos d 2).
      pose proof (Z.mul_div_le d 2). lia. }
    assert ((if Z.even d then Done (Z.quot d 2) else p_add oc t (Z.quot d 2) 1)
            = Done (if Z.even d then Z.quot d 2 else Z.quot d 2 + 1)) as ->.
    { destruct (Z.even d); [reflexivity|]. unfold p_add. apply chk_id. unfold ity_ok. lia. }
    cbn [obind]. pose proof (half_test d r ltac:(lia) ltac:(lia)) as Ht.
    destruct (Z.leb_spec (if Z.even d then Z.quot d 2 else Z.quot d 2 + 1) r) as [L|L].
    + apply Ht in L. assert (2 <= d) by lia.
      assert (Rq1 : ity_ok t (q + 1)) by (unfold ity_ok; nia).
      unfold r_add, p_add. rewrite (r_addsub_ints oc t Z.add q 1 Rq1).
      eexists. split; [reflexivity|]. split; [|exact Rq1]. apply (round_up n d q r); lia.
    + assert (~ d <= 2 * r) by (intros K; apply Ht in K; lia).
      eexists. split; [reflexivity|]. split; [|exact Rq]. apply (round_keep n d q r); lia.
Qed.

Lemma r_max_int a b : r_max (r_int a) (r_int b) = r_int (Z.max a b).
Proof.
  unfold r_max, r_ltb, r_cmp, r_int. cbn [numer denom]. rewrite !Z.mul_1_r.
  destruct (Z.compare_spec b a); f_equal; lia.
Qed.
Lemma r_min_int a b : r_min (r_int a) (r_int b) = r_int (Z.min a b).
Proof.
  unfold r_min, r_ltb, r_cmp, r_int. cbn [numer denom]. rewrite !Z.mul_1_r.
  destruct (Z.compare_spec b a); f_equal; lia.
Qed.

(** Every mode, both builds. *)
Lemma round_with_frac_spec R oc t x : valid t x ->
  ~ round_overflows R t (numer x) (denom x) ->
  exists z y, round_with R (fracF oc t) x = Done z /\ valid t z /\ numer z = y * denom z /\ (denom z = 1 \/ z = x /\ numer x = 0) /\
    rounds_to R (numer x) (denom x) y /\ ity_ok t y.
Proof.
  intros Hv Hno. pose proof Hv as [Hn Hd].
  pose proof (imin_le0 t). pose proof (imax_ge127 t).
  pose proof (quot_range t (numer x) (denom x) Hn ltac:(lia)) as Rq.
  assert (Hint : forall P : Z -> Prop, forall o : outcome ratio,
     (exists y, o = Done (r_int y) /\ P y /\ ity_ok t y) ->
     exists z y, o = Done z /\ valid t z /\ numer z = y * denom z /\ (denom z = 1 \/ z = x /\ numer x = 0) /\ P y /\ ity_ok t y).
  { intros P o [y [E [Py Ry]]]. exists (r_int y), y. split; [exact E|]. split; [apply valid_r_int; exact Ry|].
    split; [cbn; lia|]. split; [left; reflexivity|]. auto. }
  destruct R; cbn [round_with fracF f_trunc f_floor f_ceil f_round f_ltb f_zero f_one f_sub f_min f_max].
  - apply Hint. rewrite r_trunc_eq by exact Hv. eexists. split; [reflexivity|]. split; [|exact Rq].
    apply quot_is_trunc. lia.
  - destruct (r_floor_cases oc t x Hv) as [H1 _]. apply Hint, H1. exact Hno.
  - destruct (r_ceil_cases oc t x Hv) as [H1 _]. apply Hint, H1. exact Hno.
  - apply Hint, r_round_spec. exact Hv.
  - rewrite ltb_zero, ltb_zero' by lia.
    pose proof (quot_is_trunc (numer x) (denom x) ltac:(lia)) as Tr.
    destruct (Z.ltb_spec 0 (numer x)).
    + apply Hint. rewrite r_trunc_eq by exact Hv. cbn [obind]. rewrite r_max_int.
      eexists. split; [reflexivity|].
      split; [|unfold ity_ok in *; lia]. unfold rounds_to, is_trunc_signed. repeat split; try lia.
      intros _. eauto.
    + destruct (Z.ltb_spec (numer x) 0).
      * apply Hint. rewrite r_trunc_eq by exact Hv. cbn [obind].
        assert (Hs : signed t = true).
        { destruct (signed t) eqn:S; [reflexivity|]. rewrite (unsigned_imin t S) in Hn. lia. }
        pose proof (signed_imin t Hs).
        assert (Rm : ity_ok t (0 - 1)) by (unfold ity_ok; lia).
        unfold r_sub, p_sub. rewrite (r_addsub_ints oc t Z.sub 0 1 Rm). cbn [obind]. rewrite r_min_int.
        eexists. split; [reflexivity|]. split; [|unfold ity_ok in *; lia].
        unfold rounds_to, is_trunc_signed. repeat split; try lia. intros _. eauto.
      * assert (numer x = 0) by lia. exists x, 0. split; [reflexivity|]. split; [exact Hv|].
        split; [lia|]. split; [auto|]. split; [|unfold ity_ok; lia].
        unfold rounds_to, is_trunc_signed. repeat split; lia.
Qed.

Lemma round_with_frac_overflow R t x : valid t x ->
  round_overflows R t (numer x) (denom x) -> round_with R (fracF true t) x = Panics POverflow.
Proof.
  intros Hv Ho. destruct R; try (destruct Ho; fail); cbn [round_with fracF f_floor f_ceil].
  - apply (proj2 (r_floor_cases true t x Hv)). exact Ho.
  - apply (proj2 (r_ceil_cases true t x Hv)). exact Ho.
Qed.

Lemma round_overflows_dec R t n d : {round_overflows R t n d} + {~ round_overflows R t n d}.
Proof.
  destruct R; cbn; try (right; tauto).
  - destruct (Z_lt_dec n 0), (Z_lt_dec (n - d) (imin t)); try (right; lia). left; lia.
  - destruct (Z_le_dec 0 n), (Z_lt_dec (imax t) (n + d)); try (right; lia). left; lia.
Qed.

(** The specification determines the integer. *)
Lemma is_floor_unique n d y z : 0 < d -> is_floor n d y -> is_floor n d z -> y = z.
Proof. unfold is_floor. intros. assert (y < z + 1 /\ z < y + 1) by nia. lia. Qed.
Lemma is_ceil_unique n d y z : 0 < d -> is_ceil n d y -> is_ceil n d z -> y = z.
Proof. unfold is_ceil. intros. assert (y - 1 < z /\ z - 1 < y) by nia. lia. Qed.
Lemma is_trunc_unique n d y z : 0 < d -> is_trunc n d y -> is_trunc n d z -> y = z.
Proof.
  intros Hd [A1 A2] [B1 B2]. destruct (Z_le_gt_dec 0 n).
  - apply (is_floor_unique n d); auto.
  - apply (is_ceil_unique n d); auto; [apply A2|apply B2]; lia.
Qed.
Lemma is_round_unique n d y z : 0 < d -> is_round n d y -> is_round n d z -> y = z.
Proof.
  unfold is_round. intros Hd [A1 A2] [B1 B2].
  assert (Z.abs (y - z) * d <= d).
  { replace (Z.abs (y - z) * d) with (Z.abs ((y * d - n) - (z * d - n))); [lia|].
    replace ((y * d - n) - (z * d - n)) with ((y - z) * d) by ring.
    rewrite Z.abs_mul. rewrite (Z.abs_eq d) by lia. reflexivity. }
  assert (Z.abs (y - z) <= 1) by nia.
  destruct (Z.eq_dec y z) as [|Hne]; [assumption|exfalso].
  assert (y = z + 1 \/ z = y + 1) as [->| ->] by lia.
  - assert (2 * Z.abs (z * d - n) = d /\ 2 * Z.abs ((z + 1) * d - n) = d) as [K1 K2] by lia.
    specialize (A2 K2). specialize (B2 K1).
    rewrite Z.mul_add_distr_r, Z.mul_1_l in *.
    assert (0 <= z * d \/ z * d + d <= 0) by (destruct (Z_le_gt_dec 0 z); nia). lia.
  - assert (2 * Z.abs (y * d - n) = d /\ 2 * Z.abs ((y + 1) * d - n) = d) as [K1 K2] by lia.
    specialize (A2 K1). specialize (B2 K2).
    rewrite Z.mul_add_distr_r, Z.mul_1_l in *.
    assert (0 <= y * d \/ y * d + d <= 0) by (destruct (Z_le_gt_dec 0 y); nia). lia.
Qed.
Lemma rounds_to_unique R n d y z : 0 < d -> rounds_to R n d y -> rounds_to R n d z -> y = z.
Proof.
  intros Hd. destruct R; cbn.
  - apply is_trunc_unique; exact Hd.
  - apply is_floor_unique; exact Hd.
  - apply is_ceil_unique; exact Hd.
  - apply is_round_unique; exact Hd.
  - intros [A1 [A2 A3]] [B1 [B2 B3]]. destruct (Z.lt_trichotomy 0 n) as [H|[H|H]].
    + destruct (A1 H) as [a [Ha ->]], (B1 H) as [b [Hb ->]].
      rewrite (is_trunc_unique n d a b Hd Ha Hb). reflexivity.
    + rewrite A3, B3 by lia. reflexivity.
    + destruct (A2 H) as [a [Ha ->]], (B2 H) as [b [Hb ->]].
      rewrite (is_trunc_unique n d a b Hd Ha Hb). reflexivity.
Qed.
