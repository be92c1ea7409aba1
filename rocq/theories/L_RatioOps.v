From Coq Require Import ZArith QArith Qabs Lia Lqa Bool Znumtheory Zquot.
From Verif Require Import M_Outcome M_Ints M_Ratio M_RatioOps S_Ratio S_RatioOps L_Outcome L_Ints L_Ratio L_RatioQ.
Local Open Scope Z_scope.
Local Arguments Z.mul : simpl never.
Local Arguments Z.add : simpl never.
Local Arguments Z.sub : simpl never.
Local Arguments Z.opp : simpl never.
Local Arguments Z.gcd : simpl never.

Lemma calm_rdiv oc t x y : calm (r_div oc t x y).
Proof. unfold r_div, r_gcd, p_mul, r_new. calm_tac; apply calm_reduce. Qed.
Lemma calm_rrem oc t x y : calm (r_rem oc t x y).
Proof. unfold r_rem, r_addsub, p_mul, r_new. calm_tac; first [apply calm_reduce|apply calm_lcm]. Qed.
Lemma r_div_mono oc t x y z : r_div true t x y = Done z -> r_div oc t x y = Done z.
Proof. unfold r_div, r_gcd, p_mul, r_new. mono. apply r_reduce_mono. assumption. Qed.
Lemma r_rem_mono oc t x y z : r_rem true t x y = Done z -> r_rem oc t x y = Done z.
Proof. apply r_addsub_mono. auto. Qed.

Lemma gcd_pos_nz a b : b <> 0 -> 0 < Z.gcd a b.
Proof.
  intros H. pose proof (Z.gcd_nonneg a b).
  assert (Z.gcd a b <> 0) by (intros E; apply Z.gcd_eq_0_r in E; lia). lia.
Qed.

(** ** Division *)
Lemma r_div_zero oc t x y : valid t x -> valid t y -> numer y = 0 -> exists p, r_div oc t x y = Panics p.
Proof.
  intros [Hxn Hxd] [Hyn Hyd] E. destruct (calm_rdiv oc t x y) as [[z H]|H]; [exfalso|exact H].
  unfold r_div in H. destruct x as [a b], y as [c d]; cbn [numer denom] in *. subst c.
  apply obind_inv in H as [g [_ H]]. apply obind_inv in H as [h [_ H]].
  apply obind_inv in H as [a' [_ H]]. apply obind_inv in H as [d' [_ H]].
  apply obind_inv in H as [n [_ H]]. apply obind_inv in H as [b' [_ H]].
  apply obind_inv in H as [c' [Hc H]]. apply obind_inv in H as [m [Hm H]].
  assert (c' = 0).
  { unfold p_div in Hc. destruct (g =? 0) eqn:Eg; [discriminate|]. apply Z.eqb_neq in Eg.
    destruct (in_range t (Z.quot 0 g)); [|discriminate]. injection Hc as <-. apply Z.quot_0_l. exact Eg. }
  subst c'. rewrite Z.mul_0_r in Hm || (unfold p_mul in Hm; rewrite Z.mul_0_r in Hm).
  rewrite chk_id in Hm by (unfold ity_ok; pose proof (imin_le0 t); pose proof (imax_ge127 t); lia).
  injection Hm as <-. discriminate H.
Qed.

Lemma r_div_spec t x y z : valid t x -> valid t y -> r_div true t x y = Done z ->
  numer y <> 0 /\ reduced t z /\ numer z * (denom x * numer y) = numer x * denom y * denom z.
Proof.
  intros Vx Vy H. assert (Hc : numer y <> 0).
  { intros E. destruct (r_div_zero true t x y Vx Vy E) as [p Hp]. congruence. }
  split; [exact Hc|]. destruct Vx as [Hxn Hxd], Vy as [Hyn Hyd].
  unfold r_div in H. destruct x as [n1 d1], y as [n2 d2]; cbn [numer denom] in *.
  apply obind_inv in H as [g [H1 H]]. apply chk_true_inv in H1 as [-> _].
  apply obind_inv in H as [h [H1 H]]. apply chk_true_inv in H1 as [-> _].
  pose proof (gcd_pos_nz n1 n2 Hc) as G1. pose proof (gcd_pos_r d1 d2 ltac:(lia)) as G2.
  pose proof (imin_le0 t) as I0.
  assert (Rd1 : ity_ok t d1) by (unfold ity_ok; lia). assert (Rd2 : ity_ok t d2) by (unfold ity_ok; lia).
  rewrite p_div_ok in H by assumption. cbn [obind] in H. rewrite p_div_ok in H by assumption. cbn [obind] in H.
  apply obind_inv in H as [n [H1 H]]. apply chk_true_inv in H1 as [-> Rn].
  rewrite p_div_ok in H by assumption. cbn [obind] in H. rewrite p_div_ok in H by assumption. cbn [obind] in H.
  apply obind_inv in H as [m [H1 H]]. apply chk_true_inv in H1 as [-> Rm].
  pose proof (quot_exact n1 (Z.gcd n1 n2) ltac:(lia) (Z.gcd_divide_l n1 n2)) as E1.
  pose proof (quot_exact n2 (Z.gcd n1 n2) ltac:(lia) (Z.gcd_divide_r n1 n2)) as E2.
  pose proof (quot_exact d1 (Z.gcd d1 d2) ltac:(lia) (Z.gcd_divide_l d1 d2)) as E3.
  pose proof (quot_exact d2 (Z.gcd d1 d2) ltac:(lia) (Z.gcd_divide_r d1 d2)) as E4.
  apply r_reduce_spec in H; [|exact Rn|exact Rm]. cbn [numer denom] in H. destruct H as [Hr Hv]. split; [exact Hr|].
  set (g := Z.gcd n1 n2) in *. set (h := Z.gcd d1 d2) in *.
  set (a := Z.quot n1 g) in *. set (c := Z.quot n2 g) in *.
  set (b := Z.quot d1 h) in *. set (d := Z.quot d2 h) in *.
  transitivity (numer z * (b * c) * (h * g)); [rewrite E2, E3; ring|].
  rewrite Hv. rewrite E1, E4. ring.
Qed.

Lemma toQ_nz y : 0 < denom y -> numer y <> 0 -> ~ (toQ y == 0)%Q.
Proof. intros Hd Hn E. unfold toQ, Qeq in E. cbn in E. lia. Qed.
Lemma toQ_quot x y z : 0 < denom x -> 0 < denom y -> 0 < denom z -> numer y <> 0 ->
  (toQ z == toQ x / toQ y)%Q <-> numer z * (denom x * numer y) = numer x * denom y * denom z.
Proof.
  intros Hx Hy Hz Hn. pose proof (toQ_nz y Hy Hn) as Hy0. split.
  - intros E. assert (F : (toQ z * toQ y == toQ x)%Q) by (rewrite E; field; exact Hy0).
    rewrite toQ_mul in F by lia. apply toQ_eq in F; cbn [numer denom] in *; [nia|nia|lia].
  - intros E. assert (F : (toQ x == toQ z * toQ y)%Q).
    { rewrite toQ_mul by lia. apply toQ_eq; cbn [numer denom]; nia. }
    rewrite F. field. exact Hy0.
Qed.

Lemma C63_div_exact_or_panics_proof :
  forall (t : ity) (x y : ratio), valid t x -> valid t y ->
  (exists z, r_div true t x y = Done z /\ numer y <> 0 /\ reduced t z /\ (toQ z == toQ x / toQ y)%Q)
  \/ (exists p, r_div true t x y = Panics p).
Proof.
  intros t x y Hx Hy. destruct (calm_rdiv true t x y) as [[z H]|H]; [left|right; exact H].
  exists z. destruct (r_div_spec t x y z Hx Hy H) as [Hn [R E]]. repeat split; try assumption; try apply R.
  destruct Hx as [_ Hx], Hy as [_ Hy], R as [[_ Hz] _]. apply toQ_quot; try assumption; lia.
Qed.
Lemma C63_div_zero_proof :
  forall (oc : bool) (t : ity) (x y : ratio), valid t x -> valid t y -> (toQ y == 0)%Q ->
  exists p, r_div oc t x y = Panics p.
Proof.
  intros oc t x y Hx Hy E. apply r_div_zero; try assumption.
  destruct (Z.eq_dec (numer y) 0) as [|N]; [assumption|]. exfalso. apply (toQ_nz y ltac:(destruct Hy; lia) N E).
Qed.

Lemma r_reduce_neg oc t z : reduced t z -> ity_ok t (- numer z) -> ity_ok t (- denom z) ->
  r_reduce oc t (Frac (- numer z) (- denom z)) = Done z.
Proof.
  intros [[Hn Hd] Hg] Rn Rd. destruct z as [n d]; cbn [numer denom] in *. unfold r_reduce; cbn [numer denom].
  destruct (Z.eqb_spec (- d) 0); [lia|].
  destruct (Z.eqb_spec (- n) 0) as [E|N].
  { assert (n = 0) by lia. subst n. rewrite Z.gcd_0_l in Hg. f_equal. f_equal. lia. }
  destruct (Z.eqb_spec (- n) (- d)) as [E|N2].
  { assert (n = d) by lia. subst n. rewrite Z.gcd_diag in Hg. f_equal. f_equal; lia. }
  unfold r_gcd. rewrite Z.gcd_opp_l, Z.gcd_opp_r, Hg.
  rewrite chk_id by (unfold ity_ok in *; lia). cbn [obind].
  rewrite !p_div_ok by (assumption || lia). cbn [obind]. rewrite !Z.quot_1_r.
  destruct (Z.ltb_spec (- d) 0); [|lia]. unfold p_sub.
  replace (0 - - n) with n by ring. replace (0 - - d) with d by ring.
  rewrite chk_id by exact Hn. cbn [obind]. rewrite chk_id by (unfold ity_ok in *; pose proof (imin_le0 t); lia). reflexivity.
Qed.

(** Division of lowest-terms fractions succeeds whenever the quotient is representable, but for
    the edge of the range. *)
Lemma C63_div_succeeds_proof :
  forall (oc : bool) (t : ity) (x y z : ratio),
  reduced t x -> reduced t y -> reduced t z -> imin t < numer y -> numer y <> 0 -> imin t < numer z \/ 0 < numer y ->
  (toQ z == toQ x / toQ y)%Q -> r_div oc t x y = Done z.
Proof.
  intros oc t x y z [[Hxn Hxd] Hxg] [[Hyn Hyd] Hyg] Rz Hmy Hy0 Hedge E. pose proof Rz as [[Hzn Hzd] Hzg].
  apply toQ_quot in E; try lia.
  destruct x as [n1 d1], y as [n2 d2], z as [n3 d3]; cbn [numer denom] in *.
  pose proof (imin_le0 t) as I0.
  pose proof (gcd_pos_nz n1 n2 Hy0) as G1. pose proof (gcd_pos_r d1 d2 ltac:(lia)) as G2.
  pose proof (gcd_le_r d1 d2 ltac:(lia)) as L2.
  assert (L1 : Z.gcd n1 n2 <= imax t).
  { assert (Z.gcd n1 n2 <= Z.abs n2).
    { apply Z.divide_pos_le; [lia|]. apply Z.divide_abs_r, Z.gcd_divide_r. }
    destruct (signed t) eqn:S; [rewrite (signed_imin t S) in *|rewrite (unsigned_imin t S) in *]; lia. }
  set (g := Z.gcd n1 n2) in *. set (h := Z.gcd d1 d2) in *.
  pose proof (quot_exact n1 g ltac:(lia) (Z.gcd_divide_l n1 n2)) as En1.
  pose proof (quot_exact n2 g ltac:(lia) (Z.gcd_divide_r n1 n2)) as En2.
  pose proof (quot_exact d1 h ltac:(lia) (Z.gcd_divide_l d1 d2)) as Ed1.
  pose proof (quot_exact d2 h ltac:(lia) (Z.gcd_divide_r d1 d2)) as Ed2.
  set (a := Z.quot n1 g) in *. set (c := Z.quot n2 g) in *.
  set (b := Z.quot d1 h) in *. set (d := Z.quot d2 h) in *.
  assert (Hb : 0 < b) by nia. assert (Hd : 0 < d) by nia. assert (Hc : c <> 0) by nia.
  assert (Gac : Z.gcd a c = 1).
  { assert (K : Z.gcd (a * g) (c * g) = Z.gcd a c * g).
    { rewrite Z.gcd_mul_mono_r_nonneg by lia. reflexivity. }
    rewrite <- En1, <- En2 in K. fold g in K. nia. }
  assert (Gbd : Z.gcd b d = 1).
  { assert (K : Z.gcd (b * h) (d * h) = Z.gcd b d * h).
    { rewrite Z.gcd_mul_mono_r_nonneg by lia. reflexivity. }
    rewrite <- Ed1, <- Ed2 in K. fold h in K. nia. }
  assert (Gab : Z.gcd a b = 1).
  { apply Z.divide_antisym_nonneg; [apply Z.gcd_nonneg|lia| |apply Z.divide_1_l].
    rewrite <- Hxg. apply Z.gcd_greatest.
    - rewrite En1. apply Z.divide_mul_l, Z.gcd_divide_l.
    - rewrite Ed1. apply Z.divide_mul_l, Z.gcd_divide_r. }
  assert (Gcd_ : Z.gcd c d = 1).
  { apply Z.divide_antisym_nonneg; [apply Z.gcd_nonneg|lia| |apply Z.divide_1_l].
    rewrite <- Hyg. apply Z.gcd_greatest.
    - rewrite En2. apply Z.divide_mul_l, Z.gcd_divide_l.
    - rewrite Ed2. apply Z.divide_mul_l, Z.gcd_divide_r. }
  assert (Gnm : Z.gcd (a * d) (b * c) = 1).
  { apply Zgcd_1_rel_prime. apply rel_prime_sym.
    apply rel_prime_mult; apply rel_prime_sym.
    - apply rel_prime_mult; apply Zgcd_1_rel_prime; assumption.
    - apply rel_prime_mult; apply Zgcd_1_rel_prime; rewrite Z.gcd_comm; assumption. }
  assert (Ez : n3 * (b * c) = (a * d) * d3).
  { apply (Z.mul_reg_r _ _ (g * h)); [nia|].
    replace (n3 * (b * c) * (g * h)) with (n3 * ((b * h) * (c * g))) by ring.
    replace (a * d * d3 * (g * h)) with ((a * g) * (d * h) * d3) by ring.
    rewrite <- Ed1, <- Ed2, <- En1, <- En2. exact E. }
  assert (Hdd : d3 = Z.abs (b * c)).
  { apply Z.divide_antisym_nonneg; try nia.
    - apply Z.divide_abs_r. apply Z.gauss with n3; [|rewrite Z.gcd_comm; exact Hzg]. exists (a * d). lia.
    - apply Z.divide_abs_l. apply Z.gauss with (a * d); [|rewrite Z.gcd_comm; exact Gnm]. exists n3. lia. }
  unfold r_div, r_gcd. cbn [numer denom]. fold g h.
  rewrite chk_id by (unfold ity_ok; lia). cbn [obind]. rewrite chk_id by (unfold ity_ok; lia). cbn [obind].
  rewrite !p_div_ok by (unfold ity_ok; lia). cbn [obind]. fold a c b d.
  assert (Hsg : 0 < n2 <-> 0 < c) by (clear - En2 G1; nia).
  destruct (Z_lt_le_dec 0 c) as [Pc|Nc].
  - rewrite Z.abs_eq in Hdd by nia.
    assert (Hnn : n3 = a * d) by (rewrite Hdd in Ez; apply (Z.mul_reg_r _ _ (b * c)); nia).
    unfold p_mul. rewrite <- Hnn, chk_id by (unfold ity_ok; lia). cbn [obind].
    rewrite <- Hdd, chk_id by (unfold ity_ok; lia). cbn [obind].
    unfold r_new. apply r_reduce_id. exact Rz.
  - rewrite Z.abs_neq in Hdd by nia.
    assert (Hnn : a * d = - n3) by (rewrite Hdd in Ez; apply (Z.mul_reg_r _ _ (b * c)); nia).
    assert (Hmm : b * c = - d3) by lia.
    assert (S : signed t = true).
    { destruct (signed t) eqn:S; [reflexivity|]. rewrite (unsigned_imin t S) in Hmy. lia. }
    rewrite (signed_imin t S) in *.
    unfold p_mul. rewrite Hnn, Hmm. rewrite chk_id by (unfold ity_ok; rewrite (signed_imin t S); lia). cbn [obind].
    rewrite chk_id by (unfold ity_ok; rewrite (signed_imin t S); lia). cbn [obind].
    unfold r_new. apply (r_reduce_neg oc t (Frac n3 d3)); [exact Rz| |]; cbn [numer denom]; unfold ity_ok; rewrite (signed_imin t S); lia.
Qed.
Lemma C63_div_edge_refuted_proof :
  ~ (forall (t : ity) (x y z : ratio), reduced t x -> reduced t y -> reduced t z -> numer y <> 0 ->
     (toQ z == toQ x / toQ y)%Q -> r_div true t x y = Done z).
Proof.
  intros H.
  assert (R : forall a b, Z.gcd a b = 1 -> -128 <= a <= 127 -> 0 < b <= 127 -> reduced I8 (Frac a b))
    by (intros a b G A B; unfold reduced, valid; cbn; auto).
  specialize (H I8 (Frac 64 1) (Frac (-1) 2) (Frac (-128) 1)
    ltac:(apply R; [reflexivity|lia|lia]) ltac:(apply R; [reflexivity|lia|lia])
    ltac:(apply R; [reflexivity|lia|lia]) ltac:(cbn; lia) ltac:(reflexivity)).
  discriminate H.
Qed.

(** ** Remainder *)
Lemma rem_mul_distr a b k : Z.rem a b * k = Z.rem (a * k) (b * k).
Proof.
  destruct (Z.eq_dec k 0) as [->|Hk]; [rewrite !Z.mul_0_r; symmetry; apply Zquot.Zrem_0_r|].
  destruct (Z.eq_dec b 0) as [->|Hb]; [rewrite Z.mul_0_l, !Zquot.Zrem_0_r; reflexivity|].
  symmetry. apply Z.mul_rem_distr_r; assumption.
Qed.
Lemma rem_abs_le a b : b <> 0 -> Z.abs (Z.rem a b) <= Z.abs a.
Proof. intros Hb. rewrite <- Z.rem_abs by exact Hb. apply Z.rem_le; lia. Qed.
Lemma p_rem_spec t a b r : ity_ok t a -> ity_ok t b -> p_rem t a b = Done r -> r = Z.rem a b /\ ity_ok t r.
Proof.
  unfold p_rem. intros Ha _ H. destruct (Z.eqb_spec b 0) as [|Hb]; [discriminate|].
  destruct (in_range t (Z.quot a b)); [|discriminate]. injection H as <-. split; [reflexivity|].
  unfold ity_ok in *. pose proof (imin_le0 t). pose proof (imax_ge127 t). pose proof (rem_abs_le a b Hb).
  destruct (Z_le_gt_dec 0 a) as [Pa|Na].
  - pose proof (Z.rem_nonneg a b Hb Pa). lia.
  - pose proof (Z.rem_nonpos a b Hb ltac:(lia)). lia.
Qed.
Lemma r_rem_zero oc t x y : valid t x -> valid t y -> numer y = 0 -> exists p, r_rem oc t x y = Panics p.
Proof.
  intros [Hxn Hxd] [Hyn Hyd] E. destruct (calm_rrem oc t x y) as [[z H]|H]; [exfalso|exact H].
  unfold r_rem, r_addsub in H. destruct x as [a b], y as [c d]; cbn [numer denom] in *. subst c.
  destruct (b =? d).
  - discriminate H.
  - apply obind_inv in H as [l [_ H]]. apply obind_inv in H as [qx [_ H]]. apply obind_inv in H as [nx [_ H]].
    apply obind_inv in H as [qy [_ H]]. apply obind_inv in H as [ny [Hy H]].
    unfold p_mul in Hy. rewrite Z.mul_0_l, chk_id in Hy by (unfold ity_ok; pose proof (imin_le0 t); pose proof (imax_ge127 t); lia).
    injection Hy as <-. discriminate H.
Qed.
Lemma r_rem_spec t x y z : valid t x -> valid t y -> r_rem true t x y = Done z ->
  numer y <> 0 /\ reduced t z /\
  numer z * (denom x * denom y) = Z.rem (numer x * denom y) (numer y * denom x) * denom z.
Proof.
  intros Hx Hy H. split.
  { intros E. destruct (r_rem_zero true t x y Hx Hy E) as [p Hp]. congruence. }
  apply (r_addsub_spec t x y z (p_rem t) Z.rem); try assumption.
  - apply p_rem_spec.
  - apply rem_mul_distr.
Qed.

Lemma toQ_abs x : 0 < denom x -> (Qabs (toQ x) == toQ (Frac (Z.abs (numer x)) (denom x)))%Q.
Proof. intros _. reflexivity. Qed.
Lemma toQ_lt x y : 0 < denom x -> 0 < denom y -> (toQ x < toQ y)%Q <-> numer x * denom y < numer y * denom x.
Proof. intros Hx Hy. unfold Qlt, toQ. cbn. rewrite !Z2Pos.id by assumption. reflexivity. Qed.

Lemma rem_is_remainder x y z : 0 < denom x -> 0 < denom y -> 0 < denom z -> numer y <> 0 ->
  numer z * (denom x * denom y) = Z.rem (numer x * denom y) (numer y * denom x) * denom z ->
  is_remainder (toQ x) (toQ y) (toQ z).
Proof.
  destruct x as [a b], y as [c d], z as [n m]; cbn [numer denom]. intros Hb Hd Hm Hc E.
  set (N := a * d) in *. set (D := c * b) in *. assert (HD : D <> 0) by (unfold D; nia).
  pose proof (Z.quot_rem N D HD) as QR. pose proof (Z.rem_bound_abs N D HD) as Hab. pose proof (Z.rem_sign_mul N D HD) as Hsg.
  set (R := Z.rem N D) in *. set (q := Z.quot N D) in *.
  split; [|split].
  - exists q. assert (F : (toQ (Frac n m) == toQ (Frac (a * d - q * c * b) (b * d)))%Q).
    { apply toQ_eq; cbn [numer denom]; [lia|nia|]. rewrite E. unfold N, D in QR. replace (a * d - q * c * b) with R by lia. ring. }
    rewrite F. assert (G : (inject_Z q * toQ (Frac c d) == toQ (Frac (q * c) d))%Q).
    { unfold toQ, inject_Z, Qmult, Qeq. cbn. ring. }
    rewrite G, toQ_sub by (cbn; lia). reflexivity.
  - rewrite !toQ_abs by (cbn; lia). apply toQ_lt; cbn [numer denom]; try lia.
    assert (Hk : Z.abs n * (b * d) = Z.abs R * m).
    { rewrite <- (Z.abs_eq (b * d)) at 1 by nia. rewrite <- Z.abs_mul, E, Z.abs_mul, (Z.abs_eq m) by lia. reflexivity. }
    assert (HDa : Z.abs D = Z.abs c * b) by (unfold D; rewrite Z.abs_mul, (Z.abs_eq b) by lia; reflexivity).
    rewrite HDa in Hab. assert (Z.abs n * d * b < Z.abs c * m * b); [|clear - H Hb; nia].
    replace (Z.abs n * d * b) with (Z.abs n * (b * d)) by ring. rewrite Hk.
    clear - Hab Hm Hb. nia.
  - rewrite toQ_mul by (cbn; lia). unfold Qle, toQ. cbn [Qnum Qden numer denom].
    assert (0 <= n * a * (b * d)); [|clear - H Hb Hd; assert (0 < b * d) by nia; cbn; nia].
    replace (n * a * (b * d)) with (n * (b * d) * a) by ring. rewrite E.
    assert (0 <= R * a) by (unfold N in Hsg; clear - Hsg Hd; nia). clear - H Hm. nia.
Qed.

Lemma C63_rem_exact_or_panics_proof :
  forall (t : ity) (x y : ratio), valid t x -> valid t y ->
  (exists z, r_rem true t x y = Done z /\ numer y <> 0 /\ reduced t z /\ is_remainder (toQ x) (toQ y) (toQ z))
  \/ (exists p, r_rem true t x y = Panics p).
Proof.
  intros t x y Hx Hy. destruct (calm_rrem true t x y) as [[z H]|H]; [left|right; exact H].
  exists z. destruct (r_rem_spec t x y z Hx Hy H) as [Hn [R E]]. split; [exact H|]. split; [exact Hn|]. split; [exact R|].
  destruct Hx as [_ Hx], Hy as [_ Hy], R as [[_ Hz] _]. apply rem_is_remainder; try assumption; lia.
Qed.
Lemma C63_rem_zero_proof :
  forall (oc : bool) (t : ity) (x y : ratio), valid t x -> valid t y -> (toQ y == 0)%Q ->
  exists p, r_rem oc t x y = Panics p.
Proof.
  intros oc t x y Hx Hy E. apply r_rem_zero; try assumption.
  destruct (Z.eq_dec (numer y) 0) as [|N]; [assumption|]. exfalso. apply (toQ_nz y ltac:(destruct Hy; lia) N E).
Qed.

(** A remainder is determined. *)
Lemma C63_remainder_unique_proof :
  forall x y z z' : Q, is_remainder x y z -> is_remainder x y z' -> (z == z')%Q.
Proof.
  intros x y z z' [[q E] [B S]] [[q' E'] [B' S']].
  assert (Y : ~ (y == 0)%Q).
  { intros Y. rewrite Y in B. cbn in B. apply (Qlt_irrefl 0). eapply Qle_lt_trans; [apply Qabs_nonneg|exact B]. }
  destruct (Z.eq_dec q q') as [->|N]; [rewrite E, E'; reflexivity|exfalso].
  (* z - z' is a whole multiple of y, and both are on the same side of zero *)
  assert (K : (z - z' == inject_Z (q' - q) * y)%Q).
  { rewrite E, E'. unfold Z.sub. rewrite inject_Z_plus, inject_Z_opp. ring. }
  assert (L : (Qabs y <= Qabs (z - z'))%Q).
  { rewrite K, Qabs_Qmult. assert (1 <= Qabs (inject_Z (q' - q)))%Q as H1.
    { unfold Qabs, inject_Z, Qle. cbn. lia. }
    rewrite <- (Qmult_1_l (Qabs y)) at 1. apply Qmult_le_compat_r; [exact H1|apply Qabs_nonneg]. }
  assert (M : (Qabs (z - z') < Qabs y)%Q).
  { destruct (Qlt_le_dec 0 x) as [Px|Nx].
    - assert (0 <= z)%Q. { destruct (Qlt_le_dec z 0) as [C|C]; [exfalso|exact C]. apply (Qlt_irrefl 0). eapply Qle_lt_trans; [exact S|]. rewrite <- (Qmult_0_l x). apply Qmult_lt_compat_r; assumption. }
      assert (0 <= z')%Q. { destruct (Qlt_le_dec z' 0) as [C|C]; [exfalso|exact C]. apply (Qlt_irrefl 0). eapply Qle_lt_trans; [exact S'|]. rewrite <- (Qmult_0_l x). apply Qmult_lt_compat_r; assumption. }
      rewrite (Qabs_pos z), (Qabs_pos z') in * by assumption. apply Qabs_Qlt_condition. split; lra.
    - destruct (Qlt_le_dec x 0) as [Qx|Qx].
      + assert (z <= 0)%Q. { destruct (Qlt_le_dec 0 z) as [C|C]; [exfalso|exact C]. apply (Qlt_irrefl 0). eapply Qle_lt_trans; [exact S|]. rewrite <- (Qmult_0_r z). rewrite !(Qmult_comm z). apply Qmult_lt_compat_r; assumption. }
        assert (z' <= 0)%Q. { destruct (Qlt_le_dec 0 z') as [C|C]; [exfalso|exact C]. apply (Qlt_irrefl 0). eapply Qle_lt_trans; [exact S'|]. rewrite <- (Qmult_0_r z'). rewrite !(Qmult_comm z'). apply Qmult_lt_compat_r; assumption. }
        rewrite (Qabs_neg z), (Qabs_neg z') in * by assumption. apply Qabs_Qlt_condition. split; lra.
      + assert (x == 0)%Q by lra. rewrite H in E, E'.
        assert (z == 0)%Q. { assert (Z0 : (z == inject_Z (- q) * y)%Q) by (rewrite E, inject_Z_opp; ring). destruct (Z.eq_dec q 0) as [->|Nq]; [rewrite Z0; apply Qmult_0_l|exfalso]. rewrite Z0, Qabs_Qmult in B. apply (Qlt_irrefl (Qabs y)). eapply Qle_lt_trans; [|exact B]. rewrite <- (Qmult_1_l (Qabs y)) at 1. apply Qmult_le_compat_r; [|apply Qabs_nonneg]. unfold Qabs, inject_Z, Qle. cbn. lia. }
        assert (z' == 0)%Q. { assert (Z0 : (z' == inject_Z (- q') * y)%Q) by (rewrite E', inject_Z_opp; ring). destruct (Z.eq_dec q' 0) as [->|Nq]; [rewrite Z0; apply Qmult_0_l|exfalso]. rewrite Z0, Qabs_Qmult in B'. apply (Qlt_irrefl (Qabs y)). eapply Qle_lt_trans; [|exact B']. rewrite <- (Qmult_1_l (Qabs y)) at 1. apply Qmult_le_compat_r; [|apply Qabs_nonneg]. unfold Qabs, inject_Z, Qle. cbn. lia. }
        rewrite H0, H1. cbn. eapply Qle_lt_trans; [|exact B]. apply Qabs_nonneg. }
  apply (Qlt_irrefl (Qabs y)). eapply Qle_lt_trans; eassumption.
Qed.
Lemma C63_rem_min_refuted_proof :
  ~ (forall (oc : bool) (t : ity) (x y z : ratio), reduced t x -> reduced t y -> reduced t z -> denom x = denom y ->
     is_remainder (toQ x) (toQ y) (toQ z) -> r_rem oc t x y = Done z).
Proof.
  intros H.
  assert (R : forall a b, Z.gcd a b = 1 -> -128 <= a <= 127 -> 0 < b <= 127 -> reduced I8 (Frac a b))
    by (intros a b G A B; unfold reduced, valid; cbn; auto).
  specialize (H false I8 (Frac (-128) 1) (Frac (-1) 1) (Frac 0 1)
    ltac:(apply R; [reflexivity|lia|lia]) ltac:(apply R; [reflexivity|lia|lia])
    ltac:(apply R; [reflexivity|lia|lia]) ltac:(reflexivity)).
  assert (I : is_remainder (toQ (Frac (-128) 1)) (toQ (Frac (-1) 1)) (toQ (Frac 0 1))).
  { split; [exists 128; reflexivity|]. split; [reflexivity|]. cbn. unfold Qle. cbn. lia. }
  specialize (H I). discriminate H.
Qed.

(** ** Integer operands *)
Lemma r_new_int oc t n : ity_ok t n -> r_new oc t n 1 = Done (Frac n 1).
Proof.
  intros Hn. apply (r_reduce_id oc t (Frac n 1)). split; [split; cbn [numer denom]; [exact Hn|]|apply Z.gcd_1_r].
  pose proof (imax_ge127 t). lia.
Qed.
Lemma C63_integer_operands_proof :
  forall (oc : bool) (t : ity) (x : ratio) (n : Z), imin t <= n <= imax t ->
  r_add_int oc t x n = r_add oc t x (Frac n 1) /\
  r_sub_int oc t x n = r_sub oc t x (Frac n 1) /\
  r_mul_int oc t x n = r_mul oc t x (Frac n 1) /\
  r_div_int oc t x n = r_div oc t x (Frac n 1) /\
  r_rem_int oc t x n = r_rem oc t x (Frac n 1).
Proof.
  intros oc t x n Hn. unfold r_add_int, r_sub_int, r_mul_int, r_div_int, r_rem_int, with_int.
  rewrite (r_new_int oc t n Hn). cbn [obind]. auto.
Qed.
Lemma C63_release_agrees_proof :
  forall (t : ity) (x y z : ratio),
  (r_div true t x y = Done z -> r_div false t x y = Done z) /\
  (r_rem true t x y = Done z -> r_rem false t x y = Done z).
Proof. intros. split; [apply r_div_mono|apply r_rem_mono]. Qed.
Lemma C63_release_exact_refuted_proof :
  ~ (forall (t : ity) (x y z : ratio), reduced t x -> reduced t y -> numer y <> 0 ->
     r_div false t x y = Done z -> (toQ z == toQ x / toQ y)%Q).
Proof.
  intros H.
  assert (R : forall a b, Z.gcd a b = 1 -> -128 <= a <= 127 -> 0 < b <= 127 -> reduced I8 (Frac a b))
    by (intros a b G A B; unfold reduced, valid; cbn; auto).
  specialize (H I8 (Frac 1 127) (Frac 127 1) (Frac 1 1) ltac:(apply R; [reflexivity|lia|lia])
    ltac:(apply R; [reflexivity|lia|lia]) ltac:(cbn; lia) ltac:(reflexivity)). discriminate H.
Qed.
