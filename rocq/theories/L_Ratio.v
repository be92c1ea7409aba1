From Coq Require Import ZArith QArith Lia Bool Znumtheory.
From Verif Require Import M_Outcome M_Ints M_Ratio S_Ratio L_Outcome L_Ints.
Local Open Scope Z_scope.
Local Arguments Z.mul : simpl never.
Local Arguments Z.add : simpl never.
Local Arguments Z.sub : simpl never.
Local Arguments Z.opp : simpl never.
Local Arguments Z.gcd : simpl never.

Lemma toQ_eq x y : 0 < denom x -> 0 < denom y ->
  (toQ x == toQ y)%Q <-> numer x * denom y = numer y * denom x.
Proof. intros Hx Hy. unfold Qeq, toQ. cbn. rewrite !Z2Pos.id by assumption. reflexivity. Qed.

(** Division by a positive divisor always succeeds. *)
Lemma quot_range t a b : ity_ok t a -> 0 < b -> ity_ok t (Z.quot a b).
Proof.
  unfold ity_ok. intros H Hb. pose proof (imin_le0 t). pose proof (imax_ge127 t).
  destruct (Z_le_gt_dec 0 a).
  - pose proof (Z.quot_pos a b ltac:(lia) Hb).
    pose proof (Z.quot_le_upper_bound a b a Hb). nia.
  - assert (Z.quot a b = - Z.quot (- a) b) as -> by (rewrite Z.quot_opp_l by lia; lia).
    pose proof (Z.quot_pos (- a) b ltac:(lia) Hb).
    pose proof (Z.quot_le_upper_bound (- a) b (- a) Hb). nia.
Qed.

Lemma p_div_ok t a b : ity_ok t a -> 0 < b -> p_div t a b = Done (Z.quot a b).
Proof.
  intros Ha Hb. unfold p_div. destruct (Z.eqb_spec b 0); [lia|].
  pose proof (quot_range t a b Ha Hb) as H. apply in_range_iff in H. rewrite H. reflexivity.
Qed.

Lemma p_rem_ok t a b : ity_ok t a -> 0 < b -> p_rem t a b = Done (Z.rem a b).
Proof.
  intros Ha Hb. unfold p_rem. destruct (Z.eqb_spec b 0); [lia|].
  pose proof (quot_range t a b Ha Hb) as H. apply in_range_iff in H. rewrite H. reflexivity.
Qed.

Lemma gcd_pos_r a b : 0 < b -> 0 < Z.gcd a b.
Proof.
  intros H. pose proof (Z.gcd_nonneg a b).
  assert (Z.gcd a b <> 0) by (intros E; apply Z.gcd_eq_0_r in E; lia). lia.
Qed.

Lemma gcd_le_r a b : 0 < b -> Z.gcd a b <= b.
Proof. intros H. apply Z.divide_pos_le; [exact H|apply Z.gcd_divide_r]. Qed.

Lemma gcd_le_l a b : 0 < a -> Z.gcd a b <= a.
Proof. intros H. apply Z.divide_pos_le; [exact H|apply Z.gcd_divide_l]. Qed.

Lemma quot_exact a g : g <> 0 -> (g | a) -> a = Z.quot a g * g.
Proof. intros Hg [k ->]. rewrite Z.quot_mul by exact Hg. reflexivity. Qed.

Lemma quot_pos_exact a g : 0 < g -> 0 < a -> (g | a) -> 0 < Z.quot a g.
Proof. intros Hg Ha [k ->]. rewrite Z.quot_mul by lia. nia. Qed.

(** ** reduce *)

Lemma r_reduce_spec t r z :
  ity_ok t (numer r) -> ity_ok t (denom r) -> r_reduce true t r = Done z ->
  reduced t z /\ numer z * denom r = numer r * denom z.
Proof.
  intros Hn Hd H. unfold r_reduce in H. destruct r as [n d]; cbn in *.
  pose proof (imin_le0 t) as I0. pose proof (imax_ge127 t) as I1.
  destruct (Z.eqb_spec d 0) as [|Hd0]; [discriminate|].
  destruct (Z.eqb_spec n 0) as [->|Hn0].
  { inversion H; subst; cbn. split; [|lia]. unfold reduced, valid; cbn.
    repeat split; lia. }
  destruct (Z.eqb_spec n d) as [->|Hnd].
  { inversion H; subst; cbn. split; [|lia]. unfold reduced, valid; cbn. repeat split; lia. }
  apply obind_inv in H. destruct H as [g [Hg H]].
  apply chk_true_inv in Hg. destruct Hg as [-> Hgr].
  set (g := Z.gcd n d) in *.
  assert (Hgpos : 0 < g).
  { pose proof (Z.gcd_nonneg n d). assert (g <> 0) by (intros E; apply Z.gcd_eq_0_l in E; lia).
    unfold g in *. lia. }
  rewrite !p_div_ok in H by assumption. cbn in H.
  pose proof (quot_exact n g ltac:(lia) (Z.gcd_divide_l n d)) as En.
  pose proof (quot_exact d g ltac:(lia) (Z.gcd_divide_r n d)) as Ed.
  pose proof (quot_range t n g Hn Hgpos) as Rn. pose proof (quot_range t d g Hd Hgpos) as Rd.
  set (n' := Z.quot n g) in *. set (d' := Z.quot d g) in *.
  assert (Hcop : Z.gcd n' d' = 1).
  { assert (Z.gcd n d = Z.gcd n' d' * g) as E.
    { rewrite En at 1. rewrite Ed at 1.
      rewrite Z.gcd_mul_mono_r. rewrite Z.abs_eq by lia. reflexivity. }
    fold g in E. nia. }
  assert (Hd' : d' <> 0) by nia.
  assert (Hx : n' * d = n * d') by
    (transitivity (n' * (d' * g)); [rewrite <- Ed; reflexivity|];
     transitivity ((n' * g) * d'); [ring|rewrite <- En; reflexivity]).
  destruct (Z.ltb_spec d' 0).
  - apply obind_inv in H. destruct H as [n2 [H1 H]]. apply obind_inv in H. destruct H as [d2 [H2 H]].
    apply chk_true_inv in H1. apply chk_true_inv in H2. destruct H1 as [-> R1]. destruct H2 as [-> R2].
    injection H as <-. unfold ity_ok in *. split; [|cbn [numer denom]; lia]. unfold reduced, valid; cbn -[Z.gcd].
    change (0 - n') with (- n'). change (0 - d') with (- d').
    rewrite Z.gcd_opp_l, Z.gcd_opp_r. repeat split; lia.
  - injection H as <-. unfold ity_ok in *. split; [|exact Hx]. unfold reduced, valid; cbn -[Z.gcd].
    repeat split; lia.
Qed.

Lemma r_reduce_positive t r oc :
  ity_ok t (numer r) -> 0 < denom r <= imax t ->
  exists z, r_reduce oc t r = Done z /\ reduced t z /\ numer z * denom r = numer r * denom z.
Proof.
  intros Hn Hd. assert (Hdr : ity_ok t (denom r)).
  { unfold ity_ok. pose proof (imin_le0 t). lia. }
  assert (exists z, r_reduce oc t r = Done z /\ r_reduce true t r = Done z) as [z [H1 H2]].
  { unfold r_reduce. destruct r as [n d]; cbn in *.
    destruct (Z.eqb_spec d 0); [lia|].
    destruct (Z.eqb_spec n 0); [eauto|]. destruct (Z.eqb_spec n d); [eauto|].
    pose proof (gcd_pos_r n d ltac:(lia)). pose proof (gcd_le_r n d ltac:(lia)).
    assert (ity_ok t (Z.gcd n d)) by (pose proof (imin_le0 t); unfold ity_ok in *; lia).
    unfold r_gcd. rewrite !chk_id by assumption. cbn.
    rewrite !p_div_ok by assumption. cbn.
    pose proof (quot_pos_exact d (Z.gcd n d) ltac:(lia) ltac:(lia) (Z.gcd_divide_r n d)).
    destruct (Z.ltb_spec (Z.quot d (Z.gcd n d)) 0); [lia|]. eauto. }
  exists z. split; [exact H1|]. apply r_reduce_spec; assumption.
Qed.

Lemma r_reduce_id oc t r : reduced t r -> r_reduce oc t r = Done r.
Proof.
  intros [[Hn Hd] Hg]. destruct (r_reduce_positive t r oc Hn Hd) as [z [H1 [[[_ Hd'] Hg'] H3]]].
  rewrite H1. destruct r as [n d], z as [n' d']; cbn in *. f_equal.
  assert (d = d').
  { apply Z.divide_antisym_nonneg; try lia.
    - apply Z.gauss with n; [|rewrite Z.gcd_comm; exact Hg]. exists n'. lia.
    - apply Z.gauss with n'; [|rewrite Z.gcd_comm; exact Hg']. exists n. lia. }
  subst d'. f_equal. nia.
Qed.

(** Two reduced fractions with the same value are equal. *)
Lemma reduced_inj t x y :
  reduced t x -> reduced t y -> numer x * denom y = numer y * denom x -> x = y.
Proof.
  intros [[_ Hd] Hg] [[_ Hd'] Hg'] H3. destruct x as [n d], y as [n' d']; cbn in *.
  assert (d = d').
  { apply Z.divide_antisym_nonneg; try lia.
    - apply Z.gauss with n; [|rewrite Z.gcd_comm; exact Hg]. exists n'. lia.
    - apply Z.gauss with n'; [|rewrite Z.gcd_comm; exact Hg']. exists n. lia. }
  subst d'. f_equal. nia.
Qed.

(** ** Multiplication *)

Lemma r_mul_spec t x y z :
  valid t x -> valid t y -> r_mul true t x y = Done z ->
  reduced t z /\ numer z * (denom x * denom y) = numer x * numer y * denom z.
Proof.
  intros [Hxn Hxd] [Hyn Hyd] H. unfold r_mul in H. destruct x as [n1 d1], y as [n2 d2]; cbn in *.
  apply obind_inv in H. destruct H as [g1 [H1 H]]. apply chk_true_inv in H1. destruct H1 as [-> _].
  apply obind_inv in H. destruct H as [g2 [H1 H]]. apply chk_true_inv in H1. destruct H1 as [-> _].
  pose proof (gcd_pos_r n1 d2 ltac:(lia)) as G1.
  assert (0 < Z.gcd d1 n2) as G2 by (rewrite Z.gcd_comm; apply gcd_pos_r; lia).
  pose proof (imin_le0 t) as I0.
  assert (Rd1 : ity_ok t d1) by (unfold ity_ok; lia). assert (Rd2 : ity_ok t d2) by (unfold ity_ok; lia).
  rewrite p_div_ok in H by assumption. cbn in H. rewrite p_div_ok in H by assumption. cbn in H.
  apply obind_inv in H. destruct H as [n [H1 H]]. apply chk_true_inv in H1. destruct H1 as [-> Rn].
  rewrite p_div_ok in H by assumption. cbn in H. rewrite p_div_ok in H by assumption. cbn in H.
  apply obind_inv in H. destruct H as [m [H1 H]]. apply chk_true_inv in H1. destruct H1 as [-> Rm].
  pose proof (quot_exact n1 (Z.gcd n1 d2) ltac:(lia) (Z.gcd_divide_l n1 d2)) as E1.
  pose proof (quot_exact d2 (Z.gcd n1 d2) ltac:(lia) (Z.gcd_divide_r n1 d2)) as E2.
  pose proof (quot_exact d1 (Z.gcd d1 n2) ltac:(lia) (Z.gcd_divide_l d1 n2)) as E3.
  pose proof (quot_exact n2 (Z.gcd d1 n2) ltac:(lia) (Z.gcd_divide_r d1 n2)) as E4.
  apply r_reduce_spec in H; [|exact Rn|exact Rm]. cbn in H. destruct H as [Hr Hv]. split; [exact Hr|].
  set (ga := Z.gcd n1 d2) in *. set (gb := Z.gcd d1 n2) in *.
  set (a := Z.quot n1 ga) in *. set (b := Z.quot d2 ga) in *.
  set (c := Z.quot d1 gb) in *. set (e := Z.quot n2 gb) in *.
  transitivity (numer z * (c * b) * (ga * gb)); [rewrite E3, E2; ring|].
  rewrite Hv. rewrite E1, E4. ring.
Qed.

Lemma mul_exact_factors a b c d k l : 0 < k -> 0 < l -> Z.abs (a * k * (b * l)) <= c -> c <= d -> Z.abs (a * b) <= d.
Proof.
  intros Hk Hl H Hc. replace (a * k * (b * l)) with ((a * b) * (k * l)) in H by ring.
  rewrite Z.abs_mul in H. rewrite (Z.abs_eq (k * l)) in H by nia.
  assert (1 <= k * l) as Hkl by nia. pose proof (Z.abs_nonneg (a * b)) as Hp.
  revert H Hkl Hp. generalize (Z.abs (a * b)) (k * l). intros; nia.
Qed.

Lemma le_of_mul p q r : 0 < p -> 0 < q -> p * q <= r -> p <= r.
Proof. nia. Qed.

(** Multiplication succeeds when the products of numerators and denominators fit. *)
Lemma r_mul_done oc t x y :
  valid t x -> valid t y -> Z.abs (numer x * numer y) <= imax t -> (signed t = false -> 0 <= numer x * numer y) ->
  denom x * denom y <= imax t -> exists z, r_mul oc t x y = Done z /\ r_mul true t x y = Done z.
Proof.
  intros [Hxn Hxd] [Hyn Hyd] Hn Hs Hd. unfold r_mul. destruct x as [n1 d1], y as [n2 d2]; cbn in *.
  pose proof (imin_le0 t) as I0.
  pose proof (gcd_pos_r n1 d2 ltac:(lia)) as G1. pose proof (gcd_le_r n1 d2 ltac:(lia)).
  assert (0 < Z.gcd d1 n2) as G2 by (rewrite Z.gcd_comm; apply gcd_pos_r; lia).
  pose proof (gcd_le_l d1 n2 ltac:(lia)).
  assert (Rd1 : ity_ok t d1) by (unfold ity_ok; lia). assert (Rd2 : ity_ok t d2) by (unfold ity_ok; lia).
  unfold r_gcd. rewrite !chk_id by (unfold ity_ok; lia). cbn.
  rewrite !p_div_ok by assumption. cbn.
  pose proof (quot_exact n1 (Z.gcd n1 d2) ltac:(lia) (Z.gcd_divide_l n1 d2)) as E1.
  pose proof (quot_exact d2 (Z.gcd n1 d2) ltac:(lia) (Z.gcd_divide_r n1 d2)) as E2.
  pose proof (quot_exact d1 (Z.gcd d1 n2) ltac:(lia) (Z.gcd_divide_l d1 n2)) as E3.
  pose proof (quot_exact n2 (Z.gcd d1 n2) ltac:(lia) (Z.gcd_divide_r d1 n2)) as E4.
  set (ga := Z.gcd n1 d2) in *. set (gb := Z.gcd d1 n2) in *.
  set (a := Z.quot n1 ga) in *. set (b := Z.quot d2 ga) in *.
  set (c := Z.quot d1 gb) in *. set (e := Z.quot n2 gb) in *.
  assert (Rn : ity_ok t (a * e)).
  { assert (Z.abs (a * e) <= imax t).
    { apply (mul_exact_factors a e (imax t) (imax t) ga gb G1 G2); [rewrite <- E1, <- E4; exact Hn|lia]. }
    unfold ity_ok. destruct (signed t) eqn:S.
    - rewrite (signed_imin t S). lia.
    - rewrite (unsigned_imin t S). specialize (Hs eq_refl).
      assert (n1 * n2 = (a * e) * (ga * gb)) by (rewrite E1 at 1; rewrite E4 at 1; ring). nia. }
  assert (0 < c) by nia. assert (0 < b) by nia.
  assert (Rm : 0 < c * b <= imax t).
  { split; [nia|]. assert (d1 * d2 = (c * b) * (ga * gb)) by (rewrite E3 at 1; rewrite E2 at 1; ring).
    apply (le_of_mul (c * b) (ga * gb)); try nia. }
  unfold p_mul. rewrite !chk_id by (assumption || (unfold ity_ok; lia)). cbn.
  unfold r_new.
  destruct (r_reduce_positive t (Frac (a * e) (c * b)) true Rn Rm) as [z [K1 [K2 K3]]].
  exists z. split; [|exact K1].
  destruct (r_reduce_positive t (Frac (a * e) (c * b)) oc Rn Rm) as [z' [L1 [L2 L3]]].
  rewrite L1. f_equal. apply (reduced_inj t); try assumption.
  cbn in *. destruct K2 as [[_ Hz] _]. destruct L2 as [[_ Hz'] _].
  assert (numer z' * denom z * (c * b) = numer z * denom z' * (c * b)) as E.
  { transitivity (numer z' * (c * b) * denom z); [ring|]. rewrite L3.
    transitivity (numer z * (c * b) * denom z'); [rewrite K3|]; ring. }
  apply Z.mul_cancel_r in E; [exact E|lia].
Qed.

(** ** Addition and subtraction *)

Lemma r_lcm_spec t a b l : 0 < a <= imax t -> 0 < b <= imax t -> r_lcm true t a b = Done l ->
  l = a * Z.quot b (Z.gcd a b) /\ ity_ok t l.
Proof.
  intros Ha Hb H. unfold r_lcm in H. pose proof (imin_le0 t).
  destruct (Z.eqb_spec a 0); [lia|]. cbn in H.
  apply obind_inv in H. destruct H as [g [H1 H]]. apply chk_true_inv in H1. destruct H1 as [-> _].
  pose proof (gcd_pos_r a b ltac:(lia)) as G.
  rewrite p_div_ok in H by (unfold ity_ok; lia). cbn in H.
  apply obind_inv in H. destruct H as [p [H1 H]]. apply chk_true_inv in H1. destruct H1 as [-> R].
  pose proof (quot_pos_exact b (Z.gcd a b) ltac:(lia) ltac:(lia) (Z.gcd_divide_r a b)).
  destruct (signed t).
  - apply chk_true_inv in H. destruct H as [-> R']. rewrite Z.abs_eq in * by nia. auto.
  - inversion H; subst. auto.
Qed.

Lemma lcm_divides a b : 0 < a -> 0 < b ->
  let l := a * Z.quot b (Z.gcd a b) in (a | l) /\ (b | l) /\ 0 < l.
Proof.
  intros Ha Hb l. pose proof (gcd_pos_r a b ltac:(lia)) as G.
  pose proof (quot_exact b (Z.gcd a b) ltac:(lia) (Z.gcd_divide_r a b)) as E.
  pose proof (quot_exact a (Z.gcd a b) ltac:(lia) (Z.gcd_divide_l a b)) as E2.
  pose proof (quot_pos_exact b (Z.gcd a b) ltac:(lia) ltac:(lia) (Z.gcd_divide_r a b)).
  repeat split.
  - apply Z.divide_factor_l.
  - exists (Z.quot a (Z.gcd a b)). unfold l.
    transitivity (Z.quot a (Z.gcd a b) * (Z.quot b (Z.gcd a b) * Z.gcd a b)); [|rewrite <- E; reflexivity].
    transitivity ((Z.quot a (Z.gcd a b) * Z.gcd a b) * Z.quot b (Z.gcd a b)); [rewrite <- E2; reflexivity|ring].
  - unfold l. nia.
Qed.

Lemma r_addsub_spec t x y z op f :
  (forall a b r, ity_ok t a -> ity_ok t b -> op a b = Done r -> r = f a b /\ ity_ok t r) ->
  (forall a b k, f a b * k = f (a * k) (b * k)) ->
  valid t x -> valid t y -> r_addsub true t op x y = Done z ->
  reduced t z /\ numer z * (denom x * denom y) = f (numer x * denom y) (numer y * denom x) * denom z.
Proof.
  intros Hop Hf [Hxn Hxd] [Hyn Hyd] H. unfold r_addsub in H.
  destruct x as [n1 d1], y as [n2 d2]; cbn in *. pose proof (imin_le0 t) as I0.
  assert (Rd1 : ity_ok t d1) by (unfold ity_ok; lia). assert (Rd2 : ity_ok t d2) by (unfold ity_ok; lia).
  destruct (Z.eqb_spec d1 d2) as [->|Hne].
  - apply obind_inv in H. destruct H as [n [H1 H]]. apply Hop in H1; [|assumption|assumption]. destruct H1 as [-> R].
    apply r_reduce_spec in H; try assumption. cbn in H. destruct H as [H1 H2]. split; [exact H1|].
    rewrite Z.mul_assoc, H2, <- Hf. ring.
  - apply obind_inv in H. destruct H as [l [H1 H]]. apply r_lcm_spec in H1; try lia.
    destruct H1 as [El Rl]. pose proof (lcm_divides d1 d2 ltac:(lia) ltac:(lia)) as [D1 [D2 Pl]].
    rewrite <- El in *. clear El.
    rewrite p_div_ok in H by (assumption || lia). cbn in H.
    apply obind_inv in H. destruct H as [nx [H1 H]]. apply chk_true_inv in H1. destruct H1 as [-> R1].
    rewrite p_div_ok in H by (assumption || lia). cbn in H.
    apply obind_inv in H. destruct H as [ny [H1 H]]. apply chk_true_inv in H1. destruct H1 as [-> R2].
    apply obind_inv in H. destruct H as [n [H1 H]]. apply Hop in H1; [|assumption|assumption]. destruct H1 as [-> R].
    apply r_reduce_spec in H; try assumption. cbn in H. destruct H as [H1 H2]. split; [exact H1|].
    pose proof (quot_exact l d1 ltac:(lia) D1) as E1. pose proof (quot_exact l d2 ltac:(lia) D2) as E2.
    set (q1 := Z.quot l d1) in *. set (q2 := Z.quot l d2) in *.
    assert (numer z * (d1 * d2) * l = f (n1 * d2) (n2 * d1) * denom z * l) as E; [|nia].
    transitivity (numer z * l * (d1 * d2)); [ring|]. rewrite H2.
    transitivity (f (n1 * q1) (n2 * q2) * (d1 * d2) * denom z); [ring|].
    rewrite Hf.
    transitivity (f (n1 * d2) (n2 * d1) * l * denom z); [|ring]. rewrite (Hf (n1 * d2) (n2 * d1) l).
    replace (n1 * q1 * (d1 * d2)) with (n1 * d2 * l) by (rewrite E1; ring).
    replace (n2 * q2 * (d1 * d2)) with (n2 * d1 * l) by (rewrite E2; ring).
    reflexivity.
Qed.

Lemma r_add_spec t x y z :
  valid t x -> valid t y -> r_add true t x y = Done z ->
  reduced t z /\
  numer z * (denom x * denom y) = (numer x * denom y + numer y * denom x) * denom z.
Proof.
  intros Hx Hy H. apply (r_addsub_spec t x y z (p_add true t) Z.add); try assumption.
  - intros a b r _ _ Hr. apply chk_true_inv in Hr. destruct Hr as [-> R]. auto.
  - intros. ring.
Qed.

Lemma r_sub_spec t x y z :
  valid t x -> valid t y -> r_sub true t x y = Done z ->
  reduced t z /\
  numer z * (denom x * denom y) = (numer x * denom y - numer y * denom x) * denom z.
Proof.
  intros Hx Hy H. apply (r_addsub_spec t x y z (p_sub true t) Z.sub); try assumption.
  - intros a b r _ _ Hr. apply chk_true_inv in Hr. destruct Hr as [-> R]. auto.
  - intros. ring.
Qed.

(** ** Unchecked builds agree with checked builds that do not panic *)

Lemma obind_mono {A B} (m m' : outcome A) (f f' : A -> outcome B) r :
  (forall a, m = Done a -> m' = Done a) ->
  (forall a b, f a = Done b -> f' a = Done b) ->
  obind m f = Done r -> obind m' f' = Done r.
Proof.
  intros H1 H2 H. apply obind_inv in H. destruct H as [a [Ha Hb]].
  rewrite (H1 a Ha). cbn. apply H2. exact Hb.
Qed.

Ltac mono :=
  repeat (intros; match goal with
    | H : ?x |- ?x => exact H
    | H : (if ?b then _ else _) = Done _ |- _ => destruct b
    | H : chk true _ _ = Done _ |- chk _ _ _ = Done _ => eapply chk_mono; exact H
    | H : obind _ _ = Done _ |- obind _ _ = Done _ => revert H; apply obind_mono
    end); intros.

Lemma r_reduce_mono oc t x z : r_reduce true t x = Done z -> r_reduce oc t x = Done z.
Proof. unfold r_reduce, r_gcd, p_sub. mono. Qed.

Lemma r_lcm_mono oc t a b z : r_lcm true t a b = Done z -> r_lcm oc t a b = Done z.
Proof. unfold r_lcm, r_gcd, p_mul, p_abs. mono. Qed.

Lemma r_mul_mono oc t x y z : r_mul true t x y = Done z -> r_mul oc t x y = Done z.
Proof. unfold r_mul, r_gcd, p_mul, r_new. mono. apply r_reduce_mono. assumption. Qed.

Lemma r_addsub_mono oc t op op' x y z :
  (forall a b r, op a b = Done r -> op' a b = Done r) ->
  r_addsub true t op x y = Done z -> r_addsub oc t op' x y = Done z.
Proof.
  intros Hop. unfold r_addsub, p_mul, r_new. mono; try (apply r_reduce_mono; assumption);
    try (apply Hop; assumption). apply r_lcm_mono. assumption.
Qed.

Lemma r_add_mono oc t x y z : r_add true t x y = Done z -> r_add oc t x y = Done z.
Proof. apply r_addsub_mono. intros a b r. apply chk_mono. Qed.

Lemma r_sub_mono oc t x y z : r_sub true t x y = Done z -> r_sub oc t x y = Done z.
Proof. apply r_addsub_mono. intros a b r. apply chk_mono. Qed.

Lemma r_floor_mono oc t x z : r_floor true t x = Done z -> r_floor oc t x = Done z.
Proof. unfold r_floor, p_sub, p_add. mono. Qed.

Lemma r_ceil_mono oc t x z : r_ceil true t x = Done z -> r_ceil oc t x = Done z.
Proof. unfold r_ceil, p_sub, p_add. mono. Qed.

Lemma r_round_mono oc t x z : r_round true t x = Done z -> r_round oc t x = Done z.
Proof.
  unfold r_round, p_add. mono; first [apply r_sub_mono; assumption | apply r_add_mono; assumption].
Qed.
