From Coq Require Import ZArith QArith Lia Bool Znumtheory.
From Verif Require Import M_Outcome M_Ints M_Ratio M_RatioOps S_Ratio S_RatioOps L_Outcome L_Ints L_Ratio L_RatioQ L_RatioOps.
Local Open Scope Z_scope.
Local Arguments Z.mul : simpl never.
Local Arguments Z.add : simpl never.
Local Arguments Z.sub : simpl never.
Local Arguments Z.opp : simpl never.
Local Arguments Z.gcd : simpl never.
Local Arguments Z.lcm : simpl never.

(** ** [new] *)
Lemma new_complete oc t n d z : ity_ok t n -> ity_ok t d -> d <> 0 -> reduced t z -> n * denom z = numer z * d ->
  r_new oc t n d = Done z.
Proof.
  intros Hn Hd Hd0 Hz E. pose proof (imin_le0 t) as I0. pose proof (imax_ge127 t) as I1.
  destruct (Z_lt_le_dec 0 d) as [Hp|Hp].
  { destruct (r_reduce_positive t (Frac n d) oc Hn ltac:(unfold ity_ok in *; cbn; lia)) as (z' & H1 & H2 & H3). cbn in H3.
    unfold r_new. rewrite H1. f_equal. apply (reduced_inj t); try assumption.
    assert (numer z' * denom z * d = numer z * denom z' * d) as K; [|nia].
    transitivity (numer z' * d * denom z); [ring|]. rewrite H3. transitivity (n * denom z * denom z'); [ring|]. rewrite E. ring. }
  destruct Hz as [[Zn Zd] Zg]. destruct z as [a b]. cbn in *. unfold r_new, r_reduce. cbn.
  destruct (Z.eqb_spec d 0); [lia|]. destruct (Z.eqb_spec n 0) as [->|Hn0].
  { assert (a = 0) by nia. subst a. rewrite Z.gcd_0_l, Z.abs_eq in Zg by lia. subst b. reflexivity. }
  destruct (Z.eqb_spec n d) as [->|Hnd].
  { assert (a = b) by nia. subst b. rewrite Z.gcd_diag, Z.abs_eq in Zg by lia. subst a. reflexivity. }
  set (g := Z.gcd n d) in *. pose proof (gcd_pos_nz n d Hd0) as Gp. fold g in Gp.
  assert (Hdb : (b | d)). { apply Z.gauss with a; [exists n; lia|rewrite Z.gcd_comm; exact Zg]. }
  destruct Hdb as [k Hk]. assert (En : n = a * k) by nia.
  assert (Kn : k < 0) by nia.
  assert (Hg : g = - k). { unfold g. rewrite En, Hk, (Z.mul_comm k b), Z.gcd_mul_mono_r, Zg. lia. }
  assert (Rg : ity_ok t g).
  { unfold ity_ok. split; [lia|]. destruct (signed t) eqn:Sg; [|pose proof (unsigned_imin t Sg); unfold ity_ok in *; lia].
    pose proof (signed_imin t Sg). unfold ity_ok in *. destruct (Z_le_gt_dec g (imax t)); [assumption|]. exfalso.
    assert (d = imin t) by nia. assert (b = 1) by nia. assert (a <> 0) by nia. assert (Z.abs a = 1 \/ 2 <= Z.abs a) as [?|?] by lia; nia. }
  unfold r_gcd. fold g. rewrite (chk_id oc t g Rg). cbn. rewrite !p_div_ok by assumption. cbn.
  assert (Qn : Z.quot n g = - a) by (rewrite Hg, En, Z.quot_opp_r, Z.quot_mul by lia; reflexivity).
  assert (Qd : Z.quot d g = - b) by (rewrite Hg, Hk, (Z.mul_comm k b), Z.quot_opp_r, Z.quot_mul by lia; reflexivity).
  rewrite Qn, Qd. destruct (Z.ltb_spec (- b) 0); [|lia]. unfold p_sub.
  replace (0 - - a) with a by lia. replace (0 - - b) with b by lia.
  rewrite !chk_id by (unfold ity_ok in *; lia). reflexivity.
Qed.

(** ** Sums over a common denominator *)
Lemma lcm_quot a b : 0 < a -> 0 < b -> a * Z.quot b (Z.gcd a b) = Z.lcm a b.
Proof.
  intros Ha Hb. pose proof (gcd_pos_r a b Hb). unfold Z.lcm. rewrite Z.quot_div_nonneg by lia.
  rewrite Z.abs_eq; [reflexivity|]. apply Z.mul_nonneg_nonneg; [lia|]. apply Z.div_pos; lia.
Qed.
Lemma r_lcm_iff t a b : 0 < a <= imax t -> 0 < b <= imax t ->
  (Z.lcm a b <= imax t -> r_lcm true t a b = Done (Z.lcm a b)) /\ ((exists l, r_lcm true t a b = Done l) -> Z.lcm a b <= imax t).
Proof.
  intros Ha Hb. split.
  - intros H. unfold r_lcm. destruct (Z.eqb_spec a 0); [lia|]. cbn. pose proof (imin_le0 t).
    pose proof (gcd_pos_r a b ltac:(lia)) as G. pose proof (gcd_le_r a b ltac:(lia)).
    unfold r_gcd. rewrite chk_id by (unfold ity_ok; lia). cbn. rewrite p_div_ok by (unfold ity_ok; lia). cbn. unfold p_mul.
    rewrite (lcm_quot a b) by lia. pose proof (Z.lcm_nonneg a b).
    rewrite chk_id by (unfold ity_ok; lia). cbn. destruct (signed t); [|reflexivity].
    unfold p_abs. rewrite Z.abs_eq by lia. apply chk_id. unfold ity_ok. lia.
  - intros (l & H). apply r_lcm_spec in H; try assumption. destruct H as [-> R]. rewrite lcm_quot in R by lia. apply R.
Qed.
Lemma addsub_iff t op x y : valid t x -> valid t y ->
  (forall a b r, ity_ok t a -> ity_ok t b -> op a b = Done r -> ity_ok t r) ->
  let l := Z.lcm (denom x) (denom y) in
  (exists z, r_addsub true t op x y = Done z) <->
  l <= imax t /\ ity_ok t (numer x * (l / denom x)) /\ ity_ok t (numer y * (l / denom y)) /\
  exists r, op (numer x * (l / denom x)) (numer y * (l / denom y)) = Done r.
Proof.
  intros [Hxn Hxd] [Hyn Hyd] Hop l. destruct x as [n1 d1], y as [n2 d2]. cbn in *. unfold r_addsub. cbn.
  pose proof (imin_le0 t) as I0. assert (Rd1 : ity_ok t d1) by (unfold ity_ok; lia). assert (Rd2 : ity_ok t d2) by (unfold ity_ok; lia).
  destruct (Z.eqb_spec d1 d2) as [->|Hne].
  - unfold l. rewrite Z.lcm_diag, Z.abs_eq, Z.div_same, !Z.mul_1_r by lia. split.
    + intros (z & H). apply obind_inv in H. destruct H as (r & H & _). repeat split; try assumption; try lia. exists r. exact H.
    + intros (_ & _ & _ & r & Hr). rewrite Hr. cbn. pose proof (Hop _ _ _ Hxn Hyn Hr) as R.
      destruct (r_reduce_positive t (Frac r d2) true R Hyd) as (z & H & _). exists z. exact H.
  - destruct (r_lcm_iff t d1 d2 Hxd Hyd) as [L1 L2]. fold l in L1, L2.
    assert (Pl : 0 < l). { unfold l. pose proof (Z.lcm_nonneg d1 d2). assert (Z.lcm d1 d2 <> 0) by (intros K; apply Z.lcm_eq_0 in K; lia). lia. }
    assert (Q : forall d, 0 < d -> Z.quot l d = l / d) by (intros d Hp; apply Z.quot_div_nonneg; lia).
    split.
    + intros (z & H). apply obind_inv in H. destruct H as (l' & H1 & H).
      assert (Hl : l <= imax t) by (apply L2; exists l'; exact H1). rewrite (L1 Hl) in H1. injection H1 as <-.
      rewrite p_div_ok in H by (unfold ity_ok; lia). cbn in H. rewrite Q in H by lia.
      apply obind_inv in H. destruct H as (nx & H1 & H). apply chk_true_inv in H1. destruct H1 as [-> R1].
      rewrite p_div_ok in H by (unfold ity_ok; lia). cbn in H. rewrite Q in H by lia.
      apply obind_inv in H. destruct H as (ny & H1 & H). apply chk_true_inv in H1. destruct H1 as [-> R2].
      apply obind_inv in H. destruct H as (r & H1 & H). repeat split; try assumption; [apply R1|apply R1|apply R2|apply R2|]. exists r. exact H1.
    + intros (Hl & R1 & R2 & r & Hr). rewrite (L1 Hl). cbn. rewrite p_div_ok by (unfold ity_ok; lia). cbn. rewrite Q by lia.
      unfold p_mul. rewrite chk_id by assumption. cbn. rewrite p_div_ok by (unfold ity_ok; lia). cbn. rewrite Q by lia.
      rewrite chk_id by assumption. cbn. rewrite Hr. cbn. pose proof (Hop _ _ _ R1 R2 Hr) as R.
      destruct (r_reduce_positive t (Frac r l) true R ltac:(cbn; lia)) as (z & H & _). exists z. exact H.
Qed.

Lemma C19_new_succeeds_proof :
  forall (oc : bool) (t : ity) (n d : Z) (z : ratio),
  imin t <= n <= imax t -> imin t <= d <= imax t -> d <> 0 -> reduced t z ->
  (toQ z == inject_Z n / inject_Z d)%Q -> r_new oc t n d = Done z.
Proof.
  intros oc t n d z Hn Hd H0 Hz E. apply new_complete; try assumption.
  destruct Hz as [[_ Hp] _]. revert E. unfold toQ, Qeq, Qdiv, Qmult, Qinv. cbn. destruct d as [|p|p]; cbn; [lia| |]; rewrite !Z2Pos.id by lia; intros E; nia.
Qed.
Lemma C19_new_iff_proof :
  forall (t : ity) (n d : Z), imin t <= n <= imax t -> imin t <= d <= imax t ->
  ((exists z, r_new true t n d = Done z) <-> d <> 0 /\ exists z, reduced t z /\ (toQ z == inject_Z n / inject_Z d)%Q).
Proof.
  intros t n d Hn Hd. split.
  - intros (z & H). destruct (new_exact t n d Hn Hd) as [(z' & E & H0 & Hr & Hq)|(p & E)]; [|congruence]. split; [exact H0|]. exists z'. auto.
  - intros (H0 & z & Hz & E). exists z. apply C19_new_succeeds_proof; assumption.
Qed.
Lemma chk_some t z : (exists r, chk true t z = Done r) <-> ity_ok t z.
Proof. split; [intros (r & H); apply chk_true_inv in H; apply H|intros H; exists z; apply chk_id, H]. Qed.
Lemma C19_add_iff_proof :
  forall (t : ity) (x y : ratio), valid t x -> valid t y ->
  let l := Z.lcm (denom x) (denom y) in let a := numer x * (l / denom x) in let b := numer y * (l / denom y) in
  ((exists z, r_add true t x y = Done z) <-> l <= imax t /\ imin t <= a <= imax t /\ imin t <= b <= imax t /\ imin t <= a + b <= imax t).
Proof.
  intros t x y Hx Hy l a b. unfold r_add. rewrite addsub_iff; [|assumption|assumption|intros u v r _ _ H; apply chk_range in H; exact H].
  fold l a b. unfold p_add. rewrite chk_some. reflexivity.
Qed.
Lemma C19_sub_iff_proof :
  forall (t : ity) (x y : ratio), valid t x -> valid t y ->
  let l := Z.lcm (denom x) (denom y) in let a := numer x * (l / denom x) in let b := numer y * (l / denom y) in
  ((exists z, r_sub true t x y = Done z) <-> l <= imax t /\ imin t <= a <= imax t /\ imin t <= b <= imax t /\ imin t <= a - b <= imax t).
Proof.
  intros t x y Hx Hy l a b. unfold r_sub. rewrite addsub_iff; [|assumption|assumption|intros u v r _ _ H; apply chk_range in H; exact H].
  fold l a b. unfold p_sub. rewrite chk_some. reflexivity.
Qed.
Lemma C19_mul_iff_proof :
  forall (t : ity) (x y : ratio), reduced t x -> reduced t y ->
  ((exists z, r_mul true t x y = Done z) <-> exists z, reduced t z /\ (toQ z == toQ x * toQ y)%Q).
Proof.
  intros t x y Hx Hy. split.
  - intros (z & H). destruct (mul_exact t x y (proj1 Hx) (proj1 Hy)) as [(z' & E & Hr & Hq)|(p & E)]; [|congruence]. exists z'. auto.
  - intros (z & Hz & E). exists z. apply (mul_complete true t x y z); assumption.
Qed.
Lemma p_rem_some t a b : (exists r, p_rem t a b = Done r) <-> b <> 0 /\ ity_ok t (Z.quot a b).
Proof.
  unfold p_rem. destruct (Z.eqb_spec b 0).
  - split; [intros (r & H); discriminate|intros [H _]; contradiction].
  - destruct (in_range t (Z.quot a b)) eqn:E.
    + apply in_range_iff in E. split; [auto|]. intros _. eexists. reflexivity.
    + apply in_range_false in E. split; [intros (r & H); discriminate|intros [_ H]; contradiction].
Qed.
Lemma C63_rem_iff_proof :
  forall (t : ity) (x y : ratio), valid t x -> valid t y ->
  let l := Z.lcm (denom x) (denom y) in let a := numer x * (l / denom x) in let b := numer y * (l / denom y) in
  ((exists z, r_rem true t x y = Done z) <->
   l <= imax t /\ imin t <= a <= imax t /\ imin t <= b <= imax t /\ b <> 0 /\ ~ (signed t = true /\ a = imin t /\ b = -1)).
Proof.
  intros t x y Hx Hy l a b. unfold r_rem. rewrite addsub_iff; [|assumption|assumption|intros u v r Hu Hv H; apply (p_rem_spec t u v r Hu Hv H)].
  fold l a b. rewrite p_rem_some. pose proof (imin_le0 t) as I0. split.
  - intros (H1 & H2 & H3 & H4 & H5). repeat split; try assumption; try apply H2; try apply H3.
    intros (Sg & Ea & Eb). rewrite Ea, Eb in H5. change (-1) with (- (1)) in H5. rewrite Z.quot_opp_r, Z.quot_1_r in H5 by lia.
    pose proof (signed_imin t Sg). unfold ity_ok in H5. lia.
  - intros (H1 & H2 & H3 & H4 & H5). repeat split; try assumption; try apply H2; try apply H3.
    all: destruct (signed t) eqn:Sg.
    2,4: rewrite (unsigned_imin t Sg) in *; pose proof (Z.quot_pos a b ltac:(lia) ltac:(lia)); pose proof (Z.quot_le_upper_bound a b a ltac:(lia)); nia.
    all: pose proof (signed_imin t Sg) as Hm; destruct (Z.eq_dec b (-1)) as [Eb|Eb];
      [rewrite Eb; change (-1) with (- (1)); rewrite Z.quot_opp_r, Z.quot_1_r by lia; assert (a <> imin t) by tauto; lia|].
    all: destruct (Z.eq_dec b 1) as [Eb1|Eb1]; [rewrite Eb1, Z.quot_1_r; lia|].
    all: assert (2 * Z.abs (Z.quot a b) <= Z.abs a) by
      (rewrite <- Z.quot_abs by exact H4; rewrite Z.quot_div_nonneg by lia;
       pose proof (Z.mul_div_le (Z.abs a) (Z.abs b) ltac:(lia)); pose proof (Z.div_pos (Z.abs a) (Z.abs b) ltac:(lia) ltac:(lia)); nia); lia.
Qed.
Lemma C63_div_iff_proof :
  forall (t : ity) (x y : ratio), valid t x -> valid t y ->
  let g := Z.gcd (numer x) (numer y) in let h := Z.gcd (denom x) (denom y) in
  let n := Z.quot (numer x) g * (denom y / h) in let m := (denom x / h) * Z.quot (numer y) g in
  ((exists z, r_div true t x y = Done z) <->
   numer y <> 0 /\ g <= imax t /\ imin t <= n <= imax t /\ imin t <= m <= imax t /\
   exists z, reduced t z /\ (toQ z == toQ x / toQ y)%Q).
Proof.
  intros t x y Hx Hy g h n m. pose proof (imin_le0 t) as I0. split.
  - intros (z & H). destruct (C63_div_exact_or_panics_proof t x y Hx Hy) as [(z' & E & H0 & Hr & Hq)|(p & E)]; [|congruence].
    rewrite E in H. injection H as ->. split; [exact H0|]. revert E. unfold r_div. intros H.
    apply obind_inv in H. destruct H as (g' & H1 & H). apply chk_true_inv in H1. destruct H1 as [-> Rg]. fold g in Rg, H.
    destruct Hx as [Hxn Hxd], Hy as [Hyn Hyd].
    apply obind_inv in H. destruct H as (h' & H1 & H). apply chk_true_inv in H1. destruct H1 as [-> Rh]. fold h in Rh, H.
    pose proof (gcd_pos_nz (numer x) (numer y) H0) as Gp. fold g in Gp. pose proof (gcd_pos_r (denom x) (denom y) ltac:(lia)) as Hp. fold h in Hp.
    rewrite p_div_ok in H by (unfold ity_ok; lia). cbn in H. rewrite p_div_ok in H by (unfold ity_ok; lia). cbn in H.
    rewrite (Z.quot_div_nonneg (denom y) h) in H by lia. apply obind_inv in H. destruct H as (n' & H1 & H). apply chk_true_inv in H1. destruct H1 as [-> Rn].
    rewrite p_div_ok in H by (unfold ity_ok; lia). cbn in H. rewrite p_div_ok in H by (unfold ity_ok; lia). cbn in H.
    rewrite (Z.quot_div_nonneg (denom x) h) in H by lia. apply obind_inv in H. destruct H as (m' & H1 & H). apply chk_true_inv in H1. destruct H1 as [-> Rm].
    split; [apply Rg|]. split; [exact Rn|]. split; [exact Rm|]. exists z. auto.
  - intros (H0 & Rg & Rn & Rm & z & Hz & Hq). exists z. unfold r_div, r_gcd. fold g h.
    destruct Hx as [Hxn Hxd], Hy as [Hyn Hyd].
    pose proof (gcd_pos_nz (numer x) (numer y) H0) as Gp. fold g in Gp. pose proof (gcd_pos_r (denom x) (denom y) ltac:(lia)) as Hp. fold h in Hp.
    pose proof (gcd_le_l (denom x) (denom y) ltac:(lia)) as Hl. fold h in Hl.
    rewrite !chk_id by (unfold ity_ok; lia). cbn. rewrite !p_div_ok by (unfold ity_ok; lia). cbn.
    rewrite (Z.quot_div_nonneg (denom y) h), (Z.quot_div_nonneg (denom x) h) by lia. unfold p_mul. fold n m.
    rewrite !chk_id by assumption. cbn.
    pose proof (quot_exact (numer x) g ltac:(lia) (Z.gcd_divide_l _ _)) as E1. pose proof (quot_exact (numer y) g ltac:(lia) (Z.gcd_divide_r _ _)) as E2.
    pose proof (quot_exact (denom x) h ltac:(lia) (Z.gcd_divide_l _ _)) as E3. pose proof (quot_exact (denom y) h ltac:(lia) (Z.gcd_divide_r _ _)) as E4.
    rewrite Z.quot_div_nonneg in E3, E4 by lia.
    assert (M0 : m <> 0) by (unfold m; nia).
    apply new_complete; try assumption.
    assert (K : numer z * (denom x * numer y) = numer x * denom y * denom z).
    { destruct Hz as [[_ Zd] _]. apply toQ_quot in Hq; [exact Hq|lia|lia|lia|exact H0]. }
    assert (numer x * denom y = n * (g * h)) as K1 by (unfold n; rewrite E1 at 1; rewrite E4 at 1; ring).
    assert (denom x * numer y = m * (g * h)) as K2 by (unfold m; rewrite E3 at 1; rewrite E2 at 1; ring).
    rewrite K1, K2 in K. assert (0 < g * h) by nia. nia.
Qed.
