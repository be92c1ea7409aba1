(** Fraction lemmas restated over the rationals. *)
From Coq Require Import ZArith Znumtheory QArith Qround Lia Bool.
From Verif Require Import M_Outcome M_Ints M_Ratio M_Float S_Ratio L_Outcome L_Ints L_Ratio L_Round.
Local Open Scope Z_scope.
Local Arguments Z.mul : simpl never.
Local Arguments Z.add : simpl never.
Local Arguments Z.sub : simpl never.
Local Arguments Z.opp : simpl never.
Local Arguments Z.gcd : simpl never.

Definition loud {A} (o : outcome A) (P : A -> Prop) : Prop :=
  (exists z, o = Done z /\ P z) \/ (exists p, o = Panics p).

Lemma toQ_add x y : 0 < denom x -> 0 < denom y ->
  (toQ x + toQ y == toQ (Frac (numer x * denom y + numer y * denom x) (denom x * denom y)))%Q.
Proof.
  intros Hx Hy. unfold toQ, Qeq, Qplus; cbn [Qnum Qden numer denom].
  rewrite Pos2Z.inj_mul, !Z2Pos.id by nia. ring.
Qed.
Lemma toQ_sub x y : 0 < denom x -> 0 < denom y ->
  (toQ x - toQ y == toQ (Frac (numer x * denom y - numer y * denom x) (denom x * denom y)))%Q.
Proof.
  intros Hx Hy. unfold toQ, Qeq, Qminus, Qplus, Qopp; cbn [Qnum Qden numer denom].
  rewrite Pos2Z.inj_mul, !Z2Pos.id by nia. ring.
Qed.
Lemma toQ_mul x y : 0 < denom x -> 0 < denom y ->
  (toQ x * toQ y == toQ (Frac (numer x * numer y) (denom x * denom y)))%Q.
Proof.
  intros Hx Hy. unfold toQ, Qeq, Qmult; cbn [Qnum Qden numer denom].
  rewrite Pos2Z.inj_mul, !Z2Pos.id by nia. ring.
Qed.
Lemma toQ_div n d z : d <> 0 -> 0 < denom z -> numer z * d = n * denom z ->
  (toQ z == inject_Z n / inject_Z d)%Q.
Proof.
  intros Hd Hz E. assert (Hd' : ~ (inject_Z d == 0)%Q).
  { unfold inject_Z, Qeq; cbn. lia. }
  rewrite <- (Qdiv_mult_l (toQ z) (inject_Z d) Hd'). apply Qmult_comp; [|reflexivity].
  unfold toQ, inject_Z, Qeq, Qmult; cbn [Qnum Qden].
  rewrite Pos2Z.inj_mul, !Z2Pos.id by lia. lia.
Qed.

(** Checked functions can only succeed or panic. *)
Definition calm {A} (o : outcome A) : Prop := (exists z, o = Done z) \/ (exists p, o = Panics p).
Lemma calm_done {A} (a : A) : calm (Done a). Proof. left; eauto. Qed.
Lemma calm_panics {A} p : calm (@Panics A p). Proof. right; eauto. Qed.
Lemma calm_bind {A B} (m : outcome A) (f : A -> outcome B) : calm m -> (forall a, calm (f a)) -> calm (obind m f).
Proof. intros [[z ->]|[p ->]] H; cbn; [apply H|apply calm_panics]. Qed.
Lemma calm_chk oc t z : calm (chk oc t z).
Proof. unfold chk. destruct (in_range t z), oc; first [apply calm_done|apply calm_panics]. Qed.
Lemma calm_div t a b : calm (p_div t a b).
Proof. unfold p_div. destruct (b =? 0), (in_range t (Z.quot a b)); first [apply calm_done|apply calm_panics]. Qed.
Lemma calm_rem t a b : calm (p_rem t a b).
Proof. unfold p_rem. destruct (b =? 0), (in_range t (Z.quot a b)); first [apply calm_done|apply calm_panics]. Qed.
Ltac calm_tac := repeat first
  [ apply calm_done | apply calm_panics | apply calm_chk | apply calm_div | apply calm_rem
  | apply calm_bind; [|intros ?]
  | match goal with |- calm (if ?b then _ else _) => destruct b end ].
Lemma calm_reduce oc t r : calm (r_reduce oc t r).
Proof. unfold r_reduce, r_gcd, p_sub. calm_tac. Qed.
Lemma calm_lcm oc t a b : calm (r_lcm oc t a b).
Proof. unfold r_lcm, r_gcd, p_mul, p_abs. calm_tac. Qed.
Lemma calm_add oc t x y : calm (r_add oc t x y).
Proof. unfold r_add, r_addsub, p_add, p_mul, r_new. calm_tac; first [apply calm_reduce|apply calm_lcm]. Qed.
Lemma calm_sub oc t x y : calm (r_sub oc t x y).
Proof. unfold r_sub, r_addsub, p_sub, p_mul, r_new. calm_tac; first [apply calm_reduce|apply calm_lcm]. Qed.
Lemma calm_mul oc t x y : calm (r_mul oc t x y).
Proof. unfold r_mul, r_gcd, p_mul, r_new. calm_tac; apply calm_reduce. Qed.

Lemma loud_intro {A} (o : outcome A) (P : A -> Prop) : calm o -> (forall z, o = Done z -> P z) -> loud o P.
Proof. intros [[z E]|[p E]] H; [left; exists z; auto|right; eauto]. Qed.

Lemma new_exact t n d : ity_ok t n -> ity_ok t d ->
  loud (r_new true t n d) (fun z => d <> 0 /\ reduced t z /\ (toQ z == inject_Z n / inject_Z d)%Q).
Proof.
  intros Hn Hd. apply loud_intro; [apply calm_reduce|]. intros z H.
  assert (d <> 0). { unfold r_new, r_reduce in H; cbn in H. destruct (Z.eqb_spec d 0); [discriminate|assumption]. }
  destruct (r_reduce_spec t (Frac n d) z Hn Hd H) as [R E]. cbn in E.
  split; [assumption|]. split; [exact R|]. apply toQ_div; try assumption. destruct R as [[_ Hz] _]. lia.
Qed.

Lemma add_exact t x y : valid t x -> valid t y ->
  loud (r_add true t x y) (fun z => reduced t z /\ (toQ z == toQ x + toQ y)%Q).
Proof.
  intros Hx Hy. apply loud_intro; [apply calm_add|]. intros z H.
  destruct (r_add_spec t x y z Hx Hy H) as [R E]. destruct Hx as [_ Hx], Hy as [_ Hy].
  split; [exact R|]. rewrite toQ_add by lia. destruct R as [[_ Hz] _].
  apply toQ_eq; cbn [numer denom]; nia.
Qed.
Lemma sub_exact t x y : valid t x -> valid t y ->
  loud (r_sub true t x y) (fun z => reduced t z /\ (toQ z == toQ x - toQ y)%Q).
Proof.
  intros Hx Hy. apply loud_intro; [apply calm_sub|]. intros z H.
  destruct (r_sub_spec t x y z Hx Hy H) as [R E]. destruct Hx as [_ Hx], Hy as [_ Hy].
  split; [exact R|]. rewrite toQ_sub by lia. destruct R as [[_ Hz] _].
  apply toQ_eq; cbn [numer denom]; nia.
Qed.
Lemma mul_exact t x y : valid t x -> valid t y ->
  loud (r_mul true t x y) (fun z => reduced t z /\ (toQ z == toQ x * toQ y)%Q).
Proof.
  intros Hx Hy. apply loud_intro; [apply calm_mul|]. intros z H.
  destruct (r_mul_spec t x y z Hx Hy H) as [R E]. destruct Hx as [_ Hx], Hy as [_ Hy].
  split; [exact R|]. rewrite toQ_mul by lia. destruct R as [[_ Hz] _].
  apply toQ_eq; cbn [numer denom]; nia.
Qed.

(** Multiplication of lowest-terms fractions succeeds whenever the product is representable. *)
Lemma mul_complete oc t x y z : reduced t x -> reduced t y -> reduced t z ->
  (toQ z == toQ x * toQ y)%Q -> r_mul oc t x y = Done z.
Proof.
  intros [[Hxn Hxd] Hxg] [[Hyn Hyd] Hyg] Rz E. pose proof Rz as [[Hzn Hzd] Hzg].
  rewrite toQ_mul in E by lia. apply toQ_eq in E; cbn [numer denom]; try nia.
  destruct x as [n1 d1], y as [n2 d2], z as [n3 d3]; cbn [numer denom] in *.
  pose proof (imin_le0 t) as I0.
  pose proof (gcd_pos_r n1 d2 ltac:(lia)) as G1. pose proof (gcd_le_r n1 d2 ltac:(lia)).
  assert (0 < Z.gcd d1 n2) as G2 by (rewrite Z.gcd_comm; apply gcd_pos_r; lia).
  pose proof (gcd_le_l d1 n2 ltac:(lia)).
  set (g := Z.gcd n1 d2) in *. set (h := Z.gcd d1 n2) in *.
  pose proof (quot_exact n1 g ltac:(lia) (Z.gcd_divide_l n1 d2)) as En1.
  pose proof (quot_exact d2 g ltac:(lia) (Z.gcd_divide_r n1 d2)) as Ed2.
  pose proof (quot_exact d1 h ltac:(lia) (Z.gcd_divide_l d1 n2)) as Ed1.
  pose proof (quot_exact n2 h ltac:(lia) (Z.gcd_divide_r d1 n2)) as En2.
  set (a := Z.quot n1 g) in *. set (d := Z.quot d2 g) in *.
  set (b := Z.quot d1 h) in *. set (c := Z.quot n2 h) in *.
  assert (Hb : 0 < b) by nia. assert (Hd : 0 < d) by nia.
  assert (Gad : Z.gcd a d = 1).
  { assert (K : Z.gcd (a * g) (d * g) = Z.gcd a d * g).
    { rewrite Z.gcd_mul_mono_r_nonneg by lia. reflexivity. }
    rewrite <- En1, <- Ed2 in K. fold g in K. nia. }
  assert (Gbc : Z.gcd b c = 1).
  { assert (K : Z.gcd (b * h) (c * h) = Z.gcd b c * h).
    { rewrite Z.gcd_mul_mono_r_nonneg by lia. reflexivity. }
    rewrite <- Ed1, <- En2 in K. fold h in K. nia. }
  assert (Gab : Z.gcd a b = 1).
  { apply Z.divide_antisym_nonneg; [apply Z.gcd_nonneg|lia| |apply Z.divide_1_l].
    rewrite <- Hxg. apply Z.gcd_greatest.
    - rewrite En1. apply Z.divide_mul_l, Z.gcd_divide_l.
    - rewrite Ed1. apply Z.divide_mul_l, Z.gcd_divide_r. }
  assert (Gcd_ : Z.gcd c d = 1).
  { apply Z.divide_antisym_nonneg; [apply Z.gcd_nonneg|lia| |apply Z.divide_1_l].
    rewrite <- Hyg. apply Z.gcd_greatest.
    - rewrite En2. apply Z.divide_mul_l, Z.gcd_divide_l.
    - rewrite Ed2. apply Z.divide_mul_l, Z.gcd_divide_r. }
  assert (Gnm : Z.gcd (a * c) (b * d) = 1).
  { apply Zgcd_1_rel_prime. apply rel_prime_sym.
    apply rel_prime_mult; apply rel_prime_sym.
    - apply rel_prime_mult; apply Zgcd_1_rel_prime; assumption.
    - apply rel_prime_mult; apply Zgcd_1_rel_prime; [rewrite Z.gcd_comm|]; assumption. }
  assert (Ez : n3 * (b * d) = (a * c) * d3).
  { apply (Z.mul_reg_r _ _ (g * h)); [nia|].
    replace (n3 * (b * d) * (g * h)) with (n3 * ((b * h) * (d * g))) by ring.
    replace (a * c * d3 * (g * h)) with ((a * g) * (c * h) * d3) by ring.
    rewrite <- Ed1, <- Ed2, <- En1, <- En2. exact E. }
  assert (Hdd : d3 = b * d).
  { apply Z.divide_antisym_nonneg; try nia.
    - apply Z.gauss with n3; [|rewrite Z.gcd_comm; exact Hzg]. exists (a * c). lia.
    - apply Z.gauss with (a * c); [|rewrite Z.gcd_comm; exact Gnm]. exists n3. lia. }
  assert (Hnn : n3 = a * c).
  { rewrite Hdd in Ez. apply (Z.mul_reg_r _ _ (b * d)); nia. }
  unfold r_mul, r_gcd. cbn [numer denom]. fold g h.
  rewrite chk_id by (unfold ity_ok; lia). cbn [obind]. rewrite chk_id by (unfold ity_ok; lia). cbn [obind].
  rewrite !p_div_ok by (unfold ity_ok; lia). cbn [obind]. fold a c b d.
  unfold p_mul. rewrite <- Hnn, chk_id by (unfold ity_ok; lia). cbn [obind].
  rewrite <- Hdd, chk_id by (unfold ity_ok; lia). cbn [obind].
  unfold r_new. apply r_reduce_id. exact Rz.
Qed.

Lemma cmp_exact x y : 0 < denom x -> 0 < denom y -> r_cmp x y = Qcompare (toQ x) (toQ y).
Proof. intros Hx Hy. unfold r_cmp, Qcompare, toQ; cbn. rewrite !Z2Pos.id by lia. reflexivity. Qed.

Lemma floor_Q x y : 0 < denom x -> is_floor (numer x) (denom x) y <-> y = Qfloor (toQ x).
Proof.
  intros Hd. unfold is_floor, Qfloor, toQ. rewrite Z2Pos.id by lia. split.
  - intros H. apply Z.div_unique_pos with (numer x - y * denom x); lia.
  - intros ->. pose proof (Z.div_mod (numer x) (denom x) ltac:(lia)).
    pose proof (Z.mod_pos_bound (numer x) (denom x) Hd). lia.
Qed.
Lemma ceil_Q x y : 0 < denom x -> is_ceil (numer x) (denom x) y <-> y = Qceiling (toQ x).
Proof.
  intros Hd. unfold Qceiling.
  assert (E : Qopp (toQ x) = toQ (Frac (- numer x) (denom x))) by reflexivity.
  rewrite E. pose proof (floor_Q (Frac (- numer x) (denom x)) (- y) Hd) as F. cbn [numer denom] in F.
  assert (K : is_ceil (numer x) (denom x) y <-> is_floor (- numer x) (denom x) (- y)).
  { unfold is_ceil, is_floor. lia. }
  rewrite K, F. lia.
Qed.
