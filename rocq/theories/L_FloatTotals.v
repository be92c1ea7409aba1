From Coq Require Import ZArith Reals List Bool Lia Lra.
From Flocq Require Import Core BinarySingleNaN Relative Plus_error.
From Verif Require Import M_Outcome M_Ints M_Ratio M_Float M_Value M_Types S_Ratio S_Types S_Float S_Totals S_FloatTotals
  L_Outcome L_Ints L_Float L_Totals.
Import ListNotations.
Local Open Scope Z_scope.

(** ** Folding over a history *)
Lemma gathered_ind {S : StatValue} {A B : Type} (f : stat_op S -> list B) (proj : val S -> A) (I : list B -> A -> Prop) :
  I [] (proj (sv_default S)) ->
  (forall b, I (f (OBase b)) (proj (sv_from_base S b))) ->
  (forall l v o w, (forall b, o <> OBase b) -> write_to o v = Done w -> I l (proj v) -> I (l ++ f o) (proj w)) ->
  (forall l v k w x, sv_join S v w = Done x -> I l (proj v) -> I k (proj w) -> I (l ++ k) (proj x)) ->
  forall h v, value_of h = Done v -> I (gathered f h) (proj v).
Proof.
  intros H0 HB HA HJ. induction h as [|b|h IH o|h IH k IHk]; intros v H; cbn [value_of] in H.
  - inversion H; subst. exact H0.
  - inversion H; subst. apply HB.
  - apply obind_inv in H. destruct H as [w [Hw H]].
    assert (C : (exists b, o = OBase b) \/ (forall b, o <> OBase b)).
    { destruct o; try (right; discriminate). left. eauto. }
    destruct C as [[b ->]|C].
    + cbn in H. inversion H; subst. apply HB.
    + replace (gathered f (Applied h o)) with (gathered f h ++ f o) by (destruct o; try reflexivity; exfalso; eapply C; reflexivity).
      eapply HA; eauto.
  - apply obind_inv in H. destruct H as [w [Hw H]]. apply obind_inv in H. destruct H as [w' [Hw' H]].
    cbn [gathered]. eapply HJ; eauto.
Qed.

Section Acc.
  Variables prec emax : Z.
  Context (Hp : Prec_gt_0 prec) (He : Prec_lt_emax prec emax).
  Notation bf := (binary_float prec emax).
  Notation near := (nearest prec emax).
  Local Open Scope R_scope.

  Definition u : R := / 2 * bpow radix2 (- prec + 1).
  Definition g (k : nat) : R := (1 + u) ^ k.

  Lemma u_pos : 0 < u.
  Proof. unfold u. pose proof (bpow_gt_0 radix2 (- prec + 1)). lra. Qed.
  Lemma u_half : u <= / 2.
  Proof.
    unfold u. assert (bpow radix2 (- prec + 1) <= bpow radix2 0).
    { apply bpow_le. unfold Prec_gt_0 in Hp. lia. } change (bpow radix2 0) with 1 in H. lra.
  Qed.
  Lemma u_twice : bpow radix2 (1 - prec) = 2 * u.
  Proof. unfold u. replace (- prec + 1)%Z with (1 - prec)%Z by lia. lra. Qed.
  Lemma g_ge1 k : 1 <= g k.
  Proof. unfold g. apply pow_R1_Rle. pose proof u_pos. lra. Qed.
  Lemma g_mono j k : (j <= k)%nat -> g j <= g k.
  Proof. intros H. unfold g. apply Rle_pow; [pose proof u_pos; lra|exact H]. Qed.
  Lemma g_S k : g (S k) = g k * (1 + u).
  Proof. unfold g. cbn. ring. Qed.
  Lemma g_plus j k : g (j + k) = g j * g k.
  Proof. unfold g. apply pow_add. Qed.

  Lemma g_dual k : INR k * u <= 1 -> g k * (1 - INR k * u) <= 1.
  Proof.
    pose proof u_pos as U. induction k as [|k IH]; intros H.
    - unfold g. cbn. lra.
    - rewrite g_S, S_INR in *.
      assert (H' : INR k * u <= 1) by nra. specialize (IH H').
      pose proof (g_ge1 k) as G. pose proof (pos_INR k) as Pk.
      assert (E : (1 + u) * (1 - (INR k + 1) * u) <= 1 - INR k * u) by nra.
      rewrite Rmult_assoc. eapply Rle_trans; [|exact IH]. apply Rmult_le_compat_l; lra.
  Qed.
  Lemma g_small k : INR k * u <= / 4 -> g k <= 1 + 2 * (INR k * u).
  Proof.
    intros H. pose proof u_pos as U. pose proof (pos_INR k) as Pk.
    assert (D := g_dual k ltac:(lra)). set (y := INR k * u) in *.
    assert (0 <= y) by (unfold y; nra).
    apply (Rmult_le_reg_r (1 - y)); [lra|]. eapply Rle_trans; [exact D|]. nra.
  Qed.
  Lemma few_small (l : list bf) : few l -> INR (length l) * u <= / 4.
  Proof.
    unfold few. intros H. pose proof u_pos as U.
    assert (E : bpow radix2 (prec - 2) * u = / 4).
    { unfold u. rewrite (Rmult_comm (/ 2)), <- Rmult_assoc, <- bpow_plus.
      replace (prec - 2 + (- prec + 1))%Z with (-1)%Z by lia. cbn. lra. }
    rewrite <- E. apply Rmult_le_compat_r; lra.
  Qed.
  Lemma g_few (l : list bf) k : few l -> (k <= length l)%nat -> g k <= 1 + INR (length l) * bpow radix2 (1 - prec).
  Proof.
    intros F L. eapply Rle_trans; [apply (g_mono _ _ L)|].
    eapply Rle_trans; [apply g_small, few_small, F|]. rewrite u_twice. lra.
  Qed.
  Lemma g_few_3_2 (l : list bf) k : few l -> (k <= length l)%nat -> g k <= 3 / 2.
  Proof.
    intros F L. eapply Rle_trans; [apply (g_few l k F L)|]. rewrite u_twice. pose proof (few_small l F). lra.
  Qed.

  (** ** Lists *)
  Lemma total_app (l k : list bf) : total (l ++ k) = total l + total k.
  Proof. unfold total. induction l as [|x l IH]; cbn; [lra|]. rewrite IH. lra. Qed.
  Lemma weight_app (l k : list bf) : weight (l ++ k) = weight l + weight k.
  Proof. unfold weight. induction l as [|x l IH]; cbn; [lra|]. rewrite IH. lra. Qed.
  Lemma weight_pos (l : list bf) : 0 <= weight l.
  Proof. unfold weight. induction l as [|x l IH]; cbn; [lra|]. pose proof (Rabs_pos (B2R x)). lra. Qed.
  Lemma total_weight (l : list bf) : Rabs (total l) <= weight l.
  Proof.
    unfold total, weight. induction l as [|x l IH]; cbn; [rewrite Rabs_R0; lra|].
    eapply Rle_trans; [apply Rabs_triang|]. lra.
  Qed.
  Lemma outcome_app (l k : list bf) : outcome_of (l ++ k) = outcome_of l * outcome_of k.
  Proof. unfold outcome_of. induction l as [|x l IH]; cbn; [lra|]. rewrite IH. lra. Qed.
  Lemma spread_app (l k : list bf) : spread (l ++ k) = spread l * spread k.
  Proof. unfold spread. induction l as [|x l IH]; cbn; [lra|]. rewrite IH. lra. Qed.

  Lemma reach_ge1 x : 1 <= reach x.
  Proof.
    unfold reach. case Req_bool_spec; intros H; [lra|].
    pose proof (Rabs_pos_lt x H) as P.
    destruct (Rle_dec 1 (Rabs x)) as [L|L]; [eapply Rle_trans; [exact L|apply Rmax_l]|].
    eapply Rle_trans; [|apply Rmax_r]. rewrite <- Rinv_1. apply Rinv_le; lra.
  Qed.
  Lemma reach_size x : x <> 0 -> / reach x <= Rabs x <= reach x.
  Proof.
    intros H. pose proof (reach_ge1 x) as R1. unfold reach in *. rewrite Req_bool_false in * by exact H.
    pose proof (Rabs_pos_lt x H) as P. split; [|apply Rmax_l].
    rewrite <- (Rinv_inv (Rabs x)) at 3. apply Rinv_le; [now apply Rinv_0_lt_compat|apply Rmax_r].
  Qed.
  Lemma spread_ge1 (l : list bf) : 1 <= spread l.
  Proof.
    unfold spread. induction l as [|x l IH]; cbn; [lra|]. pose proof (reach_ge1 (B2R x)). nra.
  Qed.
  Lemma spread_size (l : list bf) : outcome_of l <> 0 -> / spread l <= Rabs (outcome_of l) <= spread l.
  Proof.
    unfold spread, outcome_of. induction l as [|x l IH]; cbn; intros H; [rewrite Rabs_R1; lra|].
    assert (Hx : B2R x <> 0) by (intros E; rewrite E in H; lra).
    assert (Hl : fold_right (fun x p => B2R x * p) 1 l <> 0) by (intros E; rewrite E in H; lra).
    specialize (IH Hl). destruct (reach_size _ Hx) as [A B]. pose proof (reach_ge1 (B2R x)) as C.
    pose proof (spread_ge1 l) as D. unfold spread in D.
    rewrite Rabs_mult, Rinv_mult.
    split; apply Rmult_le_compat; try lra; try apply Rabs_pos; left; apply Rinv_0_lt_compat; lra.
  Qed.

  Lemma finite_app (l k : list bf) : finite_all (l ++ k) -> finite_all l /\ finite_all k.
  Proof. apply Forall_app. Qed.
  Lemma few_app (l k : list bf) : few (l ++ k) -> few l /\ few k.
  Proof.
    unfold few. rewrite app_length, plus_INR. pose proof (pos_INR (length l)). pose proof (pos_INR (length k)). lra.
  Qed.
  Lemma summable_app (l k : list bf) : summable (l ++ k) -> summable l /\ summable k.
  Proof.
    intros (F & N & W). apply finite_app in F. apply few_app in N. rewrite weight_app in W.
    pose proof (weight_pos l). pose proof (weight_pos k). unfold summable. intuition lra.
  Qed.
  Lemma multipliable_app (l k : list bf) : multipliable (l ++ k) -> multipliable l /\ multipliable k.
  Proof.
    intros (F & N & W). apply finite_app in F. apply few_app in N. rewrite spread_app in W.
    pose proof (spread_ge1 l). pose proof (spread_ge1 k). unfold multipliable.
    assert (spread l <= spread l * spread k) by nra. assert (spread k <= spread l * spread k) by nra.
    intuition lra.
  Qed.

  (** ** Sums *)
  Lemma plus_spec (x y : bf) : is_finite x = true -> is_finite y = true ->
    ~ too_large emax (near (B2R x + B2R y)) ->
    is_finite (Bplus mode_NE x y) = true /\ B2R (Bplus mode_NE x y) = near (B2R x + B2R y).
  Proof.
    intros Fx Fy L. pose proof (Bplus_correct prec emax _ _ mode_NE x y Fx Fy) as N.
    change (SpecFloat.fexp prec emax) with (FLT_exp (3 - emax - prec) prec) in N.
    cbn [round_mode] in N. fold (near (B2R x + B2R y)) in N.
    rewrite Rlt_bool_true in N by (unfold too_large in L; lra). destruct N as (A & B & _). easy.
  Qed.
  Lemma format_of (x : bf) : generic_format radix2 (FLT_exp (3 - emax - prec) prec) (B2R x).
  Proof. apply generic_format_B2R. Qed.
  Lemma near_id (x : bf) : near (B2R x) = B2R x.
  Proof. unfold nearest. apply round_generic; [auto with typeclass_instances|apply format_of]. Qed.
  Lemma near_plus (x y : bf) : exists e, Rabs e <= u /\ near (B2R x + B2R y) = (B2R x + B2R y) * (1 + e).
  Proof.
    destruct (FLT_plus_error_N_ex radix2 (3 - emax - prec) prec (fun x => negb (Z.even x)) (B2R x) (B2R y)
                (format_of x) (format_of y)) as (e & B & E).
    exists e. split; [|exact E]. eapply Rle_trans; [exact B|]. apply u_rod1pu_ro_le_u_ro.
  Qed.

  Definition sums (l : list bf) (a : bf) : Prop :=
    summable l -> is_finite a = true /\ (l = [] -> B2R a = 0) /\
      Rabs (B2R a - total l) <= (g (length l - 1) - 1) * weight l.

  Lemma sums_nil a : is_finite a = true -> B2R a = 0 -> sums [] a.
  Proof.
    intros F E _. split; [exact F|]. split; [easy|]. rewrite E. unfold total, weight. cbn [fold_right length].
    rewrite Rminus_0_r, Rabs_R0. unfold g. cbn. lra.
  Qed.
  Lemma sums_one x : sums [x] x.
  Proof.
    intros (F & _). inversion F; subst. split; [easy|]. split; [discriminate|].
    unfold total, weight. cbn. unfold g. cbn. replace (B2R x - (B2R x + 0)) with 0 by lra. rewrite Rabs_R0. lra.
  Qed.
  Lemma emax_bpow : bpow radix2 (emax - 2) = bpow radix2 emax / 4.
  Proof.
    replace (emax - 2)%Z with (emax + (-2))%Z by lia. rewrite bpow_plus. cbn. lra.
  Qed.
  Lemma sums_app l k a b : sums l a -> sums k b -> sums (l ++ k) (Bplus mode_NE a b).
  Proof.
    intros Sl Sk S. destruct (summable_app l k S) as [Ml Mk].
    destruct (Sl Ml) as (Fa & Za & Ea). destruct (Sk Mk) as (Fb & Zb & Eb).
    assert (Small : forall x : bf, ~ too_large emax (B2R x)).
    { intros x. unfold too_large. pose proof (abs_B2R_lt_emax prec emax x). lra. }
    destruct l as [|x l].
    { specialize (Za eq_refl). cbn [app].
      assert (E : near (B2R a + B2R b) = B2R b) by (rewrite Za, Rplus_0_l; apply near_id).
      destruct (plus_spec a b Fa Fb) as [F R]; [rewrite E; apply Small|].
      rewrite E in R. rewrite R. split; [exact F|]. split; [intros ->; now apply Zb|exact Eb]. }
    destruct k as [|y k].
    { specialize (Zb eq_refl). rewrite app_nil_r.
      assert (E : near (B2R a + B2R b) = B2R a) by (rewrite Zb, Rplus_0_r; apply near_id).
      destruct (plus_spec a b Fa Fb) as [F R]; [rewrite E; apply Small|].
      rewrite E in R. rewrite R. split; [exact F|]. split; [discriminate|exact Ea]. }
    set (l1 := x :: l) in *. set (k1 := y :: k) in *.
    destruct S as (_ & N & W).
    set (n := (length (l1 ++ k1) - 1)%nat).
    assert (Hn : exists m, n = S m /\ (length l1 - 1 <= m)%nat /\ (length k1 - 1 <= m)%nat).
    { exists (length l + length k)%nat. unfold n, l1, k1. rewrite app_length. cbn [length]. lia. }
    destruct Hn as (m & Em & Lm & Km).
    assert (Gn : g n <= 3 / 2) by (apply (g_few_3_2 (l1 ++ k1)); [exact N|unfold n; lia]).
    rewrite Em, g_S in Gn.
    pose proof (g_mono _ _ Lm) as G1. pose proof (g_mono _ _ Km) as G2.
    pose proof (weight_pos l1) as W1. pose proof (weight_pos k1) as W2.
    pose proof (total_weight l1) as T1. pose proof (total_weight k1) as T2.
    pose proof (g_ge1 m) as Gm. pose proof u_pos as U.
    assert (Er : Rabs (B2R a + B2R b - total (l1 ++ k1)) <= (g m - 1) * weight (l1 ++ k1)).
    { rewrite total_app, weight_app.
      replace (B2R a + B2R b - (total l1 + total k1)) with ((B2R a - total l1) + (B2R b - total k1)) by lra.
      eapply Rle_trans; [apply Rabs_triang|]. rewrite Rmult_plus_distr_l.
      apply Rplus_le_compat; (eapply Rle_trans; [eassumption|]); apply Rmult_le_compat_r; lra. }
    set (s := B2R a + B2R b) in *. set (t := total (l1 ++ k1)) in *. set (w := weight (l1 ++ k1)) in *.
    assert (Tw : Rabs t <= w) by apply total_weight.
    assert (Ww : 0 <= w) by apply weight_pos.
    destruct (near_plus a b) as (e & Be & Ee). fold s in Ee.
    assert (Es : Rabs s <= g m * w).
    { replace s with ((s - t) + t) by lra. eapply Rle_trans; [apply Rabs_triang|]. lra. }
    assert (Bn : Rabs (near s) <= 3 / 2 * w).
    { rewrite Ee, Rabs_mult. eapply Rle_trans with (g m * w * (1 + u)).
      - apply Rmult_le_compat; try apply Rabs_pos; [exact Es|].
        eapply Rle_trans; [apply Rabs_triang|]. rewrite Rabs_R1. lra.
      - replace (g m * w * (1 + u)) with (g m * (1 + u) * w) by ring. now apply Rmult_le_compat_r. }
    rewrite emax_bpow in W. pose proof (bpow_gt_0 radix2 emax) as Pe.
    destruct (plus_spec a b Fa Fb) as [F R]; [unfold too_large; fold s; intros C; lra|].
    split; [exact F|]. split; [intros C; destruct l1; discriminate|].
    rewrite R. fold s. fold n. rewrite Em, g_S, Ee.
    replace (s * (1 + e) - t) with ((s - t) * (1 + e) + t * e) by ring.
    eapply Rle_trans; [apply Rabs_triang|]. rewrite !Rabs_mult.
    replace ((g m * (1 + u) - 1) * w) with ((g m - 1) * w * (1 + u) + w * u) by ring.
    apply Rplus_le_compat; apply Rmult_le_compat; try apply Rabs_pos; try assumption.
    eapply Rle_trans; [apply Rabs_triang|]. rewrite Rabs_R1. lra.
  Qed.
  Lemma sums_near l a : sums l a -> summable l -> is_finite a = true /\ near_total l (B2R a).
  Proof.
    intros H S. destruct (H S) as (F & _ & E). split; [exact F|]. unfold near_total.
    eapply Rle_trans; [exact E|]. apply Rmult_le_compat_r; [apply weight_pos|].
    destruct S as (_ & N & _). pose proof (g_few l (length l - 1) N ltac:(lia)). lra.
  Qed.

  (** ** Products *)
  Lemma rel_mul a b A B : Rabs a <= A - 1 -> Rabs b <= B - 1 -> Rabs ((1 + a) * (1 + b) - 1) <= A * B - 1.
  Proof.
    intros Ha Hb. replace ((1 + a) * (1 + b) - 1) with (a + b + a * b) by ring.
    pose proof (Rabs_pos a). pose proof (Rabs_pos b).
    eapply Rle_trans; [apply Rabs_triang|]. eapply Rle_trans; [apply Rplus_le_compat_r, Rabs_triang|].
    rewrite Rabs_mult. assert (Rabs a * Rabs b <= (A - 1) * (B - 1)) by (apply Rmult_le_compat; lra). nra.
  Qed.

  Definition products (l : list bf) (a : bf) : Prop :=
    multipliable l -> is_finite a = true /\ (l = [] -> B2R a = 1) /\
      exists d, B2R a = outcome_of l * (1 + d) /\ Rabs d <= g (length l - 1) - 1.

  Lemma products_nil a : is_finite a = true -> B2R a = 1 -> products [] a.
  Proof.
    intros F E _. split; [exact F|]. split; [easy|]. exists 0. rewrite E, Rabs_R0.
    unfold outcome_of, g. cbn. lra.
  Qed.
  Lemma products_one x : products [x] x.
  Proof.
    intros (F & _). inversion F; subst. split; [easy|]. split; [discriminate|].
    exists 0. rewrite Rabs_R0. unfold outcome_of, g. cbn. lra.
  Qed.
  Lemma products_app l k a b : products l a -> products k b -> products (l ++ k) (Bmult mode_NE a b).
  Proof.
    intros Sl Sk S. destruct (multipliable_app l k S) as [Ml Mk].
    destruct (Sl Ml) as (Fa & Za & da & Ea & Da). destruct (Sk Mk) as (Fb & Zb & db & Eb & Db).
    assert (Small : forall x : bf, ~ too_large emax (B2R x)).
    { intros x. unfold too_large. pose proof (abs_B2R_lt_emax prec emax x). lra. }
    destruct (mult_spec prec emax Hp He a b Fa Fb) as [M _].
    destruct l as [|x l].
    { specialize (Za eq_refl). cbn [app].
      assert (E : near (B2R a * B2R b) = B2R b) by (rewrite Za, Rmult_1_l; apply near_id).
      destruct M as [F R]; [rewrite E; apply Small|].
      rewrite E in R. rewrite R. split; [exact F|]. split; [intros ->; now apply Zb|]. eauto. }
    destruct k as [|y k].
    { specialize (Zb eq_refl). rewrite app_nil_r.
      assert (E : near (B2R a * B2R b) = B2R a) by (rewrite Zb, Rmult_1_r; apply near_id).
      destruct M as [F R]; [rewrite E; apply Small|].
      rewrite E in R. rewrite R. split; [exact F|]. split; [discriminate|]. eauto. }
    set (l1 := x :: l) in *. set (k1 := y :: k) in *.
    destruct S as (_ & N & W).
    set (n := (length (l1 ++ k1) - 1)%nat).
    assert (Hn : n = S (length l1 - 1 + (length k1 - 1))).
    { unfold n, l1, k1. rewrite app_length. cbn [length]. lia. }
    assert (G1 : g (length l1 - 1) <= 3 / 2).
    { apply (g_few_3_2 (l1 ++ k1)); [exact N|]. rewrite app_length. lia. }
    assert (G2 : g (length k1 - 1) <= 3 / 2).
    { apply (g_few_3_2 (l1 ++ k1)); [exact N|]. rewrite app_length. lia. }
    assert (Dab := rel_mul _ _ _ _ Da Db). rewrite <- g_plus in Dab.
    set (P := outcome_of (l1 ++ k1)) in *.
    assert (Eab : B2R a * B2R b = P * ((1 + da) * (1 + db))).
    { unfold P. rewrite outcome_app, Ea, Eb. ring. }
    assert (Nil : l1 ++ k1 = [] -> B2R (Bmult mode_NE a b) = 1) by discriminate.
    destruct (Req_dec P 0) as [P0|P0].
    { assert (E : near (B2R a * B2R b) = 0).
      { rewrite Eab, P0, Rmult_0_l. unfold nearest. apply round_0. auto with typeclass_instances. }
      destruct M as [F R].
      { rewrite E. unfold too_large. rewrite Rabs_R0. pose proof (bpow_gt_0 radix2 emax). lra. }
      split; [exact F|]. split; [exact Nil|]. exists 0. rewrite R, E, P0, Rabs_R0.
      pose proof (g_ge1 n). lra. }
    destruct (spread_size (l1 ++ k1) P0) as [Lo Hi]. fold P in Lo, Hi.
    pose proof (spread_ge1 (l1 ++ k1)) as Sp.
    apply Rabs_le_inv in Da, Db.
    assert (A1 : / 2 <= 1 + da <= 3 / 2) by lra. assert (A2 : / 2 <= 1 + db <= 3 / 2) by lra.
    assert (A3 : / 4 <= (1 + da) * (1 + db) <= 9 / 4) by nra.
    set (q := (1 + da) * (1 + db)) in *.
    assert (Sz : Rabs (B2R a * B2R b) = Rabs P * q).
    { rewrite Eab, Rabs_mult. f_equal. apply Rabs_pos_eq. lra. }
    assert (Big : bpow radix2 (3 - emax - prec + prec - 1) <= Rabs (B2R a * B2R b)).
    { rewrite Sz. replace (3 - emax - prec + prec - 1)%Z with (- (emax - 4) + (-2))%Z by lia.
      rewrite bpow_plus, bpow_opp. change (bpow radix2 (-2)) with (/ 4).
      apply Rmult_le_compat; try lra.
      - left. apply Rinv_0_lt_compat, bpow_gt_0.
      - eapply Rle_trans; [|exact Lo]. apply Rinv_le; lra. }
    destruct (relative_error_N_FLT_ex radix2 (3 - emax - prec) prec Hp (fun x => negb (Z.even x)) _ Big) as (e & Be & Ee).
    fold u in Be. change (near (B2R a * B2R b) = B2R a * B2R b * (1 + e)) in Ee.
    pose proof u_half as Uh. pose proof u_pos as U.
    assert (Lim : Rabs (near (B2R a * B2R b)) < bpow radix2 emax).
    { rewrite Ee, Rabs_mult, Sz.
      apply Rle_lt_trans with (spread (l1 ++ k1) * (9 / 4) * (3 / 2)).
      - apply Rmult_le_compat; try apply Rabs_pos.
        + apply Rmult_le_pos; [apply Rabs_pos|lra].
        + apply Rmult_le_compat; try apply Rabs_pos; lra.
        + eapply Rle_trans; [apply Rabs_triang|]. rewrite Rabs_R1. lra.
      - replace (emax - 4)%Z with (emax + (-4))%Z in W by lia. rewrite bpow_plus in W.
        change (bpow radix2 (-4)) with (/ 16) in W. pose proof (bpow_gt_0 radix2 emax). lra. }
    destruct M as [F R]; [unfold too_large; lra|].
    split; [exact F|]. split; [exact Nil|].
    exists (q * (1 + e) - 1). split.
    - rewrite R, Ee, Eab. fold q. ring.
    - fold n. rewrite Hn, g_S.
      replace (q * (1 + e) - 1) with ((1 + (q - 1)) * (1 + e) - 1) by ring.
      apply rel_mul; [exact Dab|lra].
  Qed.
  Lemma products_near l a : products l a -> multipliable l -> is_finite a = true /\ near_product l (B2R a).
  Proof.
    intros H S. destruct (H S) as (F & _ & d & E & D). split; [exact F|]. unfold near_product. rewrite E.
    replace (outcome_of l * (1 + d) - outcome_of l) with (d * outcome_of l) by ring. rewrite Rabs_mult.
    apply Rmult_le_compat_r; [apply Rabs_pos|].
    destruct S as (_ & N & _). pose proof (g_few l (length l - 1) N ltac:(lia)). lra.
  Qed.

  (** ** Exact sums and products *)
  Lemma near_grid z e : (Z.abs z <= 2 ^ prec)%Z -> (3 - emax - prec <= e)%Z ->
    near (IZR z * bpow radix2 e) = IZR z * bpow radix2 e.
  Proof.
    intros H E0. unfold nearest. apply round_generic; [auto with typeclass_instances|].
    destruct (Z.eq_dec (Z.abs z) (2 ^ prec)) as [E|E].
    - assert (G : generic_format radix2 (FLT_exp (3 - emax - prec) prec) (bpow radix2 (prec + e))).
      { apply generic_format_FLT_bpow; [exact Hp|]. unfold Prec_gt_0 in Hp. lia. }
      rewrite bpow_plus in G.
      rewrite <- IZR_Zpower in G by (unfold Prec_gt_0 in Hp; lia).
      change (radix_val radix2) with 2%Z in G. rewrite <- E in G.
      destruct (Z.abs_eq_or_opp z) as [A|A]; rewrite A in G; [easy|].
      rewrite opp_IZR, Ropp_mult_distr_l_reverse in G. apply generic_format_opp in G. now rewrite Ropp_involutive in G.
    - apply generic_format_FLT. exists (Float radix2 z e).
      + reflexivity.
      + cbn [Fnum]. change (Z.abs z < 2 ^ prec)%Z. lia.
      + cbn [Fexp]. lia.
  Qed.

  Lemma on_grid_app e (l k : list bf) : on_grid e (l ++ k) -> on_grid e l /\ on_grid e k.
  Proof.
    intros (E & F & G & W). apply finite_app in F. apply Forall_app in G. rewrite weight_app in W.
    pose proof (weight_pos l). pose proof (weight_pos k). unfold on_grid. intuition lra.
  Qed.
  Lemma grid_total e (l : list bf) : Forall (fun x => exists z, B2R x = IZR z * bpow radix2 e) l ->
    exists z, total l = IZR z * bpow radix2 e.
  Proof.
    induction 1 as [|x l [z Hz] _ [w Hw]]; [exists 0%Z; unfold total; cbn; lra|].
    exists (z + w)%Z. rewrite plus_IZR. unfold total in *. cbn. rewrite Hw, Hz. lra.
  Qed.
  Definition sums_exactly (e : Z) (l : list bf) (a : bf) : Prop :=
    on_grid e l -> is_finite a = true /\ B2R a = total l.
  Lemma grid_fits e (l : list bf) : on_grid e l -> near (total l) = total l /\ ~ too_large emax (near (total l)).
  Proof.
    intros (E & _ & G & W). destruct (grid_total e l G) as [z Hz].
    pose proof (total_weight l) as T. pose proof (bpow_gt_0 radix2 e) as Pe.
    assert (Hb : (Z.abs z <= 2 ^ prec)%Z).
    { apply le_IZR. change 2%Z with (radix_val radix2). rewrite IZR_Zpower by (unfold Prec_gt_0 in Hp; lia).
      apply (Rmult_le_reg_r (bpow radix2 e)); [exact Pe|]. rewrite <- bpow_plus.
      rewrite Hz, Rabs_mult, (Rabs_pos_eq (bpow radix2 e)) in T by lra. rewrite abs_IZR. lra. }
    assert (X : near (total l) = total l) by (rewrite Hz; apply near_grid; [exact Hb|lia]).
    split; [exact X|]. rewrite X. unfold too_large.
    assert (bpow radix2 (prec + e) < bpow radix2 emax) by (apply bpow_lt; lia). lra.
  Qed.
  Lemma sums_exactly_app e l k a b : sums_exactly e l a -> sums_exactly e k b ->
    sums_exactly e (l ++ k) (Bplus mode_NE a b).
  Proof.
    intros Sl Sk S. destruct (on_grid_app e l k S) as [Ml Mk].
    destruct (Sl Ml) as [Fa Ea]. destruct (Sk Mk) as [Fb Eb].
    destruct (grid_fits e (l ++ k) S) as [X L].
    rewrite total_app, <- Ea, <- Eb in X, L.
    destruct (plus_spec a b Fa Fb L) as [F R]. split; [exact F|]. now rewrite R, X, total_app, Ea, Eb.
  Qed.

  Definition multiplies_exactly (l : list bf) (a : bf) : Prop :=
    short l -> is_finite a = true /\ B2R a = outcome_of l.
  Lemma short_app (l k : list bf) : short (l ++ k) -> short l /\ short k.
  Proof.
    intros (F & zs & Q & M & E). apply finite_app in F. destruct F as [Fl Fk].
    apply Forall2_app_inv_l in Q. destruct Q as (z1 & z2 & Q1 & Q2 & ->).
    rewrite map_app, room_mul_app in M. rewrite map_app, room_app in E.
    pose proof (room_mul_pos (map fst z1)). pose proof (room_mul_pos (map fst z2)).
    pose proof (room_nonneg (map snd z1)). pose proof (room_nonneg (map snd z2)).
    split; (split; [assumption|]); [exists z1|exists z2]; (split; [assumption|]); split; nia.
  Qed.
  Lemma short_outcome (l : list bf) (zs : list (Z * Z)) :
    Forall2 (fun x q => B2R x = IZR (fst q) * bpow radix2 (snd q)) l zs ->
    outcome_of l = IZR (product (map fst zs)) * bpow radix2 (sum (map snd zs)).
  Proof.
    induction 1 as [|x q l zs H _ IH]; [unfold outcome_of; cbn; lra|].
    unfold outcome_of in *. cbn [fold_right]. rewrite IH, H.
    change (product (map fst (q :: zs))) with (fst q * product (map fst zs))%Z.
    change (sum (map snd (q :: zs))) with (snd q + sum (map snd zs))%Z.
    rewrite mult_IZR, bpow_plus. ring.
  Qed.
  Lemma short_fits (l : list bf) : short l -> near (outcome_of l) = outcome_of l /\ ~ too_large emax (near (outcome_of l)).
  Proof.
    intros (_ & zs & Q & M & E). rewrite (short_outcome l zs Q).
    pose proof (product_room (map fst zs)) as Pr. pose proof (sum_room (map snd zs)) as Sr.
    set (z := product (map fst zs)) in *. set (e := sum (map snd zs)) in *.
    assert (X : near (IZR z * bpow radix2 e) = IZR z * bpow radix2 e).
    { apply near_grid; [lia|]. unfold Prec_gt_0 in Hp. lia. }
    split; [exact X|]. rewrite X. unfold too_large. rewrite Rabs_mult, <- abs_IZR, (Rabs_pos_eq (bpow _ _)) by apply bpow_ge_0.
    apply Rlt_not_le. apply Rle_lt_trans with (bpow radix2 (prec + e)).
    - rewrite bpow_plus. apply Rmult_le_compat_r; [apply bpow_ge_0|].
      rewrite <- IZR_Zpower by (unfold Prec_gt_0 in Hp; lia). apply IZR_le. change (radix_val radix2) with 2%Z. lia.
    - apply bpow_lt. lia.
  Qed.
  Lemma multiplies_exactly_app l k a b : multiplies_exactly l a -> multiplies_exactly k b ->
    multiplies_exactly (l ++ k) (Bmult mode_NE a b).
  Proof.
    intros Sl Sk S. destruct (short_app l k S) as [Ml Mk].
    destruct (Sl Ml) as [Fa Ea]. destruct (Sk Mk) as [Fb Eb].
    destruct (short_fits (l ++ k) S) as [X L].
    rewrite outcome_app, <- Ea, <- Eb in X, L.
    destruct (mult_spec prec emax Hp He a b Fa Fb) as [M _]. destruct (M L) as [F R].
    split; [exact F|]. now rewrite R, X, outcome_app, Ea, Eb.
  Qed.

  (** ** Bounds *)
  Lemma most_max (l : list bf) : forall a b, most (Rmax a b) l = Rmax a (most b l).
  Proof.
    unfold most. induction l as [|x l IH]; intros a b; [reflexivity|]. cbn [fold_left].
    destruct (is_nan x); [apply IH|]. rewrite <- Rmax_assoc. apply IH.
  Qed.
  Lemma least_min (l : list bf) : forall a b, least (Rmin a b) l = Rmin a (least b l).
  Proof.
    unfold least. induction l as [|x l IH]; intros a b; [reflexivity|]. cbn [fold_left].
    destruct (is_nan x); [apply IH|]. rewrite <- Rmin_assoc. apply IH.
  Qed.
  Lemma most_self (l : list bf) a : a <= most a l.
  Proof. rewrite <- (Rmax_left a a) at 2 by lra. rewrite most_max. apply Rmax_l. Qed.
  Lemma least_self (l : list bf) a : least a l <= a.
  Proof. rewrite <- (Rmin_left a a) at 1 by lra. rewrite least_min. apply Rmin_l. Qed.
  Lemma most_app (l k : list bf) a : most a (l ++ k) = Rmax (most a l) (most a k).
  Proof.
    unfold most. rewrite fold_left_app. fold (most a l) (most (most a l) k) (most a k).
    rewrite <- most_max. f_equal. rewrite Rmax_left; [easy|apply most_self].
  Qed.
  Lemma least_app (l k : list bf) a : least a (l ++ k) = Rmin (least a l) (least a k).
  Proof.
    unfold least. rewrite fold_left_app. fold (least a l) (least (least a l) k) (least a k).
    rewrite <- least_min. f_equal. rewrite Rmin_left; [easy|apply least_self].
  Qed.

  Lemma limit_max : ext (b_maxv prec emax Hp He) = limit prec emax.
  Proof. rewrite ext_finite by reflexivity. apply max_R. Qed.
  Lemma limit_min : ext (b_minv prec emax Hp He) = - limit prec emax.
  Proof. rewrite ext_finite by reflexivity. unfold b_minv. rewrite B2R_Bopp, max_R. reflexivity. Qed.
  Lemma limit_lt : 0 <= limit prec emax < bpow radix2 emax.
  Proof.
    unfold limit. pose proof (bpow_gt_0 radix2 (emax - prec)).
    assert (bpow radix2 (emax - prec) <= bpow radix2 emax) by (apply bpow_le; unfold Prec_gt_0 in Hp; lia). lra.
  Qed.

  Definition lower_is (l : list bf) (x : bf) : Prop := is_nan x = false /\ ext x = most (- limit prec emax) l.
  Definition upper_is (l : list bf) (x : bf) : Prop := is_nan x = false /\ ext x = least (limit prec emax) l.
  Lemma lower_nil : lower_is [] (b_minv prec emax Hp He).
  Proof. split; [reflexivity|apply limit_min]. Qed.
  Lemma upper_nil : upper_is [] (b_maxv prec emax Hp He).
  Proof. split; [reflexivity|apply limit_max]. Qed.
  Lemma lower_one l x y : lower_is l x -> lower_is (l ++ [y]) (b_max prec emax x y).
  Proof.
    intros [N E]. destruct (max_given prec emax x y N) as [A B]. split; [exact A|].
    rewrite B, E. unfold most. rewrite fold_left_app. reflexivity.
  Qed.
  Lemma upper_one l x y : upper_is l x -> upper_is (l ++ [y]) (b_min prec emax x y).
  Proof.
    intros [N E]. destruct (min_given prec emax x y N) as [A B]. split; [exact A|].
    rewrite B, E. unfold least. rewrite fold_left_app. reflexivity.
  Qed.
  Lemma lower_app l k x y : lower_is l x -> lower_is k y -> lower_is (l ++ k) (b_max prec emax x y).
  Proof.
    intros [N E] [N' E']. destruct (ext_max prec emax x y N N') as [A B]. split; [exact A|].
    now rewrite B, E, E', most_app.
  Qed.
  Lemma upper_app l k x y : upper_is l x -> upper_is k y -> upper_is (l ++ k) (b_min prec emax x y).
  Proof.
    intros [N E] [N' E']. destruct (ext_min prec emax x y N N') as [A B]. split; [exact A|].
    now rewrite B, E, E', least_app.
  Qed.

  (** Bounding a number that may have overflowed. *)
  Lemma bound_is los his lo hi x y :
    lower_is los lo -> upper_is his hi -> is_nan x = false ->
    (~ too_large emax y -> ext x = y) ->
    (too_large emax y -> ext x = if Rlt_bool y 0 then - bpow radix2 emax else bpow radix2 emax) ->
    ext (b_max prec emax (b_min prec emax x hi) lo) = clamped los his y.
  Proof.
    intros [Nl El] [Nh Eh] Nx A B.
    destruct (ext_min prec emax x hi Nx Nh) as [N1 E1].
    destruct (ext_max prec emax _ lo N1 Nl) as [N2 E2].
    rewrite E2, E1, El, Eh. unfold clamped.
    pose proof (most_self los (- limit prec emax)) as Ml. pose proof (least_self his (limit prec emax)) as Mh.
    pose proof limit_lt as Lt.
    set (m := most _ _) in *. set (k := least _ _) in *.
    destruct (too_large_dec emax y) as [T|T].
    - rewrite (B T). unfold too_large in T.
      case Rlt_bool_spec; intros S.
      + rewrite Rabs_left in T by exact S.
        rewrite (Rmax_right _ m), (Rmax_right _ m); [easy| |].
        * eapply Rle_trans; [apply Rmin_l|]. lra.
        * eapply Rle_trans; [apply Rmin_l|]. lra.
      + rewrite Rabs_pos_eq in T by exact S. rewrite (Rmin_right _ k), (Rmin_right _ k) by lra. reflexivity.
    - now rewrite (A T).
  Qed.

  Lemma bound_product los his lo hi (a m : bf) :
    lower_is los lo -> upper_is his hi -> is_finite a = true -> is_finite m = true ->
    ext (b_max prec emax (b_min prec emax (Bmult mode_NE a m) hi) lo) = clamped los his (near (B2R a * B2R m)).
  Proof.
    intros L U Fa Fm. destruct (mult_spec prec emax Hp He a m Fa Fm) as [A B].
    assert (Sg : too_large emax (near (B2R a * B2R m)) ->
              xorb (Bsign a) (Bsign m) = Rlt_bool (near (B2R a * B2R m)) 0).
    { intros T. unfold too_large in T.
      assert (Nz : B2R a * B2R m <> 0).
      { intros E. rewrite E in T. unfold nearest in T. rewrite round_0 in T by auto with typeclass_instances.
        rewrite Rabs_R0 in T. pose proof (bpow_gt_0 radix2 emax). lra. }
      assert (Sa : forall x : bf, is_finite x = true -> B2R x <> 0 -> Bsign x = Rlt_bool (B2R x) 0).
      { intros [s|s| |s mm e pf] Fx Nx; try easy. symmetry. cbn [Bsign B2R].
        destruct s; [apply Rlt_bool_true, F2R_lt_0|apply Rlt_bool_false, F2R_ge_0]; cbn; lia. }
      assert (Na : B2R a <> 0) by (intros E; rewrite E in Nz; lra).
      assert (Nm : B2R m <> 0) by (intros E; rewrite E in Nz; lra).
      rewrite (Sa a Fa Na), (Sa m Fm Nm).
      assert (Pos : 0 <= B2R a * B2R m -> 0 <= near (B2R a * B2R m)).
      { intros. apply round_ge_generic; auto with typeclass_instances. apply generic_format_0. }
      assert (Neg : B2R a * B2R m <= 0 -> near (B2R a * B2R m) <= 0).
      { intros. apply round_le_generic; auto with typeclass_instances. apply generic_format_0. }
      pose proof (bpow_gt_0 radix2 emax) as Pe.
      assert (N0 : near (B2R a * B2R m) <> 0) by (intros E; rewrite E, Rabs_R0 in T; lra).
      destruct (Rlt_bool_spec (B2R a) 0), (Rlt_bool_spec (B2R m) 0); cbn [xorb]; symmetry.
      - apply Rlt_bool_false. apply Pos. nra.
      - apply Rlt_bool_true. assert (near (B2R a * B2R m) <= 0) by (apply Neg; nra). lra.
      - apply Rlt_bool_true. assert (near (B2R a * B2R m) <= 0) by (apply Neg; nra). lra.
      - apply Rlt_bool_false. apply Pos. nra. }
    apply bound_is; try assumption.
    - destruct (too_large_dec emax (near (B2R a * B2R m))) as [T|T].
      + now rewrite (B T).
      + apply fin_not_nan, A, T.
    - intros T. destruct (A T) as [F E]. now rewrite ext_finite.
    - intros T. rewrite (B T), (Sg T). now destruct Rlt_bool.
  Qed.
  Lemma bound_finite los his lo hi (m : bf) :
    lower_is los lo -> upper_is his hi -> is_finite m = true ->
    ext (b_max prec emax (b_min prec emax m hi) lo) = clamped los his (B2R m).
  Proof.
    intros L U Fm. apply bound_is; try assumption.
    - now apply fin_not_nan.
    - intros _. now apply ext_finite.
    - intros T. exfalso. unfold too_large in T. pose proof (abs_B2R_lt_emax prec emax m). lra.
  Qed.
End Acc.
