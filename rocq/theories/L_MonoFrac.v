(** Proofs: what more was granted to is worth no less (float stats over fractions). *)
From Coq Require Import ZArith QArith Qminmax List Bool Lia Setoid.
From Verif Require Import M_Outcome M_Ints M_Ratio M_Float M_Value M_Types S_Ratio S_Types S_Totals S_FloatTotals S_FracTotals S_Monotone S_MonoFrac
  L_Outcome L_Ints L_Ratio L_Round L_RatioQ L_Float L_Totals2 L_FracTotals L_FracTotals2.
Import ListNotations.
Local Open Scope Z_scope.

Section Induction.
  Context {S : StatValue} (O : merits S) (ok : stat_op S -> Prop) (le : val S -> val S -> Prop).
  Hypothesis le_default : le (sv_default S) (sv_default S).
  Hypothesis le_base : forall b b', ok (OBase b) -> ok (OBase b') -> better_base O b b' -> le (sv_from_base S b) (sv_from_base S b').
  Hypothesis le_based : forall b, ok (OBase b) -> gain_base O b -> le (sv_default S) (sv_from_base S b).
  Hypothesis le_unbased : forall b, ok (OBase b) -> loss_base O b -> le (sv_from_base S b) (sv_default S).
  Hypothesis le_op : forall o o' v w v' w', (forall b, o <> OBase b) -> ok o -> ok o' -> better_op O o o' -> le v w ->
    write_to o v = Done v' -> write_to o' w = Done w' -> le v' w'.
  Hypothesis le_gain : forall o v w w', ok o -> gain O o -> le v w -> write_to o w = Done w' -> le v w'.
  Hypothesis le_loss : forall o v v' w, ok o -> loss O o -> le v w -> write_to o v = Done v' -> le v' w.
  Hypothesis le_join : forall v w x y v' w', le v w -> le x y -> sv_join S v x = Done v' -> sv_join S w y = Done w' -> le v' w'.
  Hypothesis le_joined : forall v w y w', le v w -> le (sv_default S) y -> sv_join S w y = Done w' -> le v w'.
  Hypothesis le_unjoined : forall v w x v', le v w -> le x (sv_default S) -> sv_join S v x = Done v' -> le v' w.

  Lemma improved_ok_le h k : improved O h k -> every ok h -> every ok k -> forall v w, value_of h = Done v -> value_of k = Done w -> le v w.
  Proof.
    intros I. induction I as [|b b' B|b B|b B|h k o o' I IH B|h k b b' B|h k o I IH B|h k o I IH B|h k i j I IH I2 IH2|h k j I IH I2 IH2|h k i I IH I2 IH2];
      intros OH OK v w V W; cbn [value_of] in V, W; cbn [every] in OH, OK.
    - injection V as <-. injection W as <-. exact le_default.
    - injection V as <-. injection W as <-. auto.
    - injection V as <-. injection W as <-. auto.
    - injection V as <-. injection W as <-. auto.
    - destruct OH as [OH Oo], OK as [OK Oo'].
      apply obind_inv in V. destruct V as (v0 & V0 & V). apply obind_inv in W. destruct W as (w0 & W0 & W).
      destruct o as [x|x|x|x|x|x|x];
        try (eapply le_op; [|exact Oo|exact Oo'|exact B|exact (IH OH OK _ _ V0 W0)|exact V|exact W]; intros; discriminate).
      destruct o'; cbn in B; try contradiction. cbn in V, W. injection V as <-. injection W as <-. auto.
    - apply obind_inv in V. destruct V as (v0 & V0 & V). apply obind_inv in W. destruct W as (w0 & W0 & W).
      cbn in V, W. injection V as <-. injection W as <-. apply le_base; tauto.
    - apply obind_inv in W. destruct W as (w0 & W0 & W). destruct OK as [OK Oo]. eapply le_gain; [exact Oo|exact B|exact (IH OH OK _ _ V W0)|exact W].
    - apply obind_inv in V. destruct V as (v0 & V0 & V). destruct OH as [OH Oo]. eapply le_loss; [exact Oo|exact B|exact (IH OH OK _ _ V0 W)|exact V].
    - apply obind_inv in V. destruct V as (v0 & V0 & V). apply obind_inv in V. destruct V as (v1 & V1 & V).
      apply obind_inv in W. destruct W as (w0 & W0 & W). apply obind_inv in W. destruct W as (w1 & W1 & W).
      destruct OH as [OH OH'], OK as [OK OK'].
      eapply le_join; [exact (IH OH OK _ _ V0 W0)|exact (IH2 OH' OK' _ _ V1 W1)|exact V|exact W].
    - apply obind_inv in W. destruct W as (w0 & W0 & W). apply obind_inv in W. destruct W as (w1 & W1 & W). destruct OK as [OK OK'].
      eapply le_joined; [exact (IH OH OK _ _ V W0)|exact (IH2 Logic.I OK' _ _ eq_refl W1)|exact W].
    - apply obind_inv in V. destruct V as (v0 & V0 & V). apply obind_inv in V. destruct V as (v1 & V1 & V). destruct OH as [OH OH'].
      eapply le_unjoined; [exact (IH OH OK _ _ V0 W)|exact (IH2 OH' Logic.I _ _ V1 eq_refl)|exact V].
  Qed.
End Induction.

Section Fields.
  Variable t : ity.
  (** Fractions in lowest terms, the first no larger. *)
  Definition fle2 (x y : ratio) : Prop := reduced t x /\ reduced t y /\ (toQ x <= toQ y)%Q.
  Definition q_upto (raise : bool) (p q : Q) : Prop := if raise then (p <= q)%Q else (p == q)%Q.
  Definition fup2 (raise : bool) (x y : ratio) : Prop := reduced t x /\ reduced t y /\ q_upto raise (toQ x) (toQ y).
  (** ... and not negative. *)
  Definition fpos2 (raise : bool) (x y : ratio) : Prop := (0 <= toQ x)%Q /\ fup2 raise x y.

  Lemma fle2I x y : reduced t x -> reduced t y -> frac_le x y -> fle2 x y.
  Proof. intros A B L. exact (conj A (conj B L)). Qed.
  Lemma upto_q raise x y : upto raise frac_le x y -> q_upto raise (toQ x) (toQ y).
  Proof. destruct raise; cbn; [auto|]. intros ->. reflexivity. Qed.
  Lemma fup2I raise x y : reduced t x -> reduced t y -> upto raise frac_le x y -> fup2 raise x y.
  Proof. intros A B L. exact (conj A (conj B (upto_q _ _ _ L))). Qed.
  Lemma nonneg_q x : 0 <= numer x -> (0 <= toQ x)%Q.
  Proof. intros H. unfold toQ, Qle. cbn. lia. Qed.
  Lemma nonpos_q x : numer x <= 0 -> (toQ x <= 0)%Q.
  Proof. intros H. unfold toQ, Qle. cbn. lia. Qed.
  Lemma add_q x y z : reduced t x -> reduced t y -> r_add true t x y = Done z -> reduced t z /\ (toQ z == toQ x + toQ y)%Q.
  Proof. intros Rx Ry H. exact (is_frac_add t _ _ x y z (conj Rx (Qeq_refl _)) (conj Ry (Qeq_refl _)) H). Qed.
  Lemma mul_q x y z : reduced t x -> reduced t y -> r_mul true t x y = Done z -> reduced t z /\ (toQ z == toQ x * toQ y)%Q.
  Proof. intros Rx Ry H. exact (is_frac_mul t _ _ x y z (conj Rx (Qeq_refl _)) (conj Ry (Qeq_refl _)) H). Qed.
  Lemma max_q x y : reduced t x -> reduced t y -> reduced t (r_max x y) /\ (toQ (r_max x y) == Qmax (toQ x) (toQ y))%Q.
  Proof. intros Rx Ry. exact (is_frac_max t _ _ x y (conj Rx (Qeq_refl _)) (conj Ry (Qeq_refl _))). Qed.
  Lemma min_q x y : reduced t x -> reduced t y -> reduced t (r_min x y) /\ (toQ (r_min x y) == Qmin (toQ x) (toQ y))%Q.
  Proof. intros Rx Ry. exact (is_frac_min t _ _ x y (conj Rx (Qeq_refl _)) (conj Ry (Qeq_refl _))). Qed.
  Lemma int_q z : ity_ok t z -> fle2 (r_int z) (r_int z).
  Proof. intros H. split; [apply reduced_r_int; exact H|]. split; [apply reduced_r_int; exact H|apply Qle_refl]. Qed.

  (** Sums. *)
  Lemma add_both raise x y x' y' a b : fup2 raise x y -> fup2 raise x' y' -> r_add true t x x' = Done a -> r_add true t y y' = Done b -> fup2 raise a b.
  Proof.
    intros (A & B & L) (A' & B' & L') E F. destruct (add_q _ _ _ A A' E) as [Ra Qa]. destruct (add_q _ _ _ B B' F) as [Rb Qb].
    split; [exact Ra|]. split; [exact Rb|]. destruct raise; cbn [q_upto] in *; rewrite Qa, Qb; [apply Qplus_le_compat; assumption|rewrite L, L'; reflexivity].
  Qed.
  Lemma add_right raise x y y' b : fup2 raise x y -> reduced t y' -> q_upto raise 0 (toQ y') -> r_add true t y y' = Done b -> fup2 raise x b.
  Proof.
    intros (A & B & L) B' L' F. destruct (add_q _ _ _ B B' F) as [Rb Qb]. split; [exact A|]. split; [exact Rb|].
    destruct raise; cbn [q_upto] in *; rewrite Qb; [rewrite <- (Qplus_0_r (toQ x)); apply Qplus_le_compat; assumption|rewrite <- L', Qplus_0_r; exact L].
  Qed.
  Lemma add_left raise x y x' a : fup2 raise x y -> reduced t x' -> q_upto raise (toQ x') 0 -> r_add true t x x' = Done a -> fup2 raise a y.
  Proof.
    intros (A & B & L) A' L' E. destruct (add_q _ _ _ A A' E) as [Ra Qa]. split; [exact Ra|]. split; [exact B|].
    destruct raise; cbn [q_upto] in *; rewrite Qa; [rewrite <- (Qplus_0_r (toQ y)); apply Qplus_le_compat; assumption|rewrite L', Qplus_0_r; exact L].
  Qed.
  (** Products. *)
  Lemma mul_both raise x y x' y' a b : fpos2 raise x y -> fpos2 raise x' y' -> r_mul true t x x' = Done a -> r_mul true t y y' = Done b -> fpos2 raise a b.
  Proof.
    intros (P & A & B & L) (P' & A' & B' & L') E F. destruct (mul_q _ _ _ A A' E) as [Ra Qa]. destruct (mul_q _ _ _ B B' F) as [Rb Qb].
    split; [rewrite Qa; apply Qmult_le_0_compat; assumption|]. split; [exact Ra|]. split; [exact Rb|].
    destruct raise; cbn [q_upto] in *; rewrite Qa, Qb; [|rewrite L, L'; reflexivity].
    apply Qmult_le_compat_nonneg; split; assumption.
  Qed.
  Lemma one_le : fpos2 true (r_int 1) (r_int 1) /\ fpos2 false (r_int 1) (r_int 1).
  Proof.
    destruct (int_q 1 (one_fits t)) as (A & B & _). split; (split; [discriminate|]; split; [exact A|]; split; [exact B|]); cbn; [discriminate|reflexivity].
  Qed.
  Lemma mul_right raise x y y' b : fpos2 raise x y -> reduced t y' -> q_upto raise 1 (toQ y') -> r_mul true t y y' = Done b -> fpos2 raise x b.
  Proof.
    intros (P & A & B & L) B' L' F. destruct (mul_q _ _ _ B B' F) as [Rb Qb]. split; [exact P|]. split; [exact A|]. split; [exact Rb|].
    destruct raise; cbn [q_upto] in *; rewrite Qb; [|rewrite <- L', Qmult_1_r; exact L].
    apply Qle_trans with (toQ y); [exact L|]. rewrite <- (Qmult_1_l (toQ y)) at 1. rewrite (Qmult_comm (toQ y) (toQ y')). apply Qmult_le_compat_r; [exact L'|].
    eapply Qle_trans; eassumption.
  Qed.
  Lemma mul_left raise x y x' a : fpos2 raise x y -> reduced t x' -> (0 <= toQ x')%Q -> q_upto raise (toQ x') 1 -> r_mul true t x x' = Done a -> fpos2 raise a y.
  Proof.
    intros (P & A & B & L) A' P' L' E. destruct (mul_q _ _ _ A A' E) as [Ra Qa].
    split; [rewrite Qa; apply Qmult_le_0_compat; assumption|]. split; [exact Ra|]. split; [exact B|].
    destruct raise; cbn [q_upto] in *; rewrite Qa; [|rewrite L', Qmult_1_r; exact L].
    apply Qle_trans with (toQ x); [|exact L]. rewrite <- (Qmult_1_l (toQ x)) at 2. rewrite (Qmult_comm (toQ x)). apply Qmult_le_compat_r; assumption.
  Qed.
  (** Bounds. *)
  Lemma fle2_max x y x' y' : fle2 x y -> fle2 x' y' -> fle2 (r_max x x') (r_max y y').
  Proof.
    intros (A & B & L) (A' & B' & L'). destruct (max_q x x' A A') as [R1 E1]. destruct (max_q y y' B B') as [R2 E2].
    split; [exact R1|]. split; [exact R2|]. rewrite E1, E2. apply Q.max_le_compat; assumption.
  Qed.
  Lemma fle2_min x y x' y' : fle2 x y -> fle2 x' y' -> fle2 (r_min x x') (r_min y y').
  Proof.
    intros (A & B & L) (A' & B' & L'). destruct (min_q x x' A A') as [R1 E1]. destruct (min_q y y' B B') as [R2 E2].
    split; [exact R1|]. split; [exact R2|]. rewrite E1, E2. apply Q.min_le_compat; assumption.
  Qed.
  Lemma fle2_max_r x y y' : fle2 x y -> reduced t y' -> fle2 x (r_max y y').
  Proof.
    intros (A & B & L) B'. destruct (max_q y y' B B') as [R2 E2]. split; [exact A|]. split; [exact R2|]. rewrite E2.
    eapply Qle_trans; [exact L|apply Q.le_max_l].
  Qed.
  Lemma fle2_min_l x y x' : fle2 x y -> reduced t x' -> fle2 (r_min x x') y.
  Proof.
    intros (A & B & L) A'. destruct (min_q x x' A A') as [R1 E1]. split; [exact R1|]. split; [exact B|]. rewrite E1.
    eapply Qle_trans; [apply Q.le_min_l|exact L].
  Qed.
  (** Joining with what bounds nothing. *)
  Lemma fle2_min_r x y y' : fle2 x y -> fle2 (r_int (imax t)) y' -> fle2 x (r_min y y').
  Proof.
    intros (A & B & L) (A' & B' & L'). destruct (min_q y y' B B') as [R2 E2]. split; [exact A|]. split; [exact R2|]. rewrite E2.
    apply Q.min_glb; [exact L|]. eapply Qle_trans; [apply (toQ_le_imax t x A)|exact L'].
  Qed.
  Lemma fle2_max_l x y x' : fle2 x y -> fle2 x' (r_int (imin t)) -> fle2 (r_max x x') y.
  Proof.
    intros (A & B & L) (A' & B' & L'). destruct (max_q x x' A A') as [R1 E1]. split; [exact R1|]. split; [exact B|]. rewrite E1.
    apply Q.max_lub; [exact L|]. eapply Qle_trans; [exact L'|apply (toQ_ge_imin t y B)].
  Qed.
  Lemma bound_le lo hi lo' hi' x y : fle2 lo lo' -> fle2 hi hi' -> fle2 x y -> fle2 (r_max (r_min x hi) lo) (r_max (r_min y hi') lo').
  Proof. intros L U X. apply fle2_max; [apply fle2_min; assumption|assumption]. Qed.
  Lemma fup_le x y : fup2 true x y <-> fle2 x y. Proof. reflexivity. Qed.

  (** All but the multiplier. *)
  Definition front2 (v w : quad ratio ratio) : Prop := fle2 (addend v) (addend w) /\ fle2 (vmin v) (vmin w) /\ fle2 (vmax v) (vmax w).
  Lemma lows : fle2 (r_int (imin t)) (r_int (imin t)). Proof. apply int_q, imin_fits. Qed.
  Lemma highs : fle2 (r_int (imax t)) (r_int (imax t)). Proof. apply int_q, imax_fits. Qed.
  Lemma zero_red : reduced t (r_int 0). Proof. apply reduced_r_int, zero_fits. Qed.
  Lemma product_le raise a b m n x y : fle2 a b -> fpos2 raise m n -> (raise = true -> (0 <= toQ a)%Q) ->
    r_mul true t a m = Done x -> r_mul true t b n = Done y -> fle2 x y.
  Proof.
    intros (A & B & L) (P & M & N & U) Pa E F. destruct (mul_q _ _ _ A M E) as [Rx Qx]. destruct (mul_q _ _ _ B N F) as [Ry Qy].
    split; [exact Rx|]. split; [exact Ry|]. rewrite Qx, Qy. destruct raise; cbn in U.
    - specialize (Pa eq_refl). apply Qmult_le_compat_nonneg; split; assumption.
    - rewrite <- U. apply Qmult_le_compat_r; assumption.
  Qed.
End Fields.

Ltac inv H x E := apply obind_inv in H; destruct H as (x & E & H).

Section Types.
  Variable t : ity.
  Let F := fracF true t.

  Lemma float_le raise h k : improved (fracfloat_merits true t raise) h k -> every (float_op_ok true t) h -> every (float_op_ok true t) k ->
    forall v w, value_of h = Done v -> value_of k = Done w -> front2 t v w /\ fpos2 t raise (mult v) (mult w).
  Proof.
    intros I OH OK. pose proof (lows t) as LL. pose proof (highs t) as HH. pose proof (zero_red t) as Z0.
    assert (O1 : fpos2 t raise (r_int 1) (r_int 1)) by (destruct raise; apply (one_le t)).
    apply (improved_ok_le (fracfloat_merits true t raise) (float_op_ok true t)) with (h := h) (k := k); try assumption; clear I h k OH OK; unfold front2.
    - cbn. split; [|exact O1]. split; [|split; assumption]. split; [exact Z0|]. split; [exact Z0|apply Qle_refl].
    - intros b b' A B L. cbn in *. split; [split; [apply fle2I; assumption|split; assumption]|exact O1].
    - intros b A L. cbn in *. split; [split; [split; [assumption|]; split; [assumption|]; apply nonneg_q in L; exact L|split; assumption]|exact O1].
    - intros b A L. cbn in *. split; [split; [split; [assumption|]; split; [assumption|]; apply nonpos_q in L; exact L|split; assumption]|exact O1].
    - intros o o' v w v' w' NB Oo Oo' B [(FA & FL & FH) M] V W. destruct o, o'; cbn [better_op] in B; try contradiction; cbn in V, W, Oo, Oo', B.
      + unfold fq_add in V, W. inv V a E. inv W b E'. injection V as <-. injection W as <-. cbn. split; [|exact M]. split; [|split; assumption].
        apply (add_both t true (addend v) (addend w) x x0); try assumption. apply (fle2I t); assumption.
      + inv V a E. inv W b E'. injection V as <-. injection W as <-. cbn. split; [split; [exact FA|]; split; [exact FL|exact FH]|].
        destruct B as [P U]. apply (mul_both t raise (mult v) (mult w) x x0); try assumption. split; [apply nonneg_q, P|]. apply fup2I; assumption.
      + injection V as <-. injection W as <-. cbn. split; [|exact M]. split; [exact FA|]. split; [|exact FH]. apply fle2_max; [exact FL|apply fle2I; assumption].
      + injection V as <-. injection W as <-. cbn. split; [|exact M]. split; [exact FA|]. split; [exact FL|]. apply fle2_min; [exact FH|apply fle2I; assumption].
      + destruct (NB x eq_refl).
    - intros o v w w' Oo G [(FA & FL & FH) M] W. destruct o; cbn [gain] in G; try contradiction; cbn in W, Oo, G.
      + unfold fq_add in W. inv W b E. injection W as <-. cbn. split; [|exact M]. split; [|split; assumption].
        apply (add_right t true _ (addend w) x); try assumption. apply nonneg_q in G. exact G.
      + inv W b E. injection W as <-. cbn. split; [split; [exact FA|]; split; [exact FL|exact FH]|].
        apply (mul_right t raise _ (mult w) x); try assumption. apply (upto_q raise (Frac 1 1) x). exact G.
      + injection W as <-. cbn. split; [|exact M]. split; [exact FA|]. split; [|exact FH]. apply fle2_max_r; assumption.
    - intros o v v' w Oo G [(FA & FL & FH) M] V. destruct o; cbn [loss] in G; try contradiction; cbn in V, Oo, G.
      + unfold fq_add in V. inv V b E. injection V as <-. cbn. split; [|exact M]. split; [|split; assumption].
        apply (add_left t true (addend v) _ x); try assumption. apply nonpos_q in G. exact G.
      + inv V b E. injection V as <-. cbn. split; [split; [exact FA|]; split; [exact FL|exact FH]|].
        destruct G as [P U]. apply (mul_left t raise (mult v) _ x); try assumption; [apply nonneg_q, P|apply (upto_q raise x (Frac 1 1)), U].
      + injection V as <-. cbn. split; [|exact M]. split; [exact FA|]. split; [exact FL|]. apply fle2_min_l; assumption.
    - intros v w x y v' w' [(FA & FL & FH) M] [(FA' & FL' & FH') M'] V W. cbn in V, W. inv V a Ea. inv V m Em. inv W b Eb. inv W n En.
      injection V as <-. injection W as <-. cbn. split; [|exact (mul_both t raise _ _ _ _ _ _ M M' Em En)].
      split; [exact (add_both t true _ _ _ _ _ _ FA FA' Ea Eb)|]. split; [apply fle2_max|apply fle2_min]; assumption.
    - intros v w y w' [(FA & FL & FH) M] [(FA' & FL' & FH') M'] W. cbn in W, FA', FL', FH', M'. inv W b Eb. inv W n En.
      injection W as <-. cbn. split; [|apply (mul_right t raise _ _ _ _ M (proj1 (proj2 (proj2 M')))); [apply M'|exact En]].
      split; [apply (add_right t true _ _ _ _ FA (proj1 (proj2 FA'))); [apply FA'|exact Eb]|]. split; [apply fle2_max_r; [exact FL|apply FL']|apply fle2_min_r; assumption].
    - intros v w x v' [(FA & FL & FH) M] [(FA' & FL' & FH') M'] V. cbn in V, FA', FL', FH', M'. inv V b Eb. inv V n En.
      injection V as <-. cbn. split; [|apply (mul_left t raise _ _ _ _ M (proj1 (proj2 M'))); [apply M'|apply M'|exact En]].
      split; [apply (add_left t true _ _ _ _ FA (proj1 FA')); [apply FA'|exact Eb]|]. split; [apply fle2_max_l; assumption|apply fle2_min_l; [exact FH|apply FH']].
  Qed.

  Lemma C75_Fraction_StatFloat_proof : forall raise (h k : history (statFloat (fracF true t))) v r r',
    improved (fracfloat_merits true t raise) h k -> every (float_op_ok true t) h -> every (float_op_ok true t) k ->
    value_of h = Done v -> (raise = true -> 0 <= numer (addend v)) -> worth h = Done r -> worth k = Done r' -> (toQ r <= toQ r')%Q.
  Proof.
    intros raise h k v r r' I OH OK V P H H'. unfold worth in H, H'. rewrite V in H. inv H' w W. cbn [obind sv_eval statFloat f_mul fracF] in H, H'.
    destruct (float_le raise h k I OH OK v w V W) as [(FA & FL & FH) M]. inv H x E. inv H' y E'. injection H as <-. injection H' as <-.
    apply bound_le with (t := t); [exact FL|exact FH|]. eapply product_le; [exact FA|exact M| |exact E|exact E']. intros R. apply nonneg_q, P, R.
  Qed.

  Lemma floatadd_le raise h k : improved (fracadd_merits true t raise) h k -> every (floatadd_op_ok true t) h -> every (floatadd_op_ok true t) k ->
    forall v w, value_of h = Done v -> value_of k = Done w -> front2 t v w /\ fup2 t raise (mult v) (mult w).
  Proof.
    intros I OH OK. pose proof (lows t) as LL. pose proof (highs t) as HH. pose proof (zero_red t) as Z0.
    assert (O1 : fup2 t raise (r_int 0) (r_int 0)) by (split; [exact Z0|]; split; [exact Z0|]; destruct raise; [apply Qle_refl|reflexivity]).
    apply (improved_ok_le (fracadd_merits true t raise) (floatadd_op_ok true t)) with (h := h) (k := k); try assumption; clear I h k OH OK; unfold front2.
    - cbn. split; [|exact O1]. split; [|split; assumption]. split; [exact Z0|]. split; [exact Z0|apply Qle_refl].
    - intros b b' A B L. cbn in *. split; [split; [apply fle2I; assumption|split; assumption]|exact O1].
    - intros b A L. cbn in *. split; [split; [split; [assumption|]; split; [assumption|]; apply nonneg_q in L; exact L|split; assumption]|exact O1].
    - intros b A L. cbn in *. split; [split; [split; [assumption|]; split; [assumption|]; apply nonpos_q in L; exact L|split; assumption]|exact O1].
    - intros o o' v w v' w' NB Oo Oo' B [(FA & FL & FH) M] V W. destruct o, o'; cbn [better_op] in B; try contradiction; cbn in V, W, Oo, Oo', B.
      + unfold fq_add in V, W. inv V a E. inv W b E'. injection V as <-. injection W as <-. cbn. split; [|exact M]. split; [|split; assumption].
        apply (add_both t true (addend v) (addend w) x x0); try assumption. apply (fle2I t); assumption.
      + inv V a E. inv W b E'. injection V as <-. injection W as <-. cbn. split; [split; [exact FA|]; split; [exact FL|exact FH]|].
        apply (add_both t raise (mult v) (mult w) x x0); try assumption. apply fup2I; assumption.
      + injection V as <-. injection W as <-. cbn. split; [|exact M]. split; [exact FA|]. split; [|exact FH]. apply fle2_max; [exact FL|apply fle2I; assumption].
      + injection V as <-. injection W as <-. cbn. split; [|exact M]. split; [exact FA|]. split; [exact FL|]. apply fle2_min; [exact FH|apply fle2I; assumption].
      + destruct (NB x eq_refl).
    - intros o v w w' Oo G [(FA & FL & FH) M] W. destruct o; cbn [gain] in G; try contradiction; cbn in W, Oo, G.
      + unfold fq_add in W. inv W b E. injection W as <-. cbn. split; [|exact M]. split; [|split; assumption].
        apply (add_right t true _ (addend w) x); try assumption. apply nonneg_q in G. exact G.
      + inv W b E. injection W as <-. cbn. split; [split; [exact FA|]; split; [exact FL|exact FH]|].
        apply (add_right t raise _ (mult w) x); try assumption. apply (upto_q raise (Frac 0 1) x). exact G.
      + injection W as <-. cbn. split; [|exact M]. split; [exact FA|]. split; [|exact FH]. apply fle2_max_r; assumption.
    - intros o v v' w Oo G [(FA & FL & FH) M] V. destruct o; cbn [loss] in G; try contradiction; cbn in V, Oo, G.
      + unfold fq_add in V. inv V b E. injection V as <-. cbn. split; [|exact M]. split; [|split; assumption].
        apply (add_left t true (addend v) _ x); try assumption. apply nonpos_q in G. exact G.
      + inv V b E. injection V as <-. cbn. split; [split; [exact FA|]; split; [exact FL|exact FH]|].
        apply (add_left t raise (mult v) _ x); try assumption. apply (upto_q raise x (Frac 0 1)), G.
      + injection V as <-. cbn. split; [|exact M]. split; [exact FA|]. split; [exact FL|]. apply fle2_min_l; assumption.
    - intros v w x y v' w' [(FA & FL & FH) M] [(FA' & FL' & FH') M'] V W. cbn in V, W. inv V a Ea. inv V m Em. inv W b Eb. inv W n En.
      injection V as <-. injection W as <-. cbn. split; [|exact (add_both t raise _ _ _ _ _ _ M M' Em En)].
      split; [exact (add_both t true _ _ _ _ _ _ FA FA' Ea Eb)|]. split; [apply fle2_max|apply fle2_min]; assumption.
    - intros v w y w' [(FA & FL & FH) M] [(FA' & FL' & FH') M'] W. cbn in W, FA', FL', FH', M'. inv W b Eb. inv W n En.
      injection W as <-. cbn. split; [|apply (add_right t raise _ _ _ _ M (proj1 (proj2 M'))); [apply M'|exact En]].
      split; [apply (add_right t true _ _ _ _ FA (proj1 (proj2 FA'))); [apply FA'|exact Eb]|]. split; [apply fle2_max_r; [exact FL|apply FL']|apply fle2_min_r; assumption].
    - intros v w x v' [(FA & FL & FH) M] [(FA' & FL' & FH') M'] V. cbn in V, FA', FL', FH', M'. inv V b Eb. inv V n En.
      injection V as <-. cbn. split; [|apply (add_left t raise _ _ _ _ M (proj1 M')); [apply M'|exact En]].
      split; [apply (add_left t true _ _ _ _ FA (proj1 FA')); [apply FA'|exact Eb]|]. split; [apply fle2_max_l; assumption|apply fle2_min_l; [exact FH|apply FH']].
  Qed.

  Lemma C75_Fraction_StatFloatAdditive_proof : forall raise (h k : history (statFloatAdditive (fracF true t))) v r r',
    improved (fracadd_merits true t raise) h k -> every (floatadd_op_ok true t) h -> every (floatadd_op_ok true t) k ->
    value_of h = Done v -> (-1 <= toQ (mult v))%Q -> (raise = true -> 0 <= numer (addend v)) ->
    worth h = Done r -> worth k = Done r' -> (toQ r <= toQ r')%Q.
  Proof.
    intros raise h k v r r' I OH OK V N P H H'. unfold worth in H, H'. rewrite V in H. inv H' w W. cbn [obind sv_eval statFloatAdditive f_mul f_add f_one fracF] in H, H'.
    destruct (floatadd_le raise h k I OH OK v w V W) as [(FA & FL & FH) M]. inv H m Em. inv H x E. inv H' n En. inv H' y E'. injection H as <-. injection H' as <-.
    apply bound_le with (t := t); [exact FL|exact FH|].
    assert (M' : fup2 t raise m n).
    { apply (add_both t raise _ _ (r_int 1) (r_int 1) _ _ M); [|exact Em|exact En]. destruct raise; apply (one_le t). }
    eapply product_le; [exact FA|split; [|exact M']| |exact E|exact E'].
    - destruct (add_q t _ _ _ (proj1 M) (one_reduced t) Em) as [_ ->]. change (toQ (r_int 1)) with 1%Q.
      apply (Qplus_le_compat _ _ 1 1) in N; [exact N|apply Qle_refl].
    - intros R. apply nonneg_q, P, R.
  Qed.

  Lemma fmult_le h k : improved (fracmult_merits true t) h k -> every (mult_op_ok true t) h -> every (mult_op_ok true t) k ->
    forall v w, value_of h = Done v -> value_of k = Done w -> (fle2 t (t_min v) (t_min w) /\ fle2 t (t_max v) (t_max w)) /\ fpos2 t true (t_mult v) (t_mult w).
  Proof.
    intros I OH OK. pose proof (lows t) as LL. pose proof (highs t) as HH.
    assert (O1 : fpos2 t true (r_int 1) (r_int 1)) by apply (one_le t).
    apply (improved_ok_le (fracmult_merits true t) (mult_op_ok true t)) with (h := h) (k := k); try assumption; clear I h k OH OK.
    - cbn. split; [split; assumption|exact O1].
    - intros b b' A B [P L]. cbn in *. split; [split; assumption|]. split; [apply nonneg_q, P|]. apply (fle2I t); assumption.
    - intros b A L. cbn in *. split; [split; assumption|]. split; [discriminate|]. split; [apply O1|]. split; [assumption|exact L].
    - intros b A [P L]. cbn in *. split; [split; assumption|]. split; [apply nonneg_q, P|]. split; [assumption|]. split; [apply O1|exact L].
    - intros o o' v w v' w' NB Oo Oo' B [(FL & FH) M] V W. destruct o, o'; cbn [better_op] in B; try contradiction; cbn in V, W, Oo, Oo', B; try contradiction.
      + inv V a E. inv W b E'. injection V as <-. injection W as <-. cbn. split; [split; assumption|].
        destruct B as [P U]. apply (mul_both t true (t_mult v) (t_mult w) x x0); try assumption. split; [apply nonneg_q, P|]. apply (fle2I t); assumption.
      + injection V as <-. injection W as <-. cbn. split; [|exact M]. split; [|exact FH]. apply fle2_max; [exact FL|apply fle2I; assumption].
      + injection V as <-. injection W as <-. cbn. split; [|exact M]. split; [exact FL|]. apply fle2_min; [exact FH|apply fle2I; assumption].
      + destruct (NB x eq_refl).
    - intros o v w w' Oo G [(FL & FH) M] W. destruct o; cbn [gain] in G; try contradiction; cbn in W, Oo, G; try contradiction.
      + inv W b E. injection W as <-. cbn. split; [split; assumption|]. exact (mul_right t true _ (t_mult w) x _ M Oo G E).
      + injection W as <-. cbn. split; [|exact M]. split; [|exact FH]. apply fle2_max_r; assumption.
    - intros o v v' w Oo G [(FL & FH) M] V. destruct o; cbn [loss] in G; try contradiction; cbn in V, Oo, G; try contradiction.
      + inv V b E. injection V as <-. cbn. split; [split; assumption|]. destruct G as [P U]. exact (mul_left t true (t_mult v) _ x _ M Oo (nonneg_q _ P) U E).
      + injection V as <-. cbn. split; [|exact M]. split; [exact FL|]. apply fle2_min_l; assumption.
    - intros v w x y v' w' [(FL & FH) M] [(FL' & FH') M'] V W. cbn in V, W. inv V m Em. inv W n En.
      injection V as <-. injection W as <-. cbn. split; [|exact (mul_both t true _ _ _ _ _ _ M M' Em En)].
      split; [apply fle2_max|apply fle2_min]; assumption.
    - intros v w y w' [(FL & FH) M] [(FL' & FH') M'] W. cbn in W, FL', FH', M'. inv W n En.
      injection W as <-. cbn. split; [|apply (mul_right t true _ _ _ _ M (proj1 (proj2 (proj2 M')))); [apply M'|exact En]].
      split; [apply fle2_max_r; [exact FL|apply FL']|apply fle2_min_r; assumption].
    - intros v w x v' [(FL & FH) M] [(FL' & FH') M'] V. cbn in V, FL', FH', M'. inv V n En.
      injection V as <-. cbn. split; [|apply (mul_left t true _ _ _ _ M (proj1 (proj2 M'))); [apply M'|apply M'|exact En]].
      split; [apply fle2_max_l; assumption|apply fle2_min_l; [exact FH|apply FH']].
  Qed.
  Lemma C75_Fraction_StatMult_proof : forall (h k : history (statMult (fracF true t))) r r',
    improved (fracmult_merits true t) h k -> every (mult_op_ok true t) h -> every (mult_op_ok true t) k ->
    worth h = Done r -> worth k = Done r' -> (toQ r <= toQ r')%Q.
  Proof.
    intros h k r r' I OH OK H H'. unfold worth in H, H'. inv H v V. inv H' w W. cbn [sv_eval statMult] in H, H'.
    destruct (fmult_le h k I OH OK v w V W) as [(FL & FH) M]. injection H as <-. injection H' as <-.
    apply bound_le with (t := t); [exact FL|exact FH|apply M].
  Qed.
End Types.
