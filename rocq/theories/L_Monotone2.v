(** Proofs: what more was granted to is worth no less (floats). *)
From Coq Require Import ZArith Reals List Bool Lia Lra.
From Flocq Require Import Core BinarySingleNaN.
From Verif Require Import M_Outcome M_Ints M_Ratio M_Float M_Value M_Types S_Types S_Float S_Totals S_Monotone
  L_Outcome L_Ints L_Float L_FloatTotals L_Monotone L_MonoFloat.
Import ListNotations.
Local Open Scope Z_scope.

Section Floats.
  Variables prec emax : Z.
  Context (Hp : Prec_gt_0 prec) (He : Prec_lt_emax prec emax).
  Notation bf := (binary_float prec emax).
  Notation F := (binF prec emax Hp He).
  Local Open Scope R_scope.
  Let ext_zero := ext_zero prec emax.

  (** Bounds: never NaN, and within the default ones. *)
  Definition band_le (lo hi lo' hi' : bf) : Prop :=
    is_nan lo = false /\ is_nan hi = false /\ is_nan lo' = false /\ is_nan hi' = false /\
    ext lo <= ext lo' /\ ext hi <= ext hi' /\
    ext (b_minv prec emax Hp He) <= ext lo /\ ext hi' <= ext (b_maxv prec emax Hp He).
  Lemma band_default : band_le (b_minv prec emax Hp He) (b_maxv prec emax Hp He) (b_minv prec emax Hp He) (b_maxv prec emax Hp He).
  Proof. repeat split; lra. Qed.
  Lemma band_min lo hi lo' hi' x y : band_le lo hi lo' hi' -> fle x y ->
    band_le (b_max prec emax lo x) hi (b_max prec emax lo' y) hi'.
  Proof.
    intros (A & B & A' & B' & L & U & L0 & U0) X. apply leb_inv in X. destruct X as (Nx & Ny & X).
    destruct (ext_max prec emax lo x A Nx) as [N E], (ext_max prec emax lo' y A' Ny) as [N' E'].
    repeat split; try assumption; rewrite ?E, ?E'; unfold Rmax; repeat destruct Rle_dec; lra.
  Qed.
  Lemma band_max lo hi lo' hi' x y : band_le lo hi lo' hi' -> fle x y ->
    band_le lo (b_min prec emax hi x) lo' (b_min prec emax hi' y).
  Proof.
    intros (A & B & A' & B' & L & U & L0 & U0) X. apply leb_inv in X. destruct X as (Nx & Ny & X).
    destruct (ext_min prec emax hi x B Nx) as [N E], (ext_min prec emax hi' y B' Ny) as [N' E'].
    repeat split; try assumption; rewrite ?E, ?E'; unfold Rmin; repeat destruct Rle_dec; lra.
  Qed.
  Lemma band_min_r lo hi lo' hi' y : band_le lo hi lo' hi' -> band_le lo hi (b_max prec emax lo' y) hi'.
  Proof.
    intros (A & B & A' & B' & L & U & L0 & U0). destruct (max_given prec emax lo' y A') as [N E].
    repeat split; try assumption. rewrite E. destruct (is_nan y); unfold Rmax; repeat destruct Rle_dec; lra.
  Qed.
  Lemma band_max_l lo hi lo' hi' x : band_le lo hi lo' hi' -> band_le lo (b_min prec emax hi x) lo' hi'.
  Proof.
    intros (A & B & A' & B' & L & U & L0 & U0). destruct (min_given prec emax hi x B) as [N E].
    repeat split; try assumption. rewrite E. destruct (is_nan x); unfold Rmin; repeat destruct Rle_dec; lra.
  Qed.
  Lemma leb_of (x y : bf) : is_nan x = false -> is_nan y = false -> ext x <= ext y -> fle x y.
  Proof. intros. apply leb_ext; assumption. Qed.
  Lemma band_join lo hi lo' hi' a b a' b' : band_le lo hi lo' hi' -> band_le a b a' b' ->
    band_le (b_max prec emax lo a) (b_min prec emax hi b) (b_max prec emax lo' a') (b_min prec emax hi' b').
  Proof.
    intros B (A1 & A2 & A3 & A4 & A5 & A6 & _). apply band_max; [apply band_min; [exact B|]|]; apply leb_of; assumption.
  Qed.
  Lemma band_joined lo hi lo' hi' a' b' :
    band_le lo hi lo' hi' -> band_le (b_minv prec emax Hp He) (b_maxv prec emax Hp He) a' b' ->
    band_le lo hi (b_max prec emax lo' a') (b_min prec emax hi' b').
  Proof.
    intros (A & B & A' & B' & L & U & L0 & U0) (C & D & C' & D' & L1 & U1 & L2 & U2).
    destruct (ext_max prec emax lo' a' A' C') as [N E], (ext_min prec emax hi' b' B' D') as [N' E'].
    repeat split; try assumption; rewrite ?E, ?E'; unfold Rmax, Rmin; repeat destruct Rle_dec; lra.
  Qed.
  Lemma band_unjoined lo hi lo' hi' a b :
    band_le lo hi lo' hi' -> band_le a b (b_minv prec emax Hp He) (b_maxv prec emax Hp He) ->
    band_le (b_max prec emax lo a) (b_min prec emax hi b) lo' hi'.
  Proof.
    intros (A & B & A' & B' & L & U & L0 & U0) (C & D & C' & D' & L1 & U1 & L2 & U2).
    destruct (ext_max prec emax lo a A C) as [N E], (ext_min prec emax hi b B D) as [N' E'].
    repeat split; try assumption; rewrite ?E, ?E'; unfold Rmax, Rmin; repeat destruct Rle_dec; lra.
  Qed.
  Lemma band_apply lo hi lo' hi' x y : band_le lo hi lo' hi' -> is_nan x = false -> is_nan y = false -> ext x <= ext y ->
    fle (f_bound F lo hi x) (f_bound F lo' hi' y).
  Proof.
    intros (A & B & A' & B' & L & U & L0 & U0) Nx Ny X. unfold f_bound. cbn [f_max f_min binF].
    destruct (ext_min prec emax x hi Nx B) as [N1 E1], (ext_min prec emax y hi' Ny B') as [N2 E2].
    destruct (ext_max prec emax _ lo N1 A) as [N3 E3], (ext_max prec emax _ lo' N2 A') as [N4 E4].
    apply leb_of; try assumption. rewrite E3, E4, E1, E2. unfold Rmax, Rmin; repeat destruct Rle_dec; lra.
  Qed.

  (** Addends, as long as they are numbers. *)
  Definition sum_le (a b : bf) : Prop := is_nan a = false -> is_nan b = false -> ext a <= ext b.
  Lemma sum_both a b x y : sum_le a b -> sum_le x y -> sum_le (Bplus mode_NE a x) (Bplus mode_NE b y).
  Proof.
    intros A B N N'. destruct (plus_nan _ _ _ _ _ _ N), (plus_nan _ _ _ _ _ _ N'). apply plus_le; auto.
  Qed.
  Lemma sum_right a b y : sum_le a b -> sum_le (B754_zero false) y -> sum_le a (Bplus mode_NE b y).
  Proof.
    intros A B N N'. destruct (plus_nan _ _ _ _ _ _ N') as [Nb Ny].
    destruct (plus_zero_any prec emax Hp He a N) as [Nz <-]. apply plus_le; auto.
  Qed.
  Lemma sum_left a b x : sum_le a b -> sum_le x (B754_zero false) -> sum_le (Bplus mode_NE a x) b.
  Proof.
    intros A B N N'. destruct (plus_nan _ _ _ _ _ _ N) as [Na Nx].
    destruct (plus_zero_any prec emax Hp He b N') as [Nz <-]. apply plus_le; auto.
  Qed.
  Lemma fle_sum x y : fle x y -> sum_le x y.
  Proof. intros H _ _. apply leb_inv in H. tauto. Qed.

  (** Multipliers. *)
  Definition times_le (raise : bool) (a b : bf) : Prop := is_nan a = false -> is_nan b = false ->
    0 <= ext a /\ if raise then ext a <= ext b else ext a = ext b.
  Lemma times_both raise a b x y : times_le raise a b -> times_le raise x y ->
    times_le raise (Bmult mode_NE a x) (Bmult mode_NE b y).
  Proof.
    intros A B N N'. destruct (mult_nan _ _ _ _ _ _ N) as [Na Nx], (mult_nan _ _ _ _ _ _ N') as [Nb Ny].
    destruct (A Na Nb) as [Pa La], (B Nx Ny) as [Px Lx]. split; [apply mult_ge0; assumption|].
    destruct raise; [apply mult_le; auto|]. apply Rle_antisym; apply mult_le; auto; try lra; right; auto.
  Qed.
  Lemma times_right raise a b y : times_le raise a b -> times_le raise (b_one prec emax Hp He) y ->
    times_le raise a (Bmult mode_NE b y).
  Proof.
    intros A B N. revert N. pattern a at 1 3. pose proof (times_both raise a b _ y A B) as T. intros N.
    rewrite (mult_one_any prec emax Hp He a N) in T. exact (T N).
  Qed.
  Lemma times_left raise a b x : times_le raise a b -> times_le raise x (b_one prec emax Hp He) ->
    times_le raise (Bmult mode_NE a x) b.
  Proof.
    intros A B N N'. pose proof (times_both raise a b x _ A B) as T.
    rewrite (mult_one_any prec emax Hp He b N') in T. exact (T N N').
  Qed.
  Lemma upto_times raise x y : fle (B754_zero false) x -> f_upto raise x y -> times_le raise x y.
  Proof.
    intros P U _ _. apply leb_inv in P. destruct P as (_ & _ & P). split; [exact P|].
    destruct raise; [apply leb_inv in U|apply eqb_inv in U]; tauto.
  Qed.
  Lemma one_times raise y : f_upto raise (b_one prec emax Hp He) y -> times_le raise (b_one prec emax Hp He) y.
  Proof.
    intros U _ _. rewrite ext_one. split; [lra|]. rewrite <- (ext_one prec emax Hp He).
    destruct raise; [apply leb_inv in U|apply eqb_inv in U]; tauto.
  Qed.
  Lemma one_one raise : times_le raise (b_one prec emax Hp He) (b_one prec emax Hp He).
  Proof. intros _ _. rewrite ext_one. split; [lra|]. destruct raise; lra. Qed.

  Definition fval_le (mle : bf -> bf -> Prop) (v w : quad bf bf) : Prop :=
    sum_le (addend v) (addend w) /\ band_le (vmin v) (vmax v) (vmin w) (vmax w) /\ mle (mult v) (mult w).
  Lemma zero_zero : sum_le (B754_zero false) (B754_zero false).
  Proof. intros _ _. lra. Qed.

  Lemma float_le raise h k v w : improved (float_merits prec emax Hp He raise) h k ->
    value_of h = Done v -> value_of k = Done w -> fval_le (times_le raise) v w.
  Proof.
    intros I V W. pose proof band_default as BD. pose proof (one_one raise) as O1.
    revert v w V W. apply (improved_le (float_merits prec emax Hp He raise) (fval_le (times_le raise))) with (h := h) (k := k); try exact I; clear I h k.
    - split; [apply zero_zero|]. split; assumption.
    - intros b b' L. split; [apply fle_sum; exact L|]. split; assumption.
    - intros b L. split; [apply fle_sum; exact L|]. split; assumption.
    - intros b L. split; [apply fle_sum; exact L|]. split; assumption.
    - intros o o' v w v' w' NB B (A & D & Q) V W. destruct o, o'; cbn in B; try contradiction; cbn in V, W; injection V as <-; injection W as <-.
      + split; [apply sum_both; [exact A|apply fle_sum; exact B]|]. split; assumption.
      + split; [exact A|]. split; [exact D|]. apply times_both; [exact Q|]. apply upto_times; apply B.
      + split; [exact A|]. split; [|exact Q]. apply band_min; assumption.
      + split; [exact A|]. split; [|exact Q]. apply band_max; assumption.
      + destruct (NB x eq_refl).
    - intros o v w w' G (A & D & Q) W. destruct o; cbn in G; try contradiction; cbn in W; injection W as <-.
      + split; [apply sum_right; [exact A|apply fle_sum; exact G]|]. split; assumption.
      + split; [exact A|]. split; [exact D|]. apply times_right; [exact Q|apply one_times; exact G].
      + split; [exact A|]. split; [|exact Q]. apply band_min_r. exact D.
    - intros o v v' w G (A & D & Q) V. destruct o; cbn in G; try contradiction; cbn in V; injection V as <-.
      + split; [apply sum_left; [exact A|apply fle_sum; exact G]|]. split; assumption.
      + split; [exact A|]. split; [exact D|]. apply times_left; [exact Q|apply upto_times; apply G].
      + split; [exact A|]. split; [|exact Q]. apply band_max_l. exact D.
    - intros v w x y v' w' (A & D & Q) (A' & D' & Q') V W. cbn in V, W. injection V as <-. injection W as <-.
      split; [apply sum_both; assumption|]. split; [apply band_join; assumption|apply times_both; assumption].
    - intros v w y w' (A & D & Q) (A' & D' & Q') W. cbn in W. injection W as <-.
      split; [apply sum_right; assumption|]. split; [apply band_joined; assumption|apply times_right; assumption].
    - intros v w x v' (A & D & Q) (A' & D' & Q') V. cbn in V. injection V as <-.
      split; [apply sum_left; assumption|]. split; [apply band_unjoined; assumption|apply times_left; assumption].
  Qed.

  Lemma C75_StatFloat_proof : forall raise h k v w r r', improved (float_merits prec emax Hp He raise) h k ->
    value_of h = Done v -> value_of k = Done w ->
    is_nan (Bmult mode_NE (addend v) (mult v)) = false -> is_nan (Bmult mode_NE (addend w) (mult w)) = false ->
    (raise = true -> fle (B754_zero false) (addend v)) -> worth h = Done r -> worth k = Done r' -> fle r r'.
  Proof.
    intros raise h k v w r r' I V W N N' P R R'. unfold worth in R, R'. rewrite V in R. rewrite W in R'. cbn in R, R'.
    injection R as <-. injection R' as <-. destruct (float_le raise h k v w I V W) as (A & D & Q).
    destruct (mult_nan _ _ _ _ _ _ N) as [Na Nm], (mult_nan _ _ _ _ _ _ N') as [Na' Nm'].
    destruct (Q Nm Nm') as [Pm Lm]. apply band_apply; try assumption. apply mult_le; auto; [destruct raise; lra|].
    destruct raise; [left|right; exact Lm]. specialize (P eq_refl). apply leb_inv in P. tauto.
  Qed.

  (** ** [StatFloatAdditive] *)
  Definition plus_le' (raise : bool) (a b : bf) : Prop := is_nan a = false -> is_nan b = false ->
    if raise then ext a <= ext b else ext a = ext b.
  Lemma plus'_sum raise a b : plus_le' raise a b <-> if raise then sum_le a b else sum_le a b /\ sum_le b a.
  Proof.
    unfold plus_le', sum_le. destruct raise; [tauto|]. split.
    - intros H. split; intros; rewrite H by assumption; lra.
    - intros [H G] Na Nb. specialize (H Na Nb). specialize (G Nb Na). lra.
  Qed.
  Lemma plus'_both raise a b x y : plus_le' raise a b -> plus_le' raise x y -> plus_le' raise (Bplus mode_NE a x) (Bplus mode_NE b y).
  Proof. rewrite !plus'_sum. destruct raise; [apply sum_both|]. intros [A B] [C D]. split; apply sum_both; assumption. Qed.
  Lemma plus'_right raise a b y : plus_le' raise a b -> plus_le' raise (B754_zero false) y -> plus_le' raise a (Bplus mode_NE b y).
  Proof. rewrite !plus'_sum. destruct raise; [apply sum_right|]. intros [A B] [C D]. split; [apply sum_right|apply sum_left]; assumption. Qed.
  Lemma plus'_left raise a b x : plus_le' raise a b -> plus_le' raise x (B754_zero false) -> plus_le' raise (Bplus mode_NE a x) b.
  Proof. rewrite !plus'_sum. destruct raise; [apply sum_left|]. intros [A B] [C D]. split; [apply sum_left|apply sum_right]; assumption. Qed.
  Lemma upto_plus' raise x y : f_upto raise x y -> plus_le' raise x y.
  Proof. intros U _ _. destruct raise; [apply leb_inv in U|apply eqb_inv in U]; tauto. Qed.

  Lemma floatadd_le raise h k v w : improved (floatadd_merits prec emax Hp He raise) h k ->
    value_of h = Done v -> value_of k = Done w -> fval_le (plus_le' raise) v w.
  Proof.
    intros I V W. pose proof band_default as BD.
    assert (O1 : plus_le' raise (B754_zero false) (B754_zero false)) by (intros _ _; destruct raise; lra).
    revert v w V W. apply (improved_le (floatadd_merits prec emax Hp He raise) (fval_le (plus_le' raise))) with (h := h) (k := k); try exact I; clear I h k.
    - split; [apply zero_zero|]. split; assumption.
    - intros b b' L. split; [apply fle_sum; exact L|]. split; assumption.
    - intros b L. split; [apply fle_sum; exact L|]. split; assumption.
    - intros b L. split; [apply fle_sum; exact L|]. split; assumption.
    - intros o o' v w v' w' NB B (A & D & Q) V W. destruct o, o'; cbn in B; try contradiction; cbn in V, W; injection V as <-; injection W as <-.
      + split; [apply sum_both; [exact A|apply fle_sum; exact B]|]. split; assumption.
      + split; [exact A|]. split; [exact D|]. apply plus'_both; [exact Q|]. apply upto_plus'; apply B.
      + split; [exact A|]. split; [|exact Q]. apply band_min; assumption.
      + split; [exact A|]. split; [|exact Q]. apply band_max; assumption.
      + destruct (NB x eq_refl).
    - intros o v w w' G (A & D & Q) W. destruct o; cbn in G; try contradiction; cbn in W; injection W as <-.
      + split; [apply sum_right; [exact A|apply fle_sum; exact G]|]. split; assumption.
      + split; [exact A|]. split; [exact D|]. apply plus'_right; [exact Q|apply upto_plus'; exact G].
      + split; [exact A|]. split; [|exact Q]. apply band_min_r. exact D.
    - intros o v v' w G (A & D & Q) V. destruct o; cbn in G; try contradiction; cbn in V; injection V as <-.
      + split; [apply sum_left; [exact A|apply fle_sum; exact G]|]. split; assumption.
      + split; [exact A|]. split; [exact D|]. apply plus'_left; [exact Q|apply upto_plus'; apply G].
      + split; [exact A|]. split; [|exact Q]. apply band_max_l. exact D.
    - intros v w x y v' w' (A & D & Q) (A' & D' & Q') V W. cbn in V, W. injection V as <-. injection W as <-.
      split; [apply sum_both; assumption|]. split; [apply band_join; assumption|apply plus'_both; assumption].
    - intros v w y w' (A & D & Q) (A' & D' & Q') W. cbn in W. injection W as <-.
      split; [apply sum_right; assumption|]. split; [apply band_joined; assumption|apply plus'_right; assumption].
    - intros v w x v' (A & D & Q) (A' & D' & Q') V. cbn in V. injection V as <-.
      split; [apply sum_left; assumption|]. split; [apply band_unjoined; assumption|apply plus'_left; assumption].
  Qed.

  Lemma C75_StatFloatAdditive_proof : forall raise h k v w r r', improved (floatadd_merits prec emax Hp He raise) h k ->
    value_of h = Done v -> value_of k = Done w ->
    let total x := Bplus mode_NE (mult x) (b_one prec emax Hp He) in
    is_nan (Bmult mode_NE (addend v) (total v)) = false -> is_nan (Bmult mode_NE (addend w) (total w)) = false ->
    fle (B754_zero false) (total v) ->
    (raise = true -> fle (B754_zero false) (addend v)) -> worth h = Done r -> worth k = Done r' -> fle r r'.
  Proof.
    intros raise h k v w r r' I V W total N N' T P R R'. unfold worth in R, R'. rewrite V in R. rewrite W in R'. cbn in R, R'.
    injection R as <-. injection R' as <-. destruct (floatadd_le raise h k v w I V W) as (A & D & Q).
    destruct (mult_nan _ _ _ _ _ _ N) as [Na Nm], (mult_nan _ _ _ _ _ _ N') as [Na' Nm'].
    assert (Lt : if raise then ext (total v) <= ext (total w) else ext (total v) = ext (total w)).
    { apply (plus'_both raise (mult v) (mult w)); try assumption. intros _ _. destruct raise; lra. }
    apply leb_inv in T. destruct T as (_ & _ & T). change (0 <= ext (total v)) in T.
    change (fle (f_bound F (vmin v) (vmax v) (Bmult mode_NE (addend v) (total v)))
                (f_bound F (vmin w) (vmax w) (Bmult mode_NE (addend w) (total w)))).
    apply band_apply; try assumption. apply mult_le; auto; [destruct raise; lra|].
    destruct raise; [left|right; exact Lt]. specialize (P eq_refl). apply leb_inv in P. tauto.
  Qed.

  (** ** [StatMult] *)
  Definition tri_le (v w : tri F) : Prop :=
    band_le (t_min v) (t_max v) (t_min w) (t_max w) /\ times_le true (t_mult v) (t_mult w).
  Lemma mult_value_le h k v w : improved (mult_merits prec emax Hp He) h k ->
    value_of h = Done v -> value_of k = Done w -> tri_le v w.
  Proof.
    intros I V W. pose proof band_default as BD. pose proof (one_one true) as O1.
    revert v w V W. apply (improved_le (mult_merits prec emax Hp He) tri_le) with (h := h) (k := k); try exact I; clear I h k.
    - split; assumption.
    - intros b b' L. split; [exact BD|]. apply upto_times; apply L.
    - intros b L. split; [exact BD|]. apply one_times; exact L.
    - intros b L. split; [exact BD|]. apply upto_times; apply L.
    - intros o o' v w v' w' NB B (D & Q) V W. destruct o, o'; cbn in B; try contradiction; cbn in V, W; injection V as <-; injection W as <-.
      + split; [exact D|]. apply times_both; [exact Q|]. apply upto_times; apply B.
      + split; [|exact Q]. apply band_min; assumption.
      + split; [|exact Q]. apply band_max; assumption.
      + destruct (NB x eq_refl).
    - intros o v w w' G (D & Q) W. destruct o; cbn in G; try contradiction; cbn in W; injection W as <-.
      + split; [exact D|]. apply times_right; [exact Q|apply one_times; exact G].
      + split; [|exact Q]. apply band_min_r. exact D.
    - intros o v v' w G (D & Q) V. destruct o; cbn in G; try contradiction; cbn in V; injection V as <-.
      + split; [exact D|]. apply times_left; [exact Q|apply upto_times; apply G].
      + split; [|exact Q]. apply band_max_l. exact D.
    - intros v w x y v' w' (D & Q) (D' & Q') V W. cbn in V, W. injection V as <-. injection W as <-.
      split; [apply band_join; assumption|apply times_both; assumption].
    - intros v w y w' (D & Q) (D' & Q') W. cbn in W. injection W as <-.
      split; [apply band_joined; assumption|apply times_right; assumption].
    - intros v w x v' (D & Q) (D' & Q') V. cbn in V. injection V as <-.
      split; [apply band_unjoined; assumption|apply times_left; assumption].
  Qed.
  Lemma C75_StatMult_proof : forall h k v w r r', improved (mult_merits prec emax Hp He) h k ->
    value_of h = Done v -> value_of k = Done w -> is_nan (t_mult v : bf) = false -> is_nan (t_mult w : bf) = false ->
    worth h = Done r -> worth k = Done r' -> fle r r'.
  Proof.
    intros h k v w r r' I V W N N' R R'. unfold worth in R, R'. rewrite V in R. rewrite W in R'. cbn in R, R'.
    injection R as <-. injection R' as <-. destruct (mult_value_le h k v w I V W) as (D & Q).
    apply band_apply; try assumption. apply Q; assumption.
  Qed.
End Floats.
