From Coq Require Import ZArith QArith Lia Bool List Permutation.
From Flocq Require Import Core BinarySingleNaN.
From Verif Require Import M_Outcome M_Ints M_Ratio M_Float M_Value M_Types S_Ratio S_Types
  L_Outcome L_Ints L_Ratio L_Round L_RatioQ L_Types.
Import ListNotations.
Local Open Scope Z_scope.
Local Arguments Z.mul : simpl never.
Local Arguments Z.add : simpl never.
Local Arguments Z.sub : simpl never.
Local Arguments Z.opp : simpl never.
Local Arguments Z.gcd : simpl never.
Local Arguments Z.max : simpl never.
Local Arguments Z.min : simpl never.
Local Arguments Bmult : simpl never.
Local Arguments round_with : simpl never.
Local Arguments b_to_int : simpl never.
Local Arguments b_of_int : simpl never.

(** ** C10 *)
Lemma i_bound_spec {M} (v : quad Z M) x :
  vmin v <= i_bound v x /\ (vmin v <= vmax v -> i_bound v x <= vmax v) /\ (vmax v < vmin v -> i_bound v x = vmin v).
Proof. unfold i_bound. rewrite i_max_eq, i_min_eq. lia. Qed.

Lemma eval_bounded_intro S M (lo hi : val S -> Z) out (f : val S -> quad Z M) :
  (forall v, lo v = vmin (f v)) -> (forall v, hi v = vmax (f v)) ->
  (forall v r, sv_eval S v = Done r -> exists x, out r = i_bound (f v) x) ->
  eval_bounded S lo hi out.
Proof.
  intros Hl Hh H v r E. destruct (H v r E) as [x ->]. rewrite Hl, Hh. apply i_bound_spec.
Qed.

Ltac eval_tac :=
  let v := fresh "v" in let r := fresh "r" in let H := fresh "H" in
  intros v r H; cbn in H; inv_done H; inversion H; subst; eexists; reflexivity.

Lemma statInt_bounded oc T : eval_bounded (statInt oc T) vmin vmax (fun x => x).
Proof. apply (eval_bounded_intro (statInt oc T) Z) with (f := fun v => v); [reflexivity|reflexivity|eval_tac]. Qed.
Lemma statPctAdd_bounded oc T R scale : eval_bounded (statPctAdd oc T R scale) vmin vmax (fun x => x).
Proof. apply (eval_bounded_intro (statPctAdd oc T R scale) Z) with (f := fun v => v); [reflexivity|reflexivity|eval_tac]. Qed.
Lemma statPct_bounded oc T R scale : eval_bounded (statPct oc T R scale) vmin vmax (fun x => x).
Proof. apply (eval_bounded_intro (statPct oc T R scale) ratio) with (f := fun v => v); [reflexivity|reflexivity|eval_tac]. Qed.
Lemma statIntFraction_bounded oc T R : eval_bounded (statIntFraction oc T R) vmin vmax (fun x => x).
Proof. apply (eval_bounded_intro (statIntFraction oc T R) ratio) with (f := fun v => v); [reflexivity|reflexivity|eval_tac]. Qed.
Lemma statIntFloatMul_bounded prec emax Hp He oc t R :
  eval_bounded (statIntFloatMul prec emax Hp He oc t R) vmin vmax (fun x => x).
Proof.
  apply (eval_bounded_intro (statIntFloatMul prec emax Hp He oc t R) (binary_float prec emax)) with (f := fun v => v);
  [reflexivity|reflexivity|eval_tac].
Qed.

Lemma bounds_accumulate_intro S lo hi bnd :
  (forall v s v', unordered s -> @run_step S v s = Done v' ->
     lo v' = largest (lo v) (lower S lo bnd s) /\ hi v' = smallest (hi v) (upper S hi bnd s)) ->
  bounds_accumulate S lo hi bnd.
Proof.
  intros H l. induction l as [|s l IH]; intros v v' HU HR; cbn in *.
  - inversion HR; subst. auto.
  - inversion HU as [|? ? U1 U2]; subst. unfold run in *. cbn in HR.
    apply obind_inv in HR. destruct HR as [w [H1 H2]].
    destruct (H v s w U1 H1) as [A1 A2]. destruct (IH w v' U2 H2) as [B1 B2].
    unfold largest, smallest in *. rewrite !fold_left_app, <- A1, <- A2. auto.
Qed.

Ltac acc_tac :=
  let v := fresh "v" in let s := fresh "s" in let v' := fresh "v'" in let Hu := fresh "Hu" in let Hr := fresh "Hr" in
  let x := fresh "x" in
  apply bounds_accumulate_intro; intros v s v' Hu Hr;
  destruct s as [[x|x|x|x|x|x|x]|x]; try solve [destruct x]; try destruct Hu;
  cbn in Hr; unfold q_add, q_min, q_max in Hr; cbn in Hr; inv_done Hr; inversion Hr; subst; cbn;
  rewrite ?i_max_eq, ?i_min_eq; split; reflexivity.

Lemma statInt_accumulate oc T : bounds_accumulate (statInt oc T) vmin vmax (fun x => x).
Proof. acc_tac. Qed.
Lemma statPctAdd_accumulate oc T R scale : bounds_accumulate (statPctAdd oc T R scale) vmin vmax (fun x => x).
Proof. acc_tac. Qed.
Lemma statPct_accumulate oc T R scale : bounds_accumulate (statPct oc T R scale) vmin vmax (fun x => x).
Proof. acc_tac. Qed.
Lemma statIntFraction_accumulate oc T R : bounds_accumulate (statIntFraction oc T R) vmin vmax (fun x => x).
Proof. acc_tac. Qed.
Lemma statIntFloatMul_accumulate prec emax Hp He oc t R :
  bounds_accumulate (statIntFloatMul prec emax Hp He oc t R) vmin vmax (fun x => x).
Proof. acc_tac. Qed.

Lemma largest_ge l : forall a x, In x l -> x <= largest a l.
Proof.
  assert (M : forall l a, a <= largest a l).
  { induction l0 as [|b l0 IH]; intros a; cbn; [lia|]. specialize (IH (Z.max a b)). unfold largest in *. lia. }
  induction l as [|b l IH]; intros a x []; cbn.
  - subst. specialize (M l (Z.max a x)). unfold largest in M. lia.
  - apply IH. assumption.
Qed.
Lemma smallest_le l : forall a x, In x l -> smallest a l <= x.
Proof.
  assert (M : forall l a, smallest a l <= a).
  { induction l0 as [|b l0 IH]; intros a; cbn; [lia|]. specialize (IH (Z.min a b)). unfold smallest in *. lia. }
  induction l as [|b l IH]; intros a x []; cbn.
  - subst. specialize (M l (Z.min a x)). unfold smallest in M. lia.
  - apply IH. assumption.
Qed.
Lemma largest_ub l : forall a m, a <= m -> (forall x, In x l -> x <= m) -> largest a l <= m.
Proof.
  induction l as [|b l IH]; intros a m Ha H; cbn; [exact Ha|].
  apply IH; [|intros x Hx; apply H; right; exact Hx]. pose proof (H b (or_introl eq_refl)). lia.
Qed.

(** Any lower bound contributed anywhere is respected; an upper bound too unless some lower bound
    exceeds it. *)
Lemma bounds_respected S lo hi out bnd :
  eval_bounded S lo hi out -> bounds_accumulate S lo hi bnd ->
  forall l v v' r, Forall unordered l -> run v l = Done v' -> sv_eval S v' = Done r ->
  (forall x, In x (flat_map (lower S lo bnd) l) -> x <= out r) /\
  ((forall x y, In x (lo v :: flat_map (lower S lo bnd) l) -> In y (hi v :: flat_map (upper S hi bnd) l) -> x <= y) ->
   forall y, In y (flat_map (upper S hi bnd) l) -> out r <= y).
Proof.
  intros He Ha l v v' r HU HR HE. destruct (Ha l v v' HU HR) as [A1 A2].
  destruct (He v' r HE) as [B1 [B2 B3]]. split.
  - intros x Hx. pose proof (largest_ge _ (lo v) x Hx). lia.
  - intros Hc y Hy. pose proof (smallest_le _ (hi v) y Hy).
    assert (lo v' <= hi v').
    { rewrite A1. apply largest_ub.
      - rewrite A2. assert (forall l a m, m <= a -> (forall z, In z l -> m <= z) -> m <= smallest a l) as K.
        { induction l0 as [|b l0 IH]; intros a m Hm H1; cbn; [exact Hm|]. apply IH; [|intros; apply H1; right; assumption].
          pose proof (H1 b (or_introl eq_refl)). lia. }
        apply K; [apply Hc; left; reflexivity|]. intros z Hz. apply Hc; [left; reflexivity|right; exact Hz].
      - intros x Hx. rewrite A2. assert (forall l a m, m <= a -> (forall z, In z l -> m <= z) -> m <= smallest a l) as K.
        { induction l0 as [|b l0 IH]; intros a m Hm H1; cbn; [exact Hm|]. apply IH; [|intros; apply H1; right; assumption].
          pose proof (H1 b (or_introl eq_refl)). lia. }
        apply K; [apply Hc; [right; exact Hx|left; reflexivity]|]. intros z Hz. apply Hc; right; assumption. }
    specialize (B2 H0). lia.
Qed.

(** ** C11 *)
Lemma rounds_to_int R b : rounds_to R b 1 b.
Proof.
  assert (is_trunc b 1 b) by (unfold is_trunc, is_floor, is_ceil; lia).
  destruct R; cbn; try exact H; unfold is_floor, is_ceil, is_round, is_trunc_signed; repeat split; try lia;
  intros; exists b; split; try exact H; lia.
Qed.

Lemma to_integer_exact t z y : valid t z -> numer z = y * denom z -> r_to_integer t z = Done y.
Proof.
  intros [Hn Hd] E. unfold r_to_integer. rewrite p_div_ok by (assumption || lia).
  rewrite E, Z.quot_mul by lia. reflexivity.
Qed.

Lemma round_to_int_spec oc R t x : valid t x -> ~ round_overflows R t (numer x) (denom x) ->
  exists y, round_to_int oc R t x = Done y /\ rounds_to R (numer x) (denom x) y /\ ity_ok t y.
Proof.
  intros Hv Hno. destruct (round_with_frac_spec R oc t x Hv Hno) as [z [y [E [V [N [_ [P B]]]]]]].
  exists y. unfold round_to_int. rewrite E. cbn [obind]. rewrite (to_integer_exact t z y V N). auto.
Qed.

Lemma round_to_int_int oc R t b : ity_ok t b -> ~ round_overflows R t b 1 \/ oc = false ->
  round_to_int oc R t (r_int b) = Done b.
Proof.
  intros Hb Hno. destruct (round_overflows_dec R t b 1) as [Ho|Hn].
  - destruct Hno as [Hno| ->]; [contradiction|]. unfold round_to_int.
    pose proof (imin_le0 t). pose proof (imax_ge127 t).
    destruct R; try destruct Ho; unfold round_with, fracF; cbn [f_floor f_ceil].
    + unfold r_floor. rewrite ltb_zero by (cbn; lia). cbn [numer denom r_int].
      destruct (Z.ltb_spec b 0); [|lia]. unfold p_sub, p_add.
      assert (C : forall z, chk false t z = Done (wrap t z)).
      { intros z. unfold chk. destruct (in_range t z) eqn:E; [|reflexivity]. apply in_range_iff in E.
        rewrite wrap_id by exact E. reflexivity. }
      rewrite C. cbn [obind]. rewrite C. cbn [obind]. rewrite wrap_add_l.
      replace (b - 1 + 1) with b by lia. rewrite wrap_id by exact Hb.
      rewrite p_div_ok by (assumption || lia). cbn [omap obind]. rewrite Z.quot_1_r.
      apply to_integer_exact; [apply valid_r_int; exact Hb|cbn; lia].
    + unfold r_ceil. rewrite ltb_zero by (cbn; lia). cbn [numer denom r_int].
      destruct (Z.ltb_spec b 0); [lia|]. unfold p_sub, p_add.
      assert (C : forall z, chk false t z = Done (wrap t z)).
      { intros z. unfold chk. destruct (in_range t z) eqn:E; [|reflexivity]. apply in_range_iff in E.
        rewrite wrap_id by exact E. reflexivity. }
      rewrite C. cbn [obind]. rewrite C. cbn [obind].
      replace (wrap t (b + 1) - 1) with (wrap t (b + 1) + -1) by lia. rewrite wrap_add_l.
      replace (b + 1 + -1) with b by lia. rewrite wrap_id by exact Hb.
      rewrite p_div_ok by (assumption || lia). cbn [omap obind]. rewrite Z.quot_1_r.
      apply to_integer_exact; [apply valid_r_int; exact Hb|cbn; lia].
  - destruct (round_to_int_spec oc R t (r_int b) (valid_r_int t b Hb) Hn) as [y [E [P B]]].
    cbn in P. rewrite E. f_equal. apply (rounds_to_unique R b 1); [lia|exact P|apply rounds_to_int].
Qed.

Lemma i_bound_full {M} t a (m : M) x : ity_ok t x -> i_bound (Quad a (imin t) (imax t) m) x = x.
Proof. unfold ity_ok, i_bound. cbn. rewrite i_max_eq, i_min_eq. lia. Qed.

Lemma statInt_base oc T : base_returns (statInt oc T) (fun b => b) (z_ok T).
Proof.
  intros b Hb. cbn. unfold i_mul. rewrite Z.mul_1_r, i_norm_id by exact Hb. cbn [obind].
  rewrite i_bound_full by exact Hb. reflexivity.
Qed.

Lemma r_mul_one_l oc t x : reduced t x -> r_mul oc t (r_int 1) x = Done x.
Proof.
  intros Hx. pose proof (imin_le0 t). pose proof (imax_ge127 t).
  apply mul_complete; try assumption. { apply reduced_r_int. unfold ity_ok. lia. }
  destruct Hx as [[_ Hd] _]. unfold toQ, Qeq, Qmult; cbn. lia.
Qed.
Lemma r_mul_one_r oc t x : reduced t x -> r_mul oc t x (r_int 1) = Done x.
Proof.
  intros Hx. pose proof (imin_le0 t). pose proof (imax_ge127 t).
  apply mul_complete; try assumption. { apply reduced_r_int. unfold ity_ok. lia. }
  destruct Hx as [[_ Hd] _]. unfold toQ, Qeq, Qmult; cbn. rewrite Pos.mul_1_r. lia.
Qed.

Lemma statIntFraction_base oc T R :
  base_returns (statIntFraction oc T R) (fun b => b)
    (fun b => z_ok T b /\ (oc = false \/ ~ round_overflows R (i_ty T) b 1)).
Proof.
  intros b [Hb Hno]. cbn. rewrite r_mul_one_l by (apply reduced_r_int; exact Hb). cbn [obind].
  rewrite round_to_int_int by (exact Hb || tauto). cbn [obind]. rewrite i_bound_full by exact Hb. reflexivity.
Qed.
Lemma statPct_base oc T R scale :
  base_returns (statPct oc T R scale) (fun b => b)
    (fun b => z_ok T b /\ (oc = false \/ ~ round_overflows R (i_ty T) b 1)).
Proof.
  intros b [Hb Hno]. cbn. rewrite r_mul_one_r by (apply reduced_r_int; exact Hb). cbn [obind].
  rewrite round_to_int_int by (exact Hb || tauto). cbn [obind]. rewrite i_bound_full by exact Hb. reflexivity.
Qed.

Lemma r_new_multiple oc t b s : 0 < s <= imax t -> ity_ok t b -> ity_ok t (b * s) -> r_new oc t (b * s) s = Done (r_int b).
Proof.
  intros Hs Hb Hbs. destruct (r_reduce_positive t (Frac (b * s) s) oc Hbs Hs) as [z [E [Rz N]]].
  unfold r_new. rewrite E. f_equal. cbn in N. apply (reduced_inj t); [exact Rz|apply reduced_r_int; exact Hb|].
  cbn. destruct Rz as [[_ Hd] _]. nia.
Qed.

Lemma statPctAdd_base oc T R scale s : from_i64 (i_ty T) scale = Done s -> 0 < s ->
  base_returns (statPctAdd oc T R scale) (fun b => b)
    (fun b => z_ok T b /\ z_ok T (b * s) /\ (oc = false \/ ~ round_overflows R (i_ty T) b 1)).
Proof.
  intros Es Hs b [Hb [Hbs Hno]].
  assert (Rs : ity_ok (i_ty T) s).
  { unfold from_i64 in Es. apply obind_inv in Es. destruct Es as [c [_ Es]]. inversion Es. apply wrap_range. }
  cbn. rewrite Es. cbn [obind]. unfold i_add, i_mul. rewrite Z.add_0_l, i_norm_id by exact Rs. cbn [obind].
  rewrite i_norm_id by exact Hbs. cbn [obind].
  rewrite r_new_multiple by (first [exact Hb|exact Hbs|unfold ity_ok in Rs; lia]). cbn [obind].
  rewrite round_to_int_int by (exact Hb || tauto). cbn [obind]. rewrite i_bound_full by exact Hb. reflexivity.
Qed.

(** ** C12 *)
Lemma i_max_low a lo : lo <= a -> i_max a lo = a.
Proof. rewrite i_max_eq. lia. Qed.
Lemma i_max_low' a lo : lo <= a -> i_max lo a = a.
Proof. rewrite i_max_eq. lia. Qed.
Lemma i_min_high a hi : a <= hi -> i_min a hi = a.
Proof. rewrite i_min_eq. lia. Qed.
Lemma i_min_high' a hi : a <= hi -> i_min hi a = a.
Proof. rewrite i_min_eq. lia. Qed.

Ltac quad_solve :=
  repeat first
  [ rewrite Z.add_0_r | rewrite Z.add_0_l | rewrite Z.mul_1_r | rewrite Z.mul_1_l
  | rewrite i_norm_id by assumption
  | rewrite i_max_low by (unfold z_ok in *; lia) | rewrite i_max_low' by (unfold z_ok in *; lia)
  | rewrite i_min_high by (unfold z_ok in *; lia) | rewrite i_min_high' by (unfold z_ok in *; lia)
  | rewrite r_mul_one_l by assumption | rewrite r_mul_one_r by assumption
  | progress cbn [obind addend vmin vmax mult] ].

Lemma statInt_neutral oc T : default_neutral (statInt oc T) (quad_ok T (z_ok T)).
Proof.
  intros [a l h m] [Ha [Hl [Hh Hm]]]; cbn in *. unfold i_add, i_mul.
  split; quad_solve; reflexivity.
Qed.
Lemma statPctAdd_neutral oc T R scale : default_neutral (statPctAdd oc T R scale) (quad_ok T (z_ok T)).
Proof.
  intros [a l h m] [Ha [Hl [Hh Hm]]]; cbn in *. unfold i_add, i_mul.
  split; quad_solve; reflexivity.
Qed.
Lemma statIntFraction_neutral oc T R : default_neutral (statIntFraction oc T R) (quad_ok T (reduced (i_ty T))).
Proof.
  intros [a l h m] [Ha [Hl [Hh Hm]]]; cbn in *. unfold i_add, i_mul.
  split; quad_solve; reflexivity.
Qed.

Lemma zero_ok T : z_ok T 0.
Proof. unfold z_ok. pose proof (imin_le0 (i_ty T)). pose proof (imax_ge127 (i_ty T)). lia. Qed.
Lemma one_ok T : z_ok T 1.
Proof. unfold z_ok. pose proof (imin_le0 (i_ty T)). pose proof (imax_ge127 (i_ty T)). lia. Qed.

Ltac split_tac :=
  unfold into_stat; cbn; unfold q_add, q_min, q_max, i_add, i_mul; quad_solve;
  repeat match goal with
  | |- context [i_max (imin ?t) ?x] => rewrite (i_max_low' x (imin t)) by (unfold z_ok in *; lia)
  | |- context [i_min (imax ?t) ?x] => rewrite (i_min_high' x (imax t)) by (unfold z_ok in *; lia)
  | m : Z |- context [i_norm ?oc ?T ?m] => rewrite (i_norm_id oc T m) by assumption
  end; try reflexivity.

Lemma statInt_split oc T :
  splittable (statInt oc T) (quad_ok T (z_ok T)) (op_ok (S := statInt oc T) (z_ok T) (z_ok T) (z_ok T)).
Proof.
  intros [a l h m] o [Ha [Hl [Hh Hm]]] Ho Hb; cbn in Ha, Hl, Hh, Hm.
  destruct o as [x|x|x|x|x|x|x]; try solve [destruct x]; try destruct Hb; cbn in Ho;
  pose proof (zero_ok T); pose proof (one_ok T); split_tac.
Qed.
Lemma statPctAdd_split oc T R scale :
  splittable (statPctAdd oc T R scale) (quad_ok T (z_ok T)) (op_ok (S := statPctAdd oc T R scale) (z_ok T) (z_ok T) (z_ok T)).
Proof.
  intros [a l h m] o [Ha [Hl [Hh Hm]]] Ho Hb; cbn in Ha, Hl, Hh, Hm.
  destruct o as [x|x|x|x|x|x|x]; try solve [destruct x]; try destruct Hb; cbn in Ho;
  pose proof (zero_ok T); pose proof (one_ok T); split_tac.
Qed.
Lemma statIntFraction_split oc T R :
  splittable (statIntFraction oc T R) (quad_ok T (reduced (i_ty T)))
    (op_ok (S := statIntFraction oc T R) (z_ok T) (reduced (i_ty T)) (z_ok T)).
Proof.
  intros [a l h m] o [Ha [Hl [Hh Hm]]] Ho Hb; cbn in Ha, Hl, Hh, Hm.
  destruct o as [x|x|x|x|x|x|x]; try solve [destruct x]; try destruct Hb; cbn in Ho;
  pose proof (zero_ok T); pose proof (one_ok T); split_tac.
Qed.

Lemma statFlags_neutral G : (forall a, g_or G a (g_default G) = a) -> (forall a, g_or G (g_default G) a = a) ->
  default_neutral (statFlags G) everything.
Proof. intros H1 H2 [n o] _. cbn. rewrite !H1, !H2. auto. Qed.
Lemma statFlags_split G : (forall a, g_or G a (g_default G) = a) -> (forall a, g_or G (g_default G) a = a) ->
  splittable (statFlags G) everything everything.
Proof.
  intros H1 H2 [n o] op _ _ Hb. destruct op as [x|x|x|x|x|x|x]; try solve [destruct x]; try destruct Hb;
  unfold into_stat; cbn; rewrite ?H1, ?H2; reflexivity.
Qed.
Lemma zflags_neutral : default_neutral (statFlags zflags) everything /\ splittable (statFlags zflags) everything everything.
Proof. split; [apply statFlags_neutral|apply statFlags_split]; cbn; intros; first [apply Z.lor_0_r|reflexivity]. Qed.
Lemma statExists_neutral : default_neutral statExists everything /\ splittable statExists everything everything.
Proof.
  split.
  - intros [] _; split; reflexivity.
  - intros v op _ _ Hb. destruct op as [x|x|x|x|x|x|x]; try solve [destruct x]; try destruct Hb; destruct x, v; reflexivity.
Qed.
Lemma statOnce_neutral A : default_neutral (statOnce A) everything /\ splittable (statOnce A) everything everything.
Proof.
  split.
  - intros [] _; split; reflexivity.
  - intros v op _ _ Hb. destruct op as [x|x|x|x|x|x|x]; try solve [destruct x]; try destruct Hb; destruct v; reflexivity.
Qed.
