From Coq Require Import ZArith Reals List Bool Lia Lra Permutation.
From Flocq Require Import Core BinarySingleNaN.
From Verif Require Import M_Outcome M_Ints M_Ratio M_Float M_Value M_Types S_Ratio S_Types S_Float S_Totals S_FloatTotals
  L_Outcome L_Ints L_Float L_FloatProofs L_Totals L_Totals2 L_FloatTotals.
Import ListNotations.
Local Open Scope Z_scope.

Lemma worth_of {S : StatValue} (h : history S) v : value_of h = Done v -> worth h = sv_eval S v.
Proof. unfold worth. now intros ->. Qed.

Section Facts.
  Variables prec emax : Z.
  Context (Hp : Prec_gt_0 prec) (He : Prec_lt_emax prec emax).
  Notation bf := (binary_float prec emax).
  Notation F := (binF prec emax Hp He).

  Ltac total_tac :=
    let h := fresh "h" in intros h; induction h as [|b|h [v IH] o|h [v IH] k [w IHk]]; cbn [value_of];
    [ eexists; reflexivity | eexists; reflexivity
    | rewrite IH; destruct o as [x|x|[]|[]|x|x|x]; eexists; reflexivity
    | rewrite IH, IHk; eexists; reflexivity ].
  Lemma float_total : forall h : history (statFloat F), exists v, value_of h = Done v.
  Proof. total_tac. Qed.
  Lemma floatadd_total : forall h : history (statFloatAdditive F), exists v, value_of h = Done v.
  Proof. total_tac. Qed.
  Lemma mult_total : forall h : history (statMult F), exists v, value_of h = Done v.
  Proof.
    intros h; induction h as [|b|h [v IH] o|h [v IH] k [w IHk]]; cbn [value_of];
    [ eexists; reflexivity | eexists; reflexivity
    | rewrite IH; destruct o as [[]|x|[]|[]|x|x|x]; eexists; reflexivity
    | rewrite IH, IHk; eexists; reflexivity ].
  Qed.

  (** One accumulated field: [I] holds of nothing, of one contribution, and of two parts put together. *)
  Ltac field_tac pj Hnil Hone Happ :=
    let h := fresh "h" in let v := fresh "v" in let H := fresh "H" in
    intros h v H; revert h v H;
    apply (gathered_ind (A := bf)) with (proj := pj);
    [ try exact Hnil
    | let b := fresh "b" in intros b; first [exact (Hone b) | exact Hnil]
    | let l := fresh "l" in let v := fresh "v" in let o := fresh "o" in let w := fresh "w" in
      let C := fresh "C" in let W := fresh "W" in let I := fresh "I" in
      intros l v o w C W I; destruct o as [x|x|[]|[]|x|x|x]; try (cbn in x; match type of x with Empty_set => destruct x end); cbn in W; inversion W; subst; clear W;
      try (exfalso; eapply C; reflexivity); cbn; rewrite ?app_nil_r; first [exact I | apply Happ; [exact I|apply Hone]]
    | let l := fresh "l" in let v := fresh "v" in let k := fresh "k" in let w := fresh "w" in let x := fresh "x" in
      let W := fresh "W" in intros l v k w x W Il Ik; cbn in W; inversion W; subst; cbn; now apply Happ ].

  Definition field_rules (nil : bf) (op : bf -> bf -> bf) (I : list bf -> bf -> Prop) : Prop :=
    I [] nil /\ (forall x, I [x] x) /\ (forall l k a b, I l a -> I k b -> I (l ++ k) (op a b)).

  Lemma float_addend I : field_rules (B754_zero false) (Bplus mode_NE) I ->
    forall (h : history (statFloat F)) v, value_of h = Done v -> I (gains h same same) (addend v).
  Proof.
    intros (H0 & H1 & H2).
    field_tac (fun v : val (statFloat F) => addend v : bf) H0 H1 H2.
  Qed.
  Lemma float_mult I : field_rules (b_one prec emax Hp He) (Bmult mode_NE) I ->
    forall (h : history (statFloat F)) v, value_of h = Done v -> I (factors h same) (mult v).
  Proof.
    intros (H0 & H1 & H2).
    field_tac (fun v : val (statFloat F) => mult v : bf) H0 H1 H2.
  Qed.
  Lemma floatadd_addend I : field_rules (B754_zero false) (Bplus mode_NE) I ->
    forall (h : history (statFloatAdditive F)) v, value_of h = Done v -> I (gains h same same) (addend v).
  Proof.
    intros (H0 & H1 & H2).
    field_tac (fun v : val (statFloatAdditive F) => addend v : bf) H0 H1 H2.
  Qed.
  Lemma floatadd_mult I : field_rules (B754_zero false) (Bplus mode_NE) I ->
    forall (h : history (statFloatAdditive F)) v, value_of h = Done v -> I (factors h same) (mult v).
  Proof.
    intros (H0 & H1 & H2).
    field_tac (fun v : val (statFloatAdditive F) => mult v : bf) H0 H1 H2.
  Qed.
  Lemma mult_mult I : field_rules (b_one prec emax Hp He) (Bmult mode_NE) I ->
    forall (h : history (statMult F)) v, value_of h = Done v -> I (scales h same same) (t_mult v).
  Proof.
    intros (H0 & H1 & H2).
    field_tac (fun v : val (statMult F) => t_mult v : bf) H0 H1 H2.
  Qed.

  Ltac bound_tac pj Hnil Hone Happ :=
    let h := fresh "h" in let v := fresh "v" in let H := fresh "H" in
    intros h v H; revert h v H;
    apply (gathered_ind (A := bf)) with (proj := pj);
    [ exact Hnil
    | let b := fresh "b" in intros b; exact Hnil
    | let l := fresh "l" in let v := fresh "v" in let o := fresh "o" in let w := fresh "w" in
      let C := fresh "C" in let W := fresh "W" in let I := fresh "I" in
      intros l v o w C W I; destruct o as [x|x|[]|[]|x|x|x]; try (cbn in x; match type of x with Empty_set => destruct x end);
      cbn in W; inversion W; subst; clear W;
      try (exfalso; eapply C; reflexivity); cbn; rewrite ?app_nil_r; first [exact I | apply Hone; exact I]
    | let l := fresh "l" in let v := fresh "v" in let k := fresh "k" in let w := fresh "w" in let x := fresh "x" in
      let W := fresh "W" in intros l v k w x W Il Ik; cbn in W; inversion W; subst; cbn; now apply Happ ].

  Lemma float_lower : forall (h : history (statFloat F)) v, value_of h = Done v ->
    lower_is prec emax (floors h same) (vmin v).
  Proof.
    bound_tac (fun v : val (statFloat F) => vmin v : bf) (lower_nil prec emax Hp He) (lower_one prec emax) (lower_app prec emax).
  Qed.
  Lemma float_upper : forall (h : history (statFloat F)) v, value_of h = Done v ->
    upper_is prec emax (ceilings h same) (vmax v).
  Proof.
    bound_tac (fun v : val (statFloat F) => vmax v : bf) (upper_nil prec emax Hp He) (upper_one prec emax) (upper_app prec emax).
  Qed.
  Lemma floatadd_lower : forall (h : history (statFloatAdditive F)) v, value_of h = Done v ->
    lower_is prec emax (floors h same) (vmin v).
  Proof.
    bound_tac (fun v : val (statFloatAdditive F) => vmin v : bf) (lower_nil prec emax Hp He) (lower_one prec emax) (lower_app prec emax).
  Qed.
  Lemma floatadd_upper : forall (h : history (statFloatAdditive F)) v, value_of h = Done v ->
    upper_is prec emax (ceilings h same) (vmax v).
  Proof.
    bound_tac (fun v : val (statFloatAdditive F) => vmax v : bf) (upper_nil prec emax Hp He) (upper_one prec emax) (upper_app prec emax).
  Qed.
  Lemma mult_lower : forall (h : history (statMult F)) v, value_of h = Done v ->
    lower_is prec emax (floors h same) (t_min v).
  Proof.
    bound_tac (fun v : val (statMult F) => t_min v : bf) (lower_nil prec emax Hp He) (lower_one prec emax) (lower_app prec emax).
  Qed.
  Lemma mult_upper : forall (h : history (statMult F)) v, value_of h = Done v ->
    upper_is prec emax (ceilings h same) (t_max v).
  Proof.
    bound_tac (fun v : val (statMult F) => t_max v : bf) (upper_nil prec emax Hp He) (upper_one prec emax) (upper_app prec emax).
  Qed.

  Lemma sums_rules : field_rules (B754_zero false) (Bplus mode_NE) (sums prec emax).
  Proof.
    split; [now apply sums_nil|]. split; [apply sums_one|]. intros; now apply sums_app.
  Qed.
  Lemma products_rules : field_rules (b_one prec emax Hp He) (Bmult mode_NE) (products prec emax).
  Proof.
    split; [apply products_nil; [apply one_fin|apply one_R]|]. split; [apply products_one|]. intros; now apply products_app.
  Qed.
  Lemma sums_exactly_rules e : field_rules (B754_zero false) (Bplus mode_NE) (sums_exactly prec emax e).
  Proof.
    split; [intros _; now split|]. split; [|intros; now apply sums_exactly_app].
    intros x (_ & Fx & _). inversion Fx; subst. split; [easy|]. unfold total. cbn. lra.
  Qed.
  Lemma multiplies_exactly_rules : field_rules (b_one prec emax Hp He) (Bmult mode_NE) (multiplies_exactly prec emax).
  Proof.
    split; [intros _; split; [apply one_fin|]; rewrite one_R; reflexivity|].
    split; [|intros; now apply multiplies_exactly_app].
    intros x (Fx & _). inversion Fx; subst. split; [easy|]. unfold outcome_of. cbn. lra.
  Qed.
End Facts.

Lemma C59_StatFloat_proof :
  forall prec emax Hp He (h : history (statFloat (binF prec emax Hp He))),
  summable (gains h same same) -> multipliable (factors h same) ->
  exists r a m, worth h = Done r /\
    near_total (gains h same same) a /\ near_product (factors h same) m /\
    ext r = clamped (floors h same) (ceilings h same) (nearest prec emax (a * m)).
Proof.
  intros prec emax Hp He h Hs Hm. destruct (float_total prec emax Hp He h) as [v Hv].
  destruct (sums_near prec emax _ _ (float_addend prec emax Hp He _ (sums_rules prec emax Hp He) h v Hv) Hs) as [Fa Na].
  destruct (products_near prec emax _ _ (float_mult prec emax Hp He _ (products_rules prec emax Hp He) h v Hv) Hm) as [Fm Nm].
  eexists. exists (B2R (addend v)), (B2R (mult v)). rewrite (worth_of h v Hv). split; [reflexivity|].
  split; [exact Na|]. split; [exact Nm|].
  apply bound_product; auto; [now apply float_lower|now apply float_upper].
Qed.

Lemma C59_StatFloat_exact_proof :
  forall prec emax Hp He e (h : history (statFloat (binF prec emax Hp He))),
  on_grid e (gains h same same) -> short (factors h same) ->
  exists r, worth h = Done r /\
    ext r = clamped (floors h same) (ceilings h same)
              (nearest prec emax (total (gains h same same) * outcome_of (factors h same))).
Proof.
  intros prec emax Hp He e h Hs Hm. destruct (float_total prec emax Hp He h) as [v Hv].
  destruct (float_addend prec emax Hp He _ (sums_exactly_rules prec emax Hp He e) h v Hv Hs) as [Fa Na].
  destruct (float_mult prec emax Hp He _ (multiplies_exactly_rules prec emax Hp He) h v Hv Hm) as [Fm Nm].
  eexists. rewrite (worth_of h v Hv). split; [reflexivity|]. rewrite <- Na, <- Nm.
  apply bound_product; auto; [now apply float_lower|now apply float_upper].
Qed.

Lemma plus_one prec emax Hp He (m : binary_float prec emax) : is_finite m = true ->
  (Rabs (B2R m) <= 3 / 2 * bpow radix2 (emax - 2))%R ->
  is_finite (Bplus mode_NE m (b_one prec emax Hp He)) = true /\
  B2R (Bplus mode_NE m (b_one prec emax Hp He)) = nearest prec emax (B2R m + 1).
Proof.
  intros Fm Bm. rewrite <- (one_R prec emax Hp He). apply plus_spec; [easy|apply one_fin|].
  destruct (near_plus prec emax Hp m (b_one prec emax Hp He)) as (e & Be & ->).
  pose proof (u_half prec Hp) as U. unfold too_large. rewrite Rabs_mult, one_R.
  rewrite emax_bpow in Bm.
  assert (B1 : (1 <= bpow radix2 emax / 4)%R).
  { rewrite <- emax_bpow. change 1%R with (bpow radix2 0). apply bpow_le. unfold Prec_gt_0, Prec_lt_emax in *. lia. }
  intros C.
  assert (A : (Rabs (B2R m + 1) <= 5 / 2 * (bpow radix2 emax / 4))%R).
  { eapply Rle_trans; [apply Rabs_triang|]. rewrite Rabs_R1. lra. }
  assert (B : (Rabs (1 + e) <= 3 / 2)%R).
  { eapply Rle_trans; [apply Rabs_triang|]. rewrite Rabs_R1. lra. }
  assert (D : (Rabs (B2R m + 1) * Rabs (1 + e) <= 5 / 2 * (bpow radix2 emax / 4) * (3 / 2))%R).
  { apply Rmult_le_compat; try apply Rabs_pos; assumption. }
  lra.
Qed.

Lemma near_total_size prec emax (l : list (binary_float prec emax)) x :
  few l -> near_total l x -> (Rabs x <= 3 / 2 * weight l)%R.
Proof.
  intros N H. unfold near_total in H. replace x with ((x - total l) + total l)%R by lra.
  eapply Rle_trans; [apply Rabs_triang|]. pose proof (total_weight prec emax l).
  pose proof (few_small prec emax l N) as S. rewrite u_twice in H.
  pose proof (weight_pos prec emax l) as W.
  assert (INR (length l) * (2 * u prec) * weight l <= / 2 * weight l)%R by (apply Rmult_le_compat_r; lra). lra.
Qed.

Lemma C59_StatFloatAdditive_proof :
  forall prec emax Hp He (h : history (statFloatAdditive (binF prec emax Hp He))),
  summable (gains h same same) -> summable (factors h same) ->
  exists r a m, worth h = Done r /\
    near_total (gains h same same) a /\ near_total (factors h same) m /\
    ext r = clamped (floors h same) (ceilings h same) (nearest prec emax (a * nearest prec emax (m + 1))).
Proof.
  intros prec emax Hp He h Hs Hm. destruct (floatadd_total prec emax Hp He h) as [v Hv].
  destruct (sums_near prec emax _ _ (floatadd_addend prec emax Hp He _ (sums_rules prec emax Hp He) h v Hv) Hs) as [Fa Na].
  destruct (sums_near prec emax _ _ (floatadd_mult prec emax Hp He _ (sums_rules prec emax Hp He) h v Hv) Hm) as [Fm Nm].
  destruct (plus_one prec emax Hp He (mult v) Fm) as [F1 R1].
  { destruct Hm as (_ & N & W). pose proof (near_total_size prec emax _ _ N Nm). lra. }
  eexists. exists (B2R (addend v)), (B2R (mult v)). rewrite (worth_of h v Hv). split; [reflexivity|].
  split; [exact Na|]. split; [exact Nm|]. rewrite <- R1.
  apply bound_product; auto; [now apply floatadd_lower|now apply floatadd_upper].
Qed.

Lemma C59_StatFloatAdditive_exact_proof :
  forall prec emax Hp He e e' (h : history (statFloatAdditive (binF prec emax Hp He))),
  on_grid e (gains h same same) -> on_grid e' (b_one prec emax Hp He :: factors h same) ->
  exists r, worth h = Done r /\
    ext r = clamped (floors h same) (ceilings h same)
              (nearest prec emax (total (gains h same same) * (1 + total (factors h same)))).
Proof.
  intros prec emax Hp He e e' h Hs Hm. destruct (floatadd_total prec emax Hp He h) as [v Hv].
  destruct (floatadd_addend prec emax Hp He _ (sums_exactly_rules prec emax Hp He e) h v Hv Hs) as [Fa Na].
  set (l := factors h same : list (binary_float prec emax)) in *.
  assert (Hm' : on_grid e' (l ++ [b_one prec emax Hp He])).
  { destruct Hm as (A & B & C & D). inversion B; subst. inversion C; subst. split; [exact A|].
    split; [apply Forall_app; now repeat constructor|]. split; [apply Forall_app; now repeat constructor|].
    rewrite weight_app. unfold weight in *. cbn [fold_right] in *. lra. }
  destruct (sums_exactly_app prec emax Hp He e' l [b_one prec emax Hp He] (mult v) (b_one prec emax Hp He)) as [Fm Nm].
  { apply (floatadd_mult prec emax Hp He _ (sums_exactly_rules prec emax Hp He e') h v Hv). }
  { apply (sums_exactly_rules prec emax Hp He e'). }
  { exact Hm'. }
  rewrite total_app in Nm. replace (total [b_one prec emax Hp He]) with 1%R in Nm
    by (unfold total; cbn; rewrite one_R; lra).
  eexists. rewrite (worth_of h v Hv). split; [reflexivity|].
  rewrite (Rplus_comm 1). rewrite <- Na, <- Nm.
  apply bound_product; auto; [now apply floatadd_lower|now apply floatadd_upper].
Qed.

Lemma C59_StatMult_proof :
  forall prec emax Hp He (h : history (statMult (binF prec emax Hp He))),
  multipliable (scales h same same) ->
  exists r m, worth h = Done r /\ near_product (scales h same same) m /\
    ext r = clamped (floors h same) (ceilings h same) m.
Proof.
  intros prec emax Hp He h Hm. destruct (mult_total prec emax Hp He h) as [v Hv].
  destruct (products_near prec emax _ _ (mult_mult prec emax Hp He _ (products_rules prec emax Hp He) h v Hv) Hm) as [Fm Nm].
  eexists. exists (B2R (t_mult v)). rewrite (worth_of h v Hv). split; [reflexivity|].
  split; [exact Nm|].
  apply bound_finite; auto; [now apply mult_lower|now apply mult_upper].
Qed.
Lemma C59_StatMult_exact_proof :
  forall prec emax Hp He (h : history (statMult (binF prec emax Hp He))),
  short (scales h same same) ->
  exists r, worth h = Done r /\
    ext r = clamped (floors h same) (ceilings h same) (outcome_of (scales h same same)).
Proof.
  intros prec emax Hp He h Hm. destruct (mult_total prec emax Hp He h) as [v Hv].
  destruct (mult_mult prec emax Hp He _ (multiplies_exactly_rules prec emax Hp He) h v Hv Hm) as [Fm Nm].
  eexists. rewrite (worth_of h v Hv). split; [reflexivity|]. rewrite <- Nm.
  apply bound_finite; auto; [now apply mult_lower|now apply mult_upper].
Qed.

(** ** Order *)
Section Order.
  Variables prec emax : Z.
  Notation bf := (binary_float prec emax).
  Lemma total_perm (l k : list bf) : Permutation l k -> total l = total k.
  Proof. unfold total. induction 1; cbn in *; lra. Qed.
  Lemma weight_perm (l k : list bf) : Permutation l k -> weight l = weight k.
  Proof. unfold weight. induction 1; cbn in *; lra. Qed.
  Lemma outcome_perm (l k : list bf) : Permutation l k -> outcome_of l = outcome_of k.
  Proof.
    unfold outcome_of. induction 1; cbn in *; [reflexivity|now rewrite IHPermutation|ring|now rewrite IHPermutation1].
  Qed.
  Lemma most_perm a (l k : list bf) : Permutation l k -> most a l = most a k.
  Proof.
    intros H. revert a. unfold most. induction H; intros a; cbn; auto.
    - destruct (is_nan x), (is_nan y); try reflexivity. f_equal. rewrite <- !Rmax_assoc. f_equal. apply Rmax_comm.
    - now rewrite IHPermutation1.
  Qed.
  Lemma least_perm a (l k : list bf) : Permutation l k -> least a l = least a k.
  Proof.
    intros H. revert a. unfold least. induction H; intros a; cbn; auto.
    - destruct (is_nan x), (is_nan y); try reflexivity. f_equal. rewrite <- !Rmin_assoc. f_equal. apply Rmin_comm.
    - now rewrite IHPermutation1.
  Qed.
  Lemma clamped_perm (l l' k k' : list bf) x : Permutation l l' -> Permutation k k' -> clamped l k x = clamped l' k' x.
  Proof. intros H H'. unfold clamped. now rewrite (most_perm _ _ _ H), (least_perm _ _ _ H'). Qed.
  Lemma on_grid_perm e (l k : list bf) : Permutation l k -> on_grid e l -> on_grid e k.
  Proof.
    intros H (A & B & C & D). unfold on_grid, finite_all in *. rewrite <- (weight_perm _ _ H).
    pose proof (Permutation_Forall H B). pose proof (Permutation_Forall H C). auto.
  Qed.
  Lemma room_mul_perm l k : Permutation l k -> room_mul l = room_mul k.
  Proof.
    induction 1; try reflexivity.
    - rewrite !room_mul_cons. congruence.
    - rewrite !room_mul_cons. ring.
    - congruence.
  Qed.
  Lemma room_perm l k : Permutation l k -> room l = room k.
  Proof.
    induction 1; try reflexivity.
    - rewrite !room_cons. congruence.
    - rewrite !room_cons. ring.
    - congruence.
  Qed.
  Lemma short_perm (l k : list bf) : Permutation l k -> short l -> short k.
  Proof.
    intros H (A & zs & Q & M & E). split; [exact (Permutation_Forall H A)|].
    destruct (Permutation_Forall2 H Q) as (zs' & P & Q'). exists zs'. split; [exact Q'|].
    rewrite <- (room_mul_perm (map fst zs) (map fst zs')), <- (room_perm (map snd zs) (map snd zs')) by now apply Permutation_map.
    easy.
  Qed.
End Order.

Lemma C59_StatFloat_order_free_proof :
  forall prec emax Hp He e (h k : history (statFloat (binF prec emax Hp He))),
  on_grid e (gains h same same) -> short (factors h same) ->
  Permutation (gains h same same) (gains k same same) -> Permutation (factors h same) (factors k same) ->
  Permutation (floors h same) (floors k same) -> Permutation (ceilings h same) (ceilings k same) ->
  exists r s, worth h = Done r /\ worth k = Done s /\ ext r = ext s.
Proof.
  intros prec emax Hp He e h k G Sh Pg Pf Pl Pc.
  destruct (C59_StatFloat_exact_proof prec emax Hp He e h G Sh) as (r & Hr & Er).
  destruct (C59_StatFloat_exact_proof prec emax Hp He e k (on_grid_perm _ _ _ _ _ Pg G) (short_perm _ _ _ _ Pf Sh)) as (s & Hs & Es).
  exists r, s. split; [exact Hr|]. split; [exact Hs|]. rewrite Er, Es.
  rewrite (total_perm _ _ _ _ Pg), (outcome_perm _ _ _ _ Pf). now apply clamped_perm.
Qed.
Lemma C59_StatFloatAdditive_order_free_proof :
  forall prec emax Hp He e e' (h k : history (statFloatAdditive (binF prec emax Hp He))),
  on_grid e (gains h same same) -> on_grid e' (b_one prec emax Hp He :: factors h same) ->
  Permutation (gains h same same) (gains k same same) -> Permutation (factors h same) (factors k same) ->
  Permutation (floors h same) (floors k same) -> Permutation (ceilings h same) (ceilings k same) ->
  exists r s, worth h = Done r /\ worth k = Done s /\ ext r = ext s.
Proof.
  intros prec emax Hp He e e' h k G Sh Pg Pf Pl Pc.
  destruct (C59_StatFloatAdditive_exact_proof prec emax Hp He e e' h G Sh) as (r & Hr & Er).
  destruct (C59_StatFloatAdditive_exact_proof prec emax Hp He e e' k (on_grid_perm _ _ _ _ _ Pg G)) as (s & Hs & Es).
  { eapply on_grid_perm; [|exact Sh]. now constructor. }
  exists r, s. split; [exact Hr|]. split; [exact Hs|]. rewrite Er, Es.
  rewrite (total_perm _ _ _ _ Pg), (total_perm _ _ _ _ Pf). now apply clamped_perm.
Qed.
Lemma C59_StatMult_order_free_proof :
  forall prec emax Hp He (h k : history (statMult (binF prec emax Hp He))),
  short (scales h same same) -> Permutation (scales h same same) (scales k same same) ->
  Permutation (floors h same) (floors k same) -> Permutation (ceilings h same) (ceilings k same) ->
  exists r s, worth h = Done r /\ worth k = Done s /\ ext r = ext s.
Proof.
  intros prec emax Hp He h k Sh Pf Pl Pc.
  destruct (C59_StatMult_exact_proof prec emax Hp He h Sh) as (r & Hr & Er).
  destruct (C59_StatMult_exact_proof prec emax Hp He k (short_perm _ _ _ _ Pf Sh)) as (s & Hs & Es).
  exists r, s. split; [exact Hr|]. split; [exact Hs|]. rewrite Er, Es.
  rewrite (outcome_perm _ _ _ _ Pf). now apply clamped_perm.
Qed.
