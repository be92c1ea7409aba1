From Coq Require Import ZArith QArith Lia Bool List.
From Verif Require Import M_Outcome M_Ints M_Ratio M_Float M_Value M_Types S_Ratio S_Types S_Totals
  L_Outcome L_Ints L_Ratio L_Round L_RatioQ L_Types L_Types2 L_Types3 L_Totals.
Import ListNotations.
Local Open Scope Z_scope.
Local Arguments Z.mul : simpl never.
Local Arguments Z.add : simpl never.
Local Arguments Z.max : simpl never.
Local Arguments Z.min : simpl never.
Local Arguments i_add : simpl never.
Local Arguments i_mul : simpl never.
Local Arguments i_min : simpl never.
Local Arguments i_max : simpl never.
Local Arguments r_mul : simpl never.
Local Arguments r_new : simpl never.
Local Arguments r_add : simpl never.
Local Arguments largest : simpl never.
Local Arguments smallest : simpl never.
Local Arguments sum : simpl never.
Local Arguments product : simpl never.

(** ** StatIntPercentAdditive *)
Lemma pctadd_checked t R scale (h : history (statPctAdd true (prim t) R scale)) : forall v, value_of h = Done v ->
  addend v = sum (gains h same same) /\ mult v = sum (factors h same).
Proof.
  induction h as [|b|h IH o|h IHh k IHk]; intros v H; cbn [value_of] in H.
  - inversion H; subst. split; reflexivity.
  - inversion H; subst. cbn. rewrite sum_one. split; reflexivity.
  - apply obind_inv in H. destruct H as [w [Hw H]]. destruct (IH w Hw) as [A M]. clear IH.
    unfold gains, factors, same in *.
    destruct o as [x|x|[]|[]|x|x|x]; cbn in H; unfold q_add in H.
    + apply obind_inv in H. destruct H as [a [Ha H]]. apply checked_add in Ha. inversion H; subst. cbn.
      rewrite sum_app, sum_one, app_nil_r. destruct Ha as [-> _]. rewrite A. auto.
    + apply obind_inv in H. destruct H as [a [Ha H]]. apply checked_add in Ha. inversion H; subst. cbn.
      rewrite (sum_app _ [x]), sum_one, app_nil_r. destruct Ha as [-> _]. rewrite M. auto.
    + inversion H; subst. cbn. rewrite !app_nil_r. auto.
    + inversion H; subst. cbn. rewrite !app_nil_r. auto.
    + inversion H; subst. cbn. rewrite sum_one. auto.
  - apply obind_inv in H. destruct H as [w1 [H1 H]]. apply obind_inv in H. destruct H as [w2 [H2 H]].
    destruct (IHh w1 H1) as [A1 M1], (IHk w2 H2) as [A2 M2]. cbn in H.
    apply obind_inv in H. destruct H as [a [Ha H]]. apply checked_add in Ha. destruct Ha as [-> _].
    apply obind_inv in H. destruct H as [m [Hm H]]. apply checked_add in Hm. destruct Hm as [-> _].
    inversion H; subst. unfold gains, factors, same in *. cbn. rewrite !sum_app, A1, A2, M1, M2. auto.
Qed.

Lemma pct_result_bounded R s t (v : quad Z Z) r los his :
  vmin v = largest (imin t) los -> vmax v = smallest (imax t) his -> pct_result R s v r ->
  exists y, rounds_to R (addend v * (s + mult v)) s y /\ r = bounded t los his y.
Proof. intros L U [y [Y ->]]. exists y. split; [exact Y|]. unfold bounded. rewrite L, U. reflexivity. Qed.

Lemma C58_StatIntPercentAdditive_checked_proof :
  forall t R scale s (h : history (statPctAdd true (prim t) R scale)) r,
  from_i64 t scale = Done s -> 0 < s -> worth h = Done r ->
  exists y, rounds_to R (sum (gains h same same) * (s + sum (factors h same))) s y /\
    r = bounded t (floors h same) (ceilings h same) y.
Proof.
  intros t R scale s h r Es Hs H. unfold worth in H. apply obind_inv in H. destruct H as [v [Hv H]].
  destruct (pctadd_checked t R scale h v Hv) as [A M]. destruct (pctadd_bounds _ _ _ _ h v Hv) as [L U].
  rewrite <- A, <- M. apply pct_result_bounded; [exact L|exact U|].
  apply (pct_exact t R scale s v r Es Hs H).
Qed.

Lemma pctadd_fits oc T R scale (h : history (statPctAdd oc T R scale)) : steady h ->
  Forall (z_ok T) (gains h same same) -> Forall (z_ok T) (factors h same) ->
  room (gains h same same) <= imax (i_ty T) -> room (factors h same) <= imax (i_ty T) ->
  exists v, value_of h = Done v /\ addend v = sum (gains h same same) /\ mult v = sum (factors h same).
Proof.
  set (t := i_ty T). intros St Fg Ff Rg Rf.
  induction h as [|b|h IH o|h IHh k IHk]; cbn [value_of].
  - eexists. split; [reflexivity|]. split; reflexivity.
  - eexists. split; [reflexivity|]. cbn. unfold same. rewrite sum_one. split; reflexivity.
  - destruct St as [St So]. unfold gains, factors, same in *.
    pose proof (sum_fits t _ Fg Rg) as S1. pose proof (sum_fits t _ Ff Rf) as S2.
    destruct o as [x|x|[]|[]|x|x|x]; try destruct So; cbn in *; rewrite ?app_nil_r in *.
    + apply Forall_app in Fg. destruct (IH St (proj1 Fg) Ff (room_le_l _ _ _ Rg) Rf) as [w [-> [A M]]]. cbn.
      unfold q_add, i_add. rewrite A. rewrite (sum_app _ [x]), sum_one in *. rewrite i_norm_id by exact S1. cbn.
      eexists. split; [reflexivity|]. cbn. auto.
    + apply Forall_app in Ff. destruct (IH St Fg (proj1 Ff) Rg (room_le_l _ _ _ Rf)) as [w [-> [A M]]]. cbn.
      unfold i_add. rewrite M. rewrite (sum_app _ [x]), sum_one in *. rewrite i_norm_id by exact S2. cbn.
      eexists. split; [reflexivity|]. cbn. auto.
    + destruct (IH St Fg Ff Rg Rf) as [w [-> [A M]]]. cbn. eexists. split; [reflexivity|]. auto.
    + destruct (IH St Fg Ff Rg Rf) as [w [-> [A M]]]. cbn. eexists. split; [reflexivity|]. auto.
  - destruct St as [Sh Sk]. unfold gains, factors, same in *. cbn in *.
    pose proof (sum_fits t _ Fg Rg) as S1. pose proof (sum_fits t _ Ff Rf) as S2.
    apply Forall_app in Fg, Ff. destruct Fg as [Fg1 Fg2], Ff as [Ff1 Ff2].
    destruct (IHh Sh Fg1 Ff1 (room_le_l _ _ _ Rg) (room_le_l _ _ _ Rf)) as [w1 [-> [A1 M1]]].
    destruct (IHk Sk Fg2 Ff2 (room_le_r _ _ _ Rg) (room_le_r _ _ _ Rf)) as [w2 [-> [A2 M2]]].
    cbn. unfold i_add. rewrite A1, A2, M1, M2. rewrite !sum_app in *.
    rewrite i_norm_id by exact S1. cbn. rewrite i_norm_id by exact S2. cbn. eexists. split; [reflexivity|]. auto.
Qed.

Lemma C58_StatIntPercentAdditive_fits_proof :
  forall oc T R scale s (h : history (statPctAdd oc T R scale)),
  from_i64 (i_ty T) scale = Done s -> 0 < s -> steady h ->
  Forall (z_ok T) (gains h same same) -> Forall (z_ok T) (factors h same) ->
  room (gains h same same) <= imax (i_ty T) -> room (factors h same) <= imax (i_ty T) ->
  z_ok T (s + sum (factors h same)) -> z_ok T (sum (gains h same same) * (s + sum (factors h same))) ->
  ~ round_overflows R (i_ty T) (sum (gains h same same) * (s + sum (factors h same))) s ->
  exists y, rounds_to R (sum (gains h same same) * (s + sum (factors h same))) s y /\
    worth h = Done (bounded (i_ty T) (floors h same) (ceilings h same) y).
Proof.
  intros oc T R scale s h Es Hs St Fg Ff Rg Rf P1 P2 P3.
  destruct (pctadd_fits oc T R scale h St Fg Ff Rg Rf) as [v [Hv [A M]]].
  destruct (pctadd_bounds _ _ _ _ h v Hv) as [L U].
  rewrite <- A, <- M in *. destruct (pct_total oc T R scale s v Es Hs P1 P2 P3) as [r [E Pr]].
  destruct (pct_result_bounded R s _ v r _ _ L U Pr) as [y [Y ->]].
  exists y. split; [exact Y|]. unfold worth. rewrite Hv. exact E.
Qed.

(** ** StatIntFraction *)
Lemma over_app l l' : over (l ++ l') = over l * over l'.
Proof. unfold over. rewrite map_app. apply product_app. Qed.
Lemma under_app l l' : under (l ++ l') = under l * under l'.
Proof. unfold under. rewrite map_app. apply product_app. Qed.
Lemma over_one r : over [r] = numer r. Proof. unfold over. cbn. apply product_one. Qed.
Lemma under_one r : under [r] = denom r. Proof. unfold under. cbn. apply product_one. Qed.
Lemma under_pos t l : Forall (reduced t) l -> 0 < under l.
Proof.
  intros H. induction H as [|r l [[_ Hd] _] _ IH]; [reflexivity|].
  change (under (r :: l)) with (denom r * under l). nia.
Qed.

Lemma one_reduced t : reduced t (r_int 1).
Proof. apply reduced_r_int. unfold ity_ok. pose proof (imin_le0 t). pose proof (imax_ge127 t). lia. Qed.
Lemma zero_fits t : ity_ok t 0.
Proof. unfold ity_ok. pose proof (imin_le0 t). pose proof (imax_ge127 t). lia. Qed.

(** [m] is the product of the fractions in [l]. *)
Definition multiplies (t : ity) (l : list ratio) (m : ratio) : Prop :=
  reduced t m /\ numer m * under l = over l * denom m.

Lemma multiplies_mul t l l' m m' z : multiplies t l m -> multiplies t l' m' ->
  r_mul true t m m' = Done z -> multiplies t (l ++ l') z.
Proof.
  intros [R E] [R' E'] H. destruct (r_mul_spec t m m' z (proj1 R) (proj1 R') H) as [Rz N].
  split; [exact Rz|]. rewrite over_app, under_app.
  destruct R as [[_ Hd] _], R' as [[_ Hd'] _].
  apply (Z.mul_reg_r _ _ (denom m * denom m')); [nia|].
  replace (numer z * (under l * under l') * (denom m * denom m'))
    with (numer z * (denom m * denom m') * (under l * under l')) by ring.
  rewrite N. replace (numer m * numer m' * denom z * (under l * under l'))
    with ((numer m * under l) * (numer m' * under l') * denom z) by ring.
  rewrite E, E'. ring.
Qed.
Lemma multiplies_one t r : reduced t r -> multiplies t [r] r.
Proof. intros R. split; [exact R|]. rewrite over_one, under_one. reflexivity. Qed.

Lemma frac_checked t R (h : history (statIntFraction true (prim t) R)) :
  Forall (ity_ok t) (gains h same same) -> Forall (reduced t) (factors h same) ->
  forall v, value_of h = Done v ->
  addend v = sum (gains h same same) /\ ity_ok t (addend v) /\ multiplies t (factors h same) (mult v).
Proof.
  assert (N1 : multiplies t [] (r_int 1)) by (split; [apply one_reduced|reflexivity]).
  induction h as [|b|h IH o|h IHh k IHk]; intros Fg Ff v H; cbn [value_of] in H.
  - inversion H; subst. repeat split; try apply N1; apply zero_fits.
  - inversion H; subst. cbn in *. inversion Fg; subst. rewrite sum_one. split; [reflexivity|]. split; [assumption|exact N1].
  - apply obind_inv in H. destruct H as [w [Hw H]].
    unfold gains, factors, same in *.
    destruct o as [x|x|[]|[]|x|x|x]; cbn in *; rewrite ?app_nil_r in *; unfold q_add in H;
      try (apply Forall_app in Fg; destruct Fg as [Fg Fx]); try (apply Forall_app in Ff; destruct Ff as [Ff Fx]);
      try (destruct (IH Fg Ff w Hw) as [A [O M]]).
    + apply obind_inv in H. destruct H as [a [Ha H]]. apply checked_add in Ha. destruct Ha as [-> Ha].
      inversion H; subst. cbn. rewrite sum_app, sum_one, <- A. auto.
    + apply obind_inv in H. destruct H as [a [Ha H]]. inversion H; subst. cbn.
      split; [exact A|]. split; [exact O|]. apply (multiplies_mul t _ _ (mult w) x); [exact M| |exact Ha].
      apply multiplies_one. inversion Fx; subst. assumption.
    + inversion H; subst. auto.
    + inversion H; subst. auto.
    + inversion H; subst. cbn in *. inversion Fg; subst. rewrite sum_one. auto.
  - apply obind_inv in H. destruct H as [w1 [H1 H]]. apply obind_inv in H. destruct H as [w2 [H2 H]].
    unfold gains, factors, same in *. cbn in *.
    apply Forall_app in Fg, Ff. destruct Fg as [Fg1 Fg2], Ff as [Ff1 Ff2].
    destruct (IHh Fg1 Ff1 w1 H1) as [A1 [O1 M1]], (IHk Fg2 Ff2 w2 H2) as [A2 [O2 M2]].
    apply obind_inv in H. destruct H as [a [Ha H]]. apply checked_add in Ha. destruct Ha as [-> Ha].
    apply obind_inv in H. destruct H as [m [Hm H]].
    inversion H; subst. cbn. rewrite sum_app, A1, A2. rewrite A1, A2 in Ha. split; [reflexivity|]. split; [exact Ha|].
    eapply multiplies_mul; [exact M1|exact M2|exact Hm].
Qed.

Lemma frac_result_bounded R t (v : quad Z ratio) r los his l :
  vmin v = largest (imin t) los -> vmax v = smallest (imax t) his ->
  multiplies t l (mult v) -> 0 < under l -> frac_result R v r ->
  exists y, rounds_to R (addend v * over l) (under l) y /\ r = bounded t los his y.
Proof.
  intros L U [[[_ Hd] _] M] Hu [y [Y ->]]. exists y. split.
  - apply (rounds_to_eqv R (addend v * numer (mult v)) (denom (mult v))); [lia|exact Hu| |exact Y].
    rewrite <- !Z.mul_assoc. f_equal. exact M.
  - unfold bounded. rewrite L, U. reflexivity.
Qed.

Lemma C58_StatIntFraction_checked_proof :
  forall t R (h : history (statIntFraction true (prim t) R)) r,
  Forall (ity_ok t) (gains h same same) -> Forall (reduced t) (factors h same) ->
  worth h = Done r ->
  exists y, rounds_to R (sum (gains h same same) * over (factors h same)) (under (factors h same)) y /\
    r = bounded t (floors h same) (ceilings h same) y.
Proof.
  intros t R h r Fg Ff H. unfold worth in H. apply obind_inv in H. destruct H as [v [Hv H]].
  destruct (frac_checked t R h Fg Ff v Hv) as [A [O M]]. destruct (frac_bounds _ _ _ h v Hv) as [L U].
  rewrite <- A. apply frac_result_bounded; [exact L|exact U|exact M|apply (under_pos t); exact Ff|].
  apply (frac_exact (prim t) R v r); [apply M|exact O|exact H].
Qed.

Lemma room_frac_app l l' : room_frac (l ++ l') = room_frac l * room_frac l'.
Proof. unfold room_frac. rewrite map_app. apply product_app. Qed.
Lemma room_frac_cons r l : room_frac (r :: l) = Z.max (Z.abs (numer r)) (denom r) * room_frac l.
Proof. reflexivity. Qed.
Lemma room_frac_pos t l : Forall (reduced t) l -> 1 <= room_frac l.
Proof.
  intros H. induction H as [|r l [[_ Hd] _] _ IH]; [reflexivity|]. rewrite room_frac_cons. nia.
Qed.
Lemma over_room t l : Forall (reduced t) l -> Z.abs (over l) <= room_frac l.
Proof.
  intros H. induction H as [|r l [[_ Hd] _] Hl IH]; [reflexivity|]. rewrite room_frac_cons.
  change (over (r :: l)) with (numer r * over l). rewrite Z.abs_mul. pose proof (room_frac_pos t l Hl).
  apply Z.mul_le_mono_nonneg; lia.
Qed.
Lemma under_room t l : Forall (reduced t) l -> under l <= room_frac l.
Proof.
  intros H. induction H as [|r l [[_ Hd] _] Hl IH]; [reflexivity|]. rewrite room_frac_cons.
  change (under (r :: l)) with (denom r * under l). pose proof (room_frac_pos t l Hl). pose proof (under_pos t l Hl).
  apply Z.mul_le_mono_nonneg; lia.
Qed.
Lemma over_unsigned t l : signed t = false -> Forall (reduced t) l -> 0 <= over l.
Proof.
  intros U H. induction H as [|r l [[Hn _] _] Hl IH]; [discriminate|].
  change (over (r :: l)) with (numer r * over l). rewrite unsigned_imin in Hn by exact U. nia.
Qed.
Lemma room_frac_le_l t l l' m : Forall (reduced t) (l ++ l') -> room_frac (l ++ l') <= m -> room_frac l <= m.
Proof.
  intros H. apply Forall_app in H. destruct H as [H H']. rewrite room_frac_app.
  pose proof (room_frac_pos t l H). pose proof (room_frac_pos t l' H'). nia.
Qed.
Lemma room_frac_le_r t l l' m : Forall (reduced t) (l ++ l') -> room_frac (l ++ l') <= m -> room_frac l' <= m.
Proof.
  intros H. apply Forall_app in H. destruct H as [H H']. rewrite room_frac_app.
  pose proof (room_frac_pos t l H). pose proof (room_frac_pos t l' H'). nia.
Qed.

Lemma toQ_multiplies t l m : multiplies t l m -> 0 < under l -> (toQ m == Qmake (over l) (Z.to_pos (under l)))%Q.
Proof.
  intros [[[_ Hd] _] E] Hu. unfold toQ, Qeq. cbn. rewrite !Z2Pos.id by lia. exact E.
Qed.

Lemma multiplies_fits oc t l l' m m' : Forall (reduced t) (l ++ l') -> room_frac (l ++ l') <= imax t ->
  multiplies t l m -> multiplies t l' m' -> exists z, r_mul oc t m m' = Done z /\ multiplies t (l ++ l') z.
Proof.
  intros F Hr M M'. pose proof (over_room t _ F). pose proof (under_room t _ F). pose proof (under_pos t _ F) as Hu.
  assert (O : ity_ok t (over (l ++ l'))).
  { apply fits_by_size; [lia|]. intros U. apply (over_unsigned t); assumption. }
  destruct (r_reduce_positive t (Frac (over (l ++ l')) (under (l ++ l'))) oc O ltac:(cbn [denom]; lia)) as [z [_ [Rz N]]].
  cbn [numer denom] in N. exists z. split; [|split; [exact Rz|exact N]].
  apply Forall_app in F. destruct F as [F F'].
  pose proof (under_pos t _ F) as Hl. pose proof (under_pos t _ F') as Hl'.
  apply mul_complete; [apply M|apply M'|exact Rz|].
  rewrite (toQ_multiplies t l m M Hl), (toQ_multiplies t l' m' M' Hl').
  rewrite (toQ_multiplies t (l ++ l') z (conj Rz N) Hu). rewrite over_app, under_app.
  unfold Qeq, Qmult. cbn. rewrite Pos2Z.inj_mul, !Z2Pos.id by nia. reflexivity.
Qed.

Lemma frac_fits oc T R (h : history (statIntFraction oc T R)) : steady h ->
  Forall (z_ok T) (gains h same same) -> Forall (reduced (i_ty T)) (factors h same) ->
  room (gains h same same) <= imax (i_ty T) -> room_frac (factors h same) <= imax (i_ty T) ->
  exists v, value_of h = Done v /\ addend v = sum (gains h same same) /\
    multiplies (i_ty T) (factors h same) (mult v).
Proof.
  set (t := i_ty T). intros St Fg Ff Rg Rf.
  assert (N1 : multiplies t [] (r_int 1)) by (split; [apply one_reduced|reflexivity]).
  induction h as [|b|h IH o|h IHh k IHk]; cbn [value_of].
  - eexists. split; [reflexivity|]. split; [reflexivity|exact N1].
  - eexists. split; [reflexivity|]. cbn. unfold same. rewrite sum_one. split; [reflexivity|exact N1].
  - destruct St as [St So]. unfold gains, factors, same in *.
    pose proof (sum_fits t _ Fg Rg) as S1.
    destruct o as [x|x|[]|[]|x|x|x]; try destruct So; cbn in *; rewrite ?app_nil_r in *.
    + apply Forall_app in Fg. destruct (IH St (proj1 Fg) Ff (room_le_l _ _ _ Rg) Rf) as [w [-> [A M]]]. cbn.
      unfold q_add, i_add. rewrite A. rewrite (sum_app _ [x]), sum_one in *. rewrite i_norm_id by exact S1. cbn.
      eexists. split; [reflexivity|]. cbn. auto.
    + pose proof Ff as F. apply Forall_app in Ff. destruct Ff as [Ff Fx]. inversion Fx as [|? ? Rx _]; subst.
      destruct (IH St Fg Ff Rg (room_frac_le_l t _ _ _ F Rf)) as [w [-> [A M]]]. cbn.
      destruct (multiplies_fits oc t _ _ _ _ F Rf M (multiplies_one t x Rx)) as [z [Ez Mz]].
      fold t. rewrite Ez. cbn. eexists. split; [reflexivity|]. cbn. auto.
    + destruct (IH St Fg Ff Rg Rf) as [w [-> [A M]]]. cbn. eexists. split; [reflexivity|]. auto.
    + destruct (IH St Fg Ff Rg Rf) as [w [-> [A M]]]. cbn. eexists. split; [reflexivity|]. auto.
  - destruct St as [Sh Sk]. unfold gains, factors, same in *. cbn in *.
    pose proof (sum_fits t _ Fg Rg) as S1. pose proof Ff as F.
    apply Forall_app in Fg, Ff. destruct Fg as [Fg1 Fg2], Ff as [Ff1 Ff2].
    destruct (IHh Sh Fg1 Ff1 (room_le_l _ _ _ Rg) (room_frac_le_l t _ _ _ F Rf)) as [w1 [-> [A1 M1]]].
    destruct (IHk Sk Fg2 Ff2 (room_le_r _ _ _ Rg) (room_frac_le_r t _ _ _ F Rf)) as [w2 [-> [A2 M2]]].
    cbn. unfold i_add. rewrite A1, A2. rewrite !sum_app in *. rewrite i_norm_id by exact S1. cbn.
    destruct (multiplies_fits oc t _ _ _ _ F Rf M1 M2) as [z [Ez Mz]]. fold t. rewrite Ez. cbn.
    eexists. split; [reflexivity|]. auto.
Qed.

Lemma C58_StatIntFraction_fits_proof :
  forall oc T R (h : history (statIntFraction oc T R)),
  steady h -> Forall (z_ok T) (gains h same same) -> Forall (reduced (i_ty T)) (factors h same) ->
  room (gains h same same) <= imax (i_ty T) -> room_frac (factors h same) <= imax (i_ty T) ->
  z_ok T (sum (gains h same same) * over (factors h same)) ->
  ~ round_overflows R (i_ty T) (sum (gains h same same) * over (factors h same)) (under (factors h same)) ->
  exists y, rounds_to R (sum (gains h same same) * over (factors h same)) (under (factors h same)) y /\
    worth h = Done (bounded (i_ty T) (floors h same) (ceilings h same) y).
Proof.
  intros oc T R h St Fg Ff Rg Rf P1 P2. set (t := i_ty T) in *.
  destruct (frac_fits oc T R h St Fg Ff Rg Rf) as [v [Hv [A M]]].
  destruct (frac_bounds _ _ _ h v Hv) as [L U].
  pose proof (sum_fits t _ Fg Rg) as O. rewrite <- A in *.
  pose proof (under_room t _ Ff) as Hur. pose proof (under_pos t _ Ff) as Hu.
  destruct (r_reduce_positive t (Frac (addend v * over (factors h same)) (under (factors h same))) oc P1
              ltac:(cbn [denom]; lia)) as [z [_ [Rz N]]]. cbn [numer denom] in N.
  assert (Q : (toQ z == toQ (mult v) * inject_Z (addend v))%Q).
  { rewrite (toQ_multiplies t _ _ M Hu). destruct Rz as [[_ Hz] _].
    unfold toQ, inject_Z, Qeq, Qmult. cbn [Qnum Qden]. rewrite Pos.mul_1_r, !Z2Pos.id by lia.
    rewrite N, (Z.mul_comm (addend v)). reflexivity. }
  destruct (frac_total oc T R v z (proj1 M) O Rz Q) as [r [E Pr]].
  { apply (overflows_reduced R t (addend v * over (factors h same)) (under (factors h same))); try assumption.
    - destruct Rz as [[_ Hz] _]. lia.
    - apply (reduced_smaller t (addend v * over (factors h same))); assumption. }
  destruct (frac_result_bounded R t v r _ _ _ L U M Hu Pr) as [y [Y ->]].
  exists y. split; [exact Y|]. unfold worth. rewrite Hv. exact E.
Qed.

(** ** StatIntPercent: a single value *)
Lemma pow_S_len (s : Z) (l : list Z) x : s ^ Z.of_nat (length (l ++ [x])) = s ^ Z.of_nat (length l) * s.
Proof.
  rewrite app_length. cbn [length]. rewrite Nat.add_1_r, Nat2Z.inj_succ, Z.pow_succ_r by lia. ring.
Qed.

(** [m] is the product of the percentages in [l]. *)
Definition percents (t : ity) (s : Z) (l : list Z) (m : ratio) : Prop :=
  reduced t m /\ numer m * s ^ Z.of_nat (length l) = product l * denom m.

Lemma percents_step (s : Z) (l : list Z) (x : Z) (w f m : ratio) : 0 < denom w -> 0 < denom f ->
  numer w * s ^ Z.of_nat (length l) = product l * denom w -> numer f * s = x * denom f ->
  numer m * (denom w * denom f) = numer w * numer f * denom m ->
  numer m * s ^ Z.of_nat (length (l ++ [x])) = product (l ++ [x]) * denom m.
Proof.
  intros D1 D2 Nw Nf Nm. rewrite pow_S_len, product_app, product_one.
  apply (Z.mul_reg_r _ _ (denom w * denom f)); [nia|]. set (k := s ^ _) in *.
  replace (numer m * (k * s) * (denom w * denom f)) with (numer m * (denom w * denom f) * (k * s)) by ring.
  rewrite Nm. replace (numer w * numer f * denom m * (k * s)) with ((numer w * k) * (numer f * s) * denom m) by ring.
  rewrite Nw, Nf. ring.
Qed.

Lemma pct_alone t R scale s (h : history (statPct true (prim t) R scale)) :
  from_i64 t scale = Done s -> 0 < s -> alone h ->
  Forall (ity_ok t) (gains h same same) -> Forall (ity_ok t) (factors h same) ->
  forall v, value_of h = Done v ->
  (based h -> addend v = sum (gains h same same)) /\ (~ based h -> addend v = 1 + sum (gains h same same)) /\
  ity_ok t (addend v) /\ percents t s (factors h same) (mult v).
Proof.
  intros Es Hs.
  assert (N1 : percents t s [] (r_int 1)) by (split; [apply one_reduced|reflexivity]).
  assert (Rs : ity_ok t s).
  { unfold from_i64 in Es. apply obind_inv in Es. destruct Es as [c [_ Es]]. inversion Es. apply wrap_range. }
  induction h as [|b|h IH o|h IHh k IHk]; intros Al Fg Ff v H; cbn [value_of] in H; [| | |destruct Al].
  - inversion H; subst. split; [intros []|]. split; [reflexivity|]. split; [|exact N1].
    cbn. unfold ity_ok. pose proof (imin_le0 t). pose proof (imax_ge127 t). lia.
  - inversion H; subst. cbn in *. inversion Fg; subst. rewrite sum_one.
    split; [reflexivity|]. split; [intros N; destruct (N I)|]. split; [assumption|exact N1].
  - apply obind_inv in H. destruct H as [w [Hw H]].
    unfold gains, factors, same in *.
    destruct o as [x|x|[]|[]|x|x|x]; cbn in Al, Fg, Ff, H |- *; rewrite ?app_nil_r in *; unfold q_add in H;
      try (apply Forall_app in Fg; destruct Fg as [Fg Fx]); try (apply Forall_app in Ff; destruct Ff as [Ff Fx]);
      try (destruct (IH Al Fg Ff w Hw) as [A [B [O M]]]).
    + apply obind_inv in H. destruct H as [a [Ha H]]. apply checked_add in Ha. destruct Ha as [-> Ha].
      inversion H; subst. cbn. rewrite sum_app, sum_one. split; [|split; [|auto]].
      * intros P. rewrite (A P). reflexivity.
      * intros P. rewrite (B P), Z.add_assoc. reflexivity.
    + rewrite Es in H. cbn [obind] in H. apply obind_inv in H. destruct H as [f [Hf H]].
      apply obind_inv in H. destruct H as [m [Hm H]]. inversion H; subst. cbn.
      inversion Fx as [|? ? Ox _]; subst.
      destruct (r_new_true_valid t x s f Ox Rs Hf Hs) as [Rf Nf].
      destruct M as [Rw Nw]. destruct (r_mul_spec t _ _ m (proj1 Rw) (proj1 Rf) Hm) as [Rm Nm].
      split; [exact A|]. split; [exact B|]. split; [exact O|]. split; [exact Rm|].
      apply (percents_step s _ x (mult w) f m); [apply Rw|apply Rf|exact Nw|exact Nf|exact Nm].
    + inversion H; subst. auto.
    + inversion H; subst. auto.
    + inversion H; subst. cbn. inversion Fg; subst. rewrite sum_one.
      split; [reflexivity|]. split; [intros N; destruct (N I)|]. split; [assumption|exact N1].
Qed.

Lemma pct_eval_true t R scale (v : quad Z ratio) r :
  sv_eval (statPct true (prim t) R scale) v = Done r -> reduced t (mult v) -> ity_ok t (addend v) ->
  exists y, rounds_to R (addend v * numer (mult v)) (denom (mult v)) y /\ r = i_bound v y.
Proof.
  intros H [Vm _] Ha. cbn in H. apply obind_inv in H. destruct H as [z [E1 H]].
  destruct (r_mul_spec t _ _ z (valid_r_int t _ Ha) Vm E1) as [Rz N]. unfold r_int in N. cbn [numer denom] in N. rewrite Z.mul_1_l in N.
  apply obind_inv in H. destruct H as [y [E2 H]]. injection H as <-.
  exists y. pose proof (round_to_int_true R t z y (proj1 Rz) E2) as P. destruct Rz as [[_ Hz] _], Vm as [_ Hm]. split.
  - apply (rounds_to_eqv R (numer z) (denom z)); [lia|lia|lia|exact P].
  - reflexivity.
Qed.

Lemma pct_worth t R scale s (h : history (statPct true (prim t) R scale)) r a :
  from_i64 t scale = Done s -> 0 < s -> alone h ->
  Forall (ity_ok t) (gains h same same) -> Forall (ity_ok t) (factors h same) ->
  (forall v, value_of h = Done v -> addend v = a) ->
  worth h = Done r ->
  exists y, rounds_to R (a * product (factors h same)) (s ^ Z.of_nat (length (factors h same))) y /\
    r = bounded t (floors h same) (ceilings h same) y.
Proof.
  intros Es Hs Al Fg Ff Ha H. unfold worth in H. apply obind_inv in H. destruct H as [v [Hv H]].
  destruct (pct_alone t R scale s h Es Hs Al Fg Ff v Hv) as [_ [_ [O M]]].
  destruct (pct_eval_true t R scale v r H (proj1 M) O) as [y [Y ->]].
  exists y. split.
  - rewrite <- (Ha v Hv). destruct M as [[[_ Hd] _] E].
    apply (rounds_to_eqv R (addend v * numer (mult v)) (denom (mult v))); [lia|apply Z.pow_pos_nonneg; lia| |exact Y].
    rewrite <- !Z.mul_assoc. f_equal. exact E.
  - apply (i_bound_is (S := statPct true (prim t) R scale) _ (fun v => v) _ _ _ _ (pct_bounds _ _ _ _ h v Hv)).
Qed.

Lemma C58_StatIntPercent_based_proof :
  forall t R scale s (h : history (statPct true (prim t) R scale)) r,
  from_i64 t scale = Done s -> 0 < s -> alone h -> based h ->
  Forall (ity_ok t) (gains h same same) -> Forall (ity_ok t) (factors h same) ->
  worth h = Done r ->
  exists y, rounds_to R (sum (gains h same same) * product (factors h same))
      (s ^ Z.of_nat (length (factors h same))) y /\
    r = bounded t (floors h same) (ceilings h same) y.
Proof.
  intros t R scale s h r Es Hs Al B Fg Ff. apply (pct_worth t R scale s h r); try assumption.
  intros v Hv. apply (pct_alone t R scale s h Es Hs Al Fg Ff v Hv). exact B.
Qed.
Lemma C58_StatIntPercent_default_proof :
  forall t R scale s (h : history (statPct true (prim t) R scale)) r,
  from_i64 t scale = Done s -> 0 < s -> alone h -> ~ based h ->
  Forall (ity_ok t) (gains h same same) -> Forall (ity_ok t) (factors h same) ->
  worth h = Done r ->
  exists y, rounds_to R ((1 + sum (gains h same same)) * product (factors h same))
      (s ^ Z.of_nat (length (factors h same))) y /\
    r = bounded t (floors h same) (ceilings h same) y.
Proof.
  intros t R scale s h r Es Hs Al B Fg Ff. apply (pct_worth t R scale s h r); try assumption.
  intros v Hv. apply (pct_alone t R scale s h Es Hs Al Fg Ff v Hv). exact B.
Qed.
