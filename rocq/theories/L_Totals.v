From Coq Require Import ZArith QArith Lia Bool List.
From Verif Require Import M_Outcome M_Ints M_Ratio M_Float M_Value M_Types S_Ratio S_Types S_Totals
  L_Outcome L_Ints L_Ratio L_Round L_RatioQ L_Types L_Types2 L_Types3.
Import ListNotations.
Local Open Scope Z_scope.
Local Arguments Z.mul : simpl never.
Local Arguments Z.add : simpl never.
Local Arguments Z.max : simpl never.
Local Arguments Z.min : simpl never.
Local Arguments i_add : simpl never.
Local Arguments i_mul : simpl never.
Local Arguments i_min : simpl never.
Local Arguments i_max : simpl never.
Local Arguments r_mul : simpl never.
Local Arguments r_add : simpl never.

Lemma sum_app l l' : sum (l ++ l') = sum l + sum l'.
Proof. unfold sum. induction l as [|x l IH]; cbn; lia. Qed.
Lemma product_app l l' : product (l ++ l') = product l * product l'.
Proof. unfold product. induction l as [|x l IH]; cbn; [lia|]. rewrite IH. ring. Qed.
Lemma sum_one x : sum [x] = x. Proof. cbn. lia. Qed.
Lemma product_one x : product [x] = x. Proof. cbn. lia. Qed.

Lemma largest_max l : forall a b, largest (Z.max a b) l = Z.max a (largest b l).
Proof.
  induction l as [|x l IH]; intros a b; [reflexivity|].
  unfold largest in *. cbn [fold_left]. rewrite <- Z.max_assoc. apply IH.
Qed.
Lemma smallest_min l : forall a b, smallest (Z.min a b) l = Z.min a (smallest b l).
Proof.
  induction l as [|x l IH]; intros a b; [reflexivity|].
  unfold smallest in *. cbn [fold_left]. rewrite <- Z.min_assoc. apply IH.
Qed.
Lemma largest_self l a : a <= largest a l.
Proof. rewrite <- (Z.max_id a) at 2. rewrite largest_max. lia. Qed.
Lemma smallest_self l a : smallest a l <= a.
Proof. rewrite <- (Z.min_id a) at 1. rewrite smallest_min. lia. Qed.
Lemma largest_app a l l' : largest a (l ++ l') = Z.max (largest a l) (largest a l').
Proof.
  unfold largest. rewrite fold_left_app. fold (largest a l) (largest (largest a l) l') (largest a l').
  rewrite <- largest_max. f_equal. pose proof (largest_self l a). lia.
Qed.
Lemma smallest_app a l l' : smallest a (l ++ l') = Z.min (smallest a l) (smallest a l').
Proof.
  unfold smallest. rewrite fold_left_app. fold (smallest a l) (smallest (smallest a l) l') (smallest a l').
  rewrite <- smallest_min. f_equal. pose proof (smallest_self l a). lia.
Qed.
Lemma largest_snoc a l x : largest a (l ++ [x]) = Z.max (largest a l) x.
Proof. unfold largest. rewrite fold_left_app. reflexivity. Qed.
Lemma smallest_snoc a l x : smallest a (l ++ [x]) = Z.min (smallest a l) x.
Proof. unfold smallest. rewrite fold_left_app. reflexivity. Qed.

Local Arguments largest : simpl never.
Local Arguments smallest : simpl never.
Local Arguments sum : simpl never.
Local Arguments product : simpl never.

(** Bounds of a value with fields of [quad Z M], any of the integer types. *)
Definition bounds_are {S : StatValue} {M} (t : ity) (q : val S -> quad Z M) (bnd : boundsT S -> Z)
    (h : history S) (v : val S) : Prop :=
  vmin (q v) = largest (imin t) (floors h bnd) /\ vmax (q v) = smallest (imax t) (ceilings h bnd).

Ltac step_inv H :=
  cbn in H; unfold q_add, q_min, q_max in H; cbn in H; inv_done H; inversion H; subst; clear H.

Ltac bounds_tac :=
  let h := fresh "h" in let o := fresh "o" in let b := fresh "b" in let k := fresh "k" in
  let IHh := fresh "IHh" in let IHk := fresh "IHk" in let v := fresh "v" in let H := fresh "H" in
  intros h; induction h as [|b|h IHh o|h IHh k IHk]; intros v H;
  [ inversion H; subst; split; reflexivity
  | inversion H; subst; split; reflexivity
  | cbn [value_of] in H; apply obind_inv in H; destruct H as [w [H0 H]];
    destruct (IHh w H0) as [L U]; destruct o as [x|x|[]|[]|x|x|x];
    step_inv H; unfold bounds_are, floors, ceilings, same in *; cbn in *;
    rewrite ?app_nil_r, ?largest_snoc, ?smallest_snoc, ?i_max_eq, ?i_min_eq, ?L, ?U; split; reflexivity
  | cbn [value_of] in H; apply obind_inv in H; destruct H as [w1 [H1 H]];
    apply obind_inv in H; destruct H as [w2 [H2 H]];
    destruct (IHh w1 H1) as [L1 U1]; destruct (IHk w2 H2) as [L2 U2];
    step_inv H; unfold bounds_are, floors, ceilings in *; cbn in *;
    rewrite largest_app, smallest_app, i_max_eq, i_min_eq, L1, L2, U1, U2; split; reflexivity ].

Lemma int_bounds oc T (h : history (statInt oc T)) : forall v, value_of h = Done v ->
  bounds_are (i_ty T) (S := statInt oc T) (fun v => v) same h v.
Proof. revert h. bounds_tac. Qed.
Lemma pctadd_bounds oc T R scale (h : history (statPctAdd oc T R scale)) : forall v, value_of h = Done v ->
  bounds_are (i_ty T) (S := statPctAdd oc T R scale) (fun v => v) same h v.
Proof. revert h. bounds_tac. Qed.
Lemma frac_bounds oc T R (h : history (statIntFraction oc T R)) : forall v, value_of h = Done v ->
  bounds_are (i_ty T) (S := statIntFraction oc T R) (fun v => v) same h v.
Proof. revert h. bounds_tac. Qed.
Lemma pct_bounds oc T R scale (h : history (statPct oc T R scale)) : forall v, value_of h = Done v ->
  bounds_are (i_ty T) (S := statPct oc T R scale) (fun v => v) same h v.
Proof. revert h. bounds_tac. Qed.

Lemma i_bound_is {S : StatValue} {M} t (q : val S -> quad Z M) bnd (h : history S) v x :
  bounds_are t q bnd h v -> i_bound (q v) x = bounded t (floors h bnd) (ceilings h bnd) x.
Proof. intros [L U]. unfold i_bound, bounded. rewrite i_max_eq, i_min_eq, L, U. reflexivity. Qed.

(** ** Arithmetic: checked, wrapping, and with room *)
Lemma checked_norm t z c : i_norm true (prim t) z = Done c -> c = z /\ ity_ok t z.
Proof. apply chk_true_inv. Qed.
Lemma checked_add t a b c : i_add true (prim t) a b = Done c -> c = a + b /\ ity_ok t c.
Proof. intros H. apply checked_norm in H. destruct H as [-> H]. auto. Qed.
Lemma checked_mul t a b c : i_mul true (prim t) a b = Done c -> c = a * b /\ ity_ok t c.
Proof. intros H. apply checked_norm in H. destruct H as [-> H]. auto. Qed.

Lemma room_app l l' : room (l ++ l') = room l + room l'.
Proof. unfold room. rewrite map_app. apply sum_app. Qed.
Lemma room_mul_app l l' : room_mul (l ++ l') = room_mul l * room_mul l'.
Proof. unfold room_mul. rewrite map_app. apply product_app. Qed.
Lemma room_cons x l : room (x :: l) = Z.abs x + room l. Proof. reflexivity. Qed.
Lemma room_mul_cons x l : room_mul (x :: l) = Z.max 1 (Z.abs x) * room_mul l. Proof. reflexivity. Qed.
Lemma room_nonneg l : 0 <= room l.
Proof. induction l as [|x l IH]; [reflexivity|]. rewrite room_cons. lia. Qed.
Lemma room_mul_pos l : 1 <= room_mul l.
Proof. induction l as [|x l IH]; [reflexivity|]. rewrite room_mul_cons. nia. Qed.
Lemma sum_room l : Z.abs (sum l) <= room l.
Proof.
  induction l as [|x l IH]; [reflexivity|]. rewrite room_cons. change (sum (x :: l)) with (x + sum l). lia.
Qed.
Lemma product_room l : Z.abs (product l) <= room_mul l.
Proof.
  induction l as [|x l IH]; [reflexivity|]. rewrite room_mul_cons. change (product (x :: l)) with (x * product l).
  rewrite Z.abs_mul. pose proof (room_mul_pos l). apply Z.mul_le_mono_nonneg; lia.
Qed.
Lemma sum_unsigned l : Forall (fun x => 0 <= x) l -> 0 <= sum l.
Proof. intros H. induction H; [reflexivity|]. change (sum (x :: l)) with (x + sum l). lia. Qed.
Lemma product_unsigned l : Forall (fun x => 0 <= x) l -> 0 <= product l.
Proof. intros H. induction H; [discriminate|]. change (product (x :: l)) with (x * product l). nia. Qed.
Lemma unsigned_nonneg t l : signed t = false -> Forall (ity_ok t) l -> Forall (fun x => 0 <= x) l.
Proof. intros U. apply Forall_impl. intros x [H _]. rewrite unsigned_imin in H by exact U. exact H. Qed.

Lemma fits_by_size t x : Z.abs x <= imax t -> (signed t = false -> 0 <= x) -> ity_ok t x.
Proof.
  intros H U. destruct (signed t) eqn:E; unfold ity_ok.
  - rewrite signed_imin by exact E. lia.
  - rewrite unsigned_imin by exact E. specialize (U eq_refl). lia.
Qed.
Lemma sum_fits t l : Forall (ity_ok t) l -> room l <= imax t -> ity_ok t (sum l).
Proof.
  intros F H. apply fits_by_size; [pose proof (sum_room l); lia|].
  intros U. apply sum_unsigned. eapply unsigned_nonneg; eassumption.
Qed.
Lemma product_fits t l : Forall (ity_ok t) l -> room_mul l <= imax t -> ity_ok t (product l).
Proof.
  intros F H. apply fits_by_size; [pose proof (product_room l); lia|].
  intros U. apply product_unsigned. eapply unsigned_nonneg; eassumption.
Qed.

(** Splitting the hypotheses on the contributions of a history. *)
Lemma room_le_l l l' m : room (l ++ l') <= m -> room l <= m.
Proof. rewrite room_app. pose proof (room_nonneg l'). lia. Qed.
Lemma room_le_r l l' m : room (l ++ l') <= m -> room l' <= m.
Proof. rewrite room_app. pose proof (room_nonneg l). lia. Qed.
Lemma room_mul_le_l l l' m : room_mul (l ++ l') <= m -> room_mul l <= m.
Proof. rewrite room_mul_app. pose proof (room_mul_pos l'). pose proof (room_mul_pos l). nia. Qed.
Lemma room_mul_le_r l l' m : room_mul (l ++ l') <= m -> room_mul l' <= m.
Proof. rewrite room_mul_app. pose proof (room_mul_pos l'). pose proof (room_mul_pos l). nia. Qed.

(** ** StatInt *)
Lemma int_checked t (h : history (statInt true (prim t))) : forall v, value_of h = Done v ->
  addend v = sum (gains h same same) /\ mult v = product (factors h same).
Proof.
  induction h as [|b|h IH o|h IHh k IHk]; intros v H; cbn [value_of] in H.
  - inversion H; subst. split; reflexivity.
  - inversion H; subst. cbn. rewrite sum_one. split; reflexivity.
  - apply obind_inv in H. destruct H as [w [Hw H]]. destruct (IH w Hw) as [A M]. clear IH.
    unfold gains, factors, same in *.
    destruct o as [x|x|[]|[]|x|x|x]; cbn in H; unfold q_add in H.
    + apply obind_inv in H. destruct H as [a [Ha H]]. apply checked_add in Ha. inversion H; subst. cbn.
      rewrite sum_app, sum_one, app_nil_r. destruct Ha as [-> _]. rewrite A. auto.
    + apply obind_inv in H. destruct H as [a [Ha H]]. apply checked_mul in Ha. inversion H; subst. cbn.
      rewrite product_app, product_one, app_nil_r. destruct Ha as [-> _]. rewrite M. auto.
    + inversion H; subst. cbn. rewrite !app_nil_r. auto.
    + inversion H; subst. cbn. rewrite !app_nil_r. auto.
    + inversion H; subst. cbn. rewrite sum_one. auto.
  - apply obind_inv in H. destruct H as [w1 [H1 H]]. apply obind_inv in H. destruct H as [w2 [H2 H]].
    destruct (IHh w1 H1) as [A1 M1], (IHk w2 H2) as [A2 M2]. cbn in H.
    apply obind_inv in H. destruct H as [a [Ha H]]. apply checked_add in Ha. destruct Ha as [-> _].
    apply obind_inv in H. destruct H as [m [Hm H]]. apply checked_mul in Hm. destruct Hm as [-> _].
    inversion H; subst. unfold gains, factors, same in *. cbn. rewrite sum_app, product_app, A1, A2, M1, M2. auto.
Qed.

Lemma C58_StatInt_checked_proof : forall t (h : history (statInt true (prim t))) r,
  worth h = Done r ->
  r = bounded t (floors h same) (ceilings h same) (sum (gains h same same) * product (factors h same)).
Proof.
  intros t h r H. unfold worth in H. apply obind_inv in H. destruct H as [v [Hv H]].
  destruct (int_checked t h v Hv) as [A M]. pose proof (int_bounds _ _ h v Hv) as B.
  cbn in H. apply obind_inv in H. destruct H as [p [Hp H]]. apply checked_mul in Hp. destruct Hp as [-> _].
  injection H as <-. rewrite (i_bound_is (S := statInt true (prim t)) _ _ _ _ _ _ B).
  rewrite A, M. reflexivity.
Qed.

Lemma int_wraps oc T (h : history (statInt oc T)) : wraps oc T -> exists v, value_of h = Done v /\
  wrap (i_ty T) (addend v) = wrap (i_ty T) (sum (gains h same same)) /\
  wrap (i_ty T) (mult v) = wrap (i_ty T) (product (factors h same)).
Proof.
  intros W. induction h as [|b|h IH o|h IHh k IHk]; cbn [value_of].
  - eexists. split; [reflexivity|]. split; reflexivity.
  - eexists. split; [reflexivity|]. cbn. unfold same. rewrite sum_one. split; reflexivity.
  - destruct IH as [w [-> [A M]]]. cbn [obind]. unfold gains, factors, same in *.
    destruct o as [x|x|[]|[]|x|x|x]; cbn; unfold q_add.
    + unfold i_add. rewrite wraps_norm by exact W. cbn. eexists. split; [reflexivity|]. cbn.
      rewrite sum_app, sum_one, app_nil_r, wrap_id by apply wrap_range. split; [|exact M].
      rewrite <- wrap_add_l, A, wrap_add_l. reflexivity.
    + unfold i_mul. rewrite wraps_norm by exact W. cbn. eexists. split; [reflexivity|]. cbn.
      rewrite product_app, product_one, app_nil_r. split; [exact A|].
      rewrite (wrap_id _ (wrap _ _)) by apply wrap_range. rewrite <- wrap_mul_l, M, wrap_mul_l. reflexivity.
    + eexists. split; [reflexivity|]. cbn. rewrite !app_nil_r. auto.
    + eexists. split; [reflexivity|]. cbn. rewrite !app_nil_r. auto.
    + eexists. split; [reflexivity|]. cbn. rewrite sum_one. auto.
  - destruct IHh as [w1 [-> [A1 M1]]], IHk as [w2 [-> [A2 M2]]]. cbn. unfold i_add, i_mul.
    rewrite !wraps_norm by exact W. cbn. eexists. split; [reflexivity|]. cbn.
    unfold gains, factors, same in *. cbn. rewrite sum_app, product_app, !(wrap_id _ (wrap _ _)) by apply wrap_range. split.
    + rewrite <- wrap_add_l, <- wrap_add_r, A1, A2, wrap_add_l, wrap_add_r. reflexivity.
    + rewrite <- wrap_mul_l, <- wrap_mul_r, M1, M2, wrap_mul_l, wrap_mul_r. reflexivity.
Qed.

Lemma C58_StatInt_wrapping_proof : forall oc T (h : history (statInt oc T)),
  i_flav T = FWrapping \/ (i_flav T = FPrim /\ oc = false) ->
  worth h = Done (bounded (i_ty T) (floors h same) (ceilings h same)
                    (wrap (i_ty T) (sum (gains h same same) * product (factors h same)))).
Proof.
  intros oc T h W. destruct (int_wraps oc T h W) as [v [Hv [A M]]]. unfold worth. rewrite Hv. cbn.
  unfold i_mul. rewrite wraps_norm by exact W. cbn. f_equal.
  rewrite (i_bound_is (S := statInt oc T) _ _ _ _ _ _ (int_bounds _ _ h v Hv)). f_equal.
  rewrite <- wrap_mul_l, <- wrap_mul_r, A, M, wrap_mul_l, wrap_mul_r. reflexivity.
Qed.

Lemma int_fits oc T (h : history (statInt oc T)) : steady h ->
  Forall (z_ok T) (gains h same same) -> Forall (z_ok T) (factors h same) ->
  room (gains h same same) <= imax (i_ty T) -> room_mul (factors h same) <= imax (i_ty T) ->
  exists v, value_of h = Done v /\ addend v = sum (gains h same same) /\ mult v = product (factors h same).
Proof.
  set (t := i_ty T). intros St Fg Ff Rg Rf.
  induction h as [|b|h IH o|h IHh k IHk]; cbn [value_of].
  - eexists. split; [reflexivity|]. split; reflexivity.
  - eexists. split; [reflexivity|]. cbn. unfold same. rewrite sum_one. split; reflexivity.
  - destruct St as [St So]. unfold gains, factors, same in *.
    pose proof (sum_fits t _ Fg Rg) as S1. pose proof (product_fits t _ Ff Rf) as S2.
    destruct o as [x|x|[]|[]|x|x|x]; try destruct So; cbn in *; rewrite ?app_nil_r in *.
    + apply Forall_app in Fg. destruct (IH St (proj1 Fg) Ff (room_le_l _ _ _ Rg) Rf) as [w [-> [A M]]]. cbn.
      unfold q_add, i_add. rewrite A. rewrite sum_app, sum_one in *. rewrite i_norm_id by exact S1. cbn.
      eexists. split; [reflexivity|]. cbn. auto.
    + apply Forall_app in Ff. destruct (IH St Fg (proj1 Ff) Rg (room_mul_le_l _ _ _ Rf)) as [w [-> [A M]]]. cbn.
      unfold i_mul. rewrite M. rewrite product_app, product_one in *. rewrite i_norm_id by exact S2. cbn.
      eexists. split; [reflexivity|]. cbn. auto.
    + destruct (IH St Fg Ff Rg Rf) as [w [-> [A M]]]. cbn. eexists. split; [reflexivity|]. auto.
    + destruct (IH St Fg Ff Rg Rf) as [w [-> [A M]]]. cbn. eexists. split; [reflexivity|]. auto.
  - destruct St as [Sh Sk]. unfold gains, factors, same in *. cbn in *.
    pose proof (sum_fits t _ Fg Rg) as S1. pose proof (product_fits t _ Ff Rf) as S2.
    apply Forall_app in Fg, Ff. destruct Fg as [Fg1 Fg2], Ff as [Ff1 Ff2].
    destruct (IHh Sh Fg1 Ff1 (room_le_l _ _ _ Rg) (room_mul_le_l _ _ _ Rf)) as [w1 [-> [A1 M1]]].
    destruct (IHk Sk Fg2 Ff2 (room_le_r _ _ _ Rg) (room_mul_le_r _ _ _ Rf)) as [w2 [-> [A2 M2]]].
    cbn. unfold i_add, i_mul. rewrite A1, A2, M1, M2. rewrite sum_app, product_app in *.
    rewrite i_norm_id by exact S1. cbn. rewrite i_norm_id by exact S2. cbn. eexists. split; [reflexivity|]. auto.
Qed.

Lemma C58_StatInt_fits_proof : forall oc T (h : history (statInt oc T)),
  steady h -> Forall (z_ok T) (gains h same same) -> Forall (z_ok T) (factors h same) ->
  room (gains h same same) <= imax (i_ty T) -> room_mul (factors h same) <= imax (i_ty T) ->
  z_ok T (sum (gains h same same) * product (factors h same)) ->
  worth h = Done (bounded (i_ty T) (floors h same) (ceilings h same)
                    (sum (gains h same same) * product (factors h same))).
Proof.
  intros oc T h St Fg Ff Rg Rf P. destruct (int_fits oc T h St Fg Ff Rg Rf) as [v [Hv [A M]]].
  unfold worth. rewrite Hv. cbn. unfold i_mul. rewrite A, M, i_norm_id by exact P. cbn. f_equal.
  apply (i_bound_is (S := statInt oc T) _ (fun v => v) _ _ _ _ (int_bounds _ _ h v Hv)).
Qed.
