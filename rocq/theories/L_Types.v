From Coq Require Import ZArith QArith Qreduction Lia Bool List Permutation.
From Verif Require Import M_Outcome M_Ints M_Ratio M_Float M_Value M_Types S_Ratio S_Types
  L_Outcome L_Ints L_Ratio L_Round L_RatioQ.
Import ListNotations.
Local Open Scope Z_scope.
Local Arguments Z.mul : simpl never.
Local Arguments Z.add : simpl never.
Local Arguments Z.sub : simpl never.
Local Arguments Z.opp : simpl never.
Local Arguments Z.gcd : simpl never.
Local Arguments Z.max : simpl never.
Local Arguments Z.min : simpl never.
Local Arguments Qred : simpl never.
Local Arguments toQ : simpl never.
Local Arguments Qmult : simpl never.

(** ** C08 *)
Definition everything {A : Type} (_ : A) : Prop := True.

Lemma order_free_intro S (P : val S -> Prop) (E : step S -> Prop) :
  (forall v s v', P v -> E s -> unordered s -> run_step v s = Done v' -> P v') ->
  (forall v s u, P v -> E s -> E u -> unordered s -> unordered u ->
    (let! x := run_step v s in run_step x u) = (let! x := run_step v u in run_step x s)) ->
  order_free S P E.
Proof.
  intros Hp Hc l l' HP HU HE v Hv. unfold run.
  apply (ofold_perm_inv run_step P (fun s => E s /\ unordered s)); auto.
  - intros a b a' Ha [Hb Hb']. apply Hp; assumption.
  - intros a b c Ha [Hb Hb'] [Hc1 Hc2]. apply Hc; assumption.
  - rewrite Forall_forall in *. auto.
Qed.

Lemma order_free_simple S :
  (forall v s u, unordered s -> unordered u ->
    (let! x := @run_step S v s in run_step x u) = (let! x := run_step v u in run_step x s)) ->
  order_free S everything everything.
Proof. intros H. apply order_free_intro; unfold everything; auto. Qed.

Lemma wrap_add3 t a b c : wrap t (wrap t (a + b) + c) = wrap t (wrap t (a + c) + b).
Proof. rewrite !wrap_add_l. f_equal. lia. Qed.
Lemma wrap_mul3 t a b c : wrap t (wrap t (a * b) * c) = wrap t (wrap t (a * c) * b).
Proof. rewrite !wrap_mul_l. f_equal. lia. Qed.
Lemma i_max3 a b c : i_max (i_max a b) c = i_max (i_max a c) b.
Proof. rewrite !i_max_eq. lia. Qed.
Lemma i_min3 a b c : i_min (i_min a b) c = i_min (i_min a c) b.
Proof. rewrite !i_min_eq. lia. Qed.

Ltac comm_quad := apply f_equal; f_equal;
  first [reflexivity | apply wrap_add3 | apply wrap_mul3 | apply i_max3 | apply i_min3].

Lemma statInt_order_free oc T : wraps oc T -> order_free (statInt oc T) everything everything.
Proof.
  intros HW. apply order_free_simple. intros v s u Hs Hu.
  destruct s as [[x|x|x|x|x|x|x]|x]; try solve [destruct x]; try destruct Hs;
  destruct u as [[y|y|y|y|y|y|y]|y]; try solve [destruct y]; try destruct Hu;
  cbn; unfold q_add, q_min, q_max, i_add, i_mul; rewrite ?(wraps_norm _ _ _ HW); cbn [obind addend vmin vmax mult];
  rewrite ?(wraps_norm _ _ _ HW); cbn [obind addend vmin vmax mult];
  comm_quad.
Qed.

Lemma statPctAdd_order_free oc T R scale : wraps oc T -> order_free (statPctAdd oc T R scale) everything everything.
Proof.
  intros HW. apply order_free_simple. intros v s u Hs Hu.
  destruct s as [[x|x|x|x|x|x|x]|x]; try solve [destruct x]; try destruct Hs;
  destruct u as [[y|y|y|y|y|y|y]|y]; try solve [destruct y]; try destruct Hu;
  cbn; unfold q_add, q_min, q_max, i_add, i_mul; rewrite ?(wraps_norm _ _ _ HW); cbn [obind addend vmin vmax mult];
  rewrite ?(wraps_norm _ _ _ HW); cbn [obind addend vmin vmax mult];
  comm_quad.
Qed.

(** Saturating unsigned arithmetic. *)
Lemma sat_add3 t a b c : signed t = false -> 0 <= a -> 0 <= b -> 0 <= c ->
  sat t (sat t (a + b) + c) = sat t (sat t (a + c) + b).
Proof. intros Hs. unfold sat. rewrite (unsigned_imin t Hs). pose proof (imax_ge127 t). lia. Qed.
Lemma sat_mul_absorb t a b c : signed t = false -> 0 <= a -> 0 <= b -> 0 <= c ->
  sat t (sat t (a * b) * c) = sat t (a * b * c).
Proof.
  intros Hs Ha Hb Hc. unfold sat. rewrite (unsigned_imin t Hs). pose proof (imax_ge127 t).
  assert (0 <= a * b) by nia. destruct (Z.le_gt_cases (a * b) (imax t)).
  - rewrite (Z.min_l (a * b)) by lia. rewrite (Z.max_r 0 (a * b)) by lia. reflexivity.
  - rewrite (Z.min_r (a * b)) by lia. rewrite (Z.max_r 0 (imax t)) by lia.
    destruct (Z.eq_dec c 0) as [->|]; [rewrite !Z.mul_0_r; reflexivity|].
    rewrite !Z.min_r by nia. reflexivity.
Qed.
Lemma sat_mul3 t a b c : signed t = false -> 0 <= a -> 0 <= b -> 0 <= c ->
  sat t (sat t (a * b) * c) = sat t (sat t (a * c) * b).
Proof. intros. rewrite !sat_mul_absorb by assumption. f_equal. lia. Qed.

Definition int_step_ok {S} (T : intp) (A : val S -> Prop) (za : addT S -> Z) (zm : mulT S -> Z) (s : step S) : Prop :=
  match s with
  | SOp (OAdd x) => z_ok T (za x) | SOp (OMul x) => z_ok T (zm x)
  | SOp _ => True | SJoin v => A v
  end.

Lemma sat_nonneg t z : signed t = false -> 0 <= sat t z.
Proof. intros H. pose proof (sat_range t z) as K. unfold ity_ok in K. rewrite (unsigned_imin t H) in K. lia. Qed.

Definition nonneg_quad (v : quad Z Z) : Prop := 0 <= addend v /\ 0 <= mult v.
Lemma statInt_sat_order_free oc T : i_flav T = FSaturating -> signed (i_ty T) = false ->
  order_free (statInt oc T) nonneg_quad
    (step_ok (S := statInt oc T) nonneg_quad (op_ok (S := statInt oc T) (fun x => 0 <= x) (fun x => 0 <= x) everything)).
Proof.
  intros HF HS.
  assert (N : forall z, i_norm oc T z = Done (sat (i_ty T) z)) by (intros z; unfold i_norm; rewrite HF; reflexivity).
  apply order_free_intro.
  - intros v s v' [Ha Hm] Hok Hu Hr.
    destruct s as [[x|x|x|x|x|x|x]|x]; try solve [destruct x]; try destruct Hu;
    cbn in Hr, Hok; unfold q_add, q_min, q_max, i_add, i_mul in Hr; rewrite ?N in Hr; cbn in Hr;
    inversion Hr; subst; unfold nonneg_quad; cbn; split; first [assumption | apply sat_nonneg; assumption].
  - intros v s u [Ha Hm] Hs Ht Hus Hut.
    destruct s as [[x|x|x|x|x|x|x]|x]; try solve [destruct x]; try destruct Hus;
    destruct u as [[y|y|y|y|y|y|y]|y]; try solve [destruct y]; try destruct Hut;
    cbn in Hs, Ht; unfold nonneg_quad in Hs, Ht; cbn in Hs, Ht;
    cbn; unfold q_add, q_min, q_max, i_add, i_mul; rewrite ?N; cbn [obind addend vmin vmax mult];
    rewrite ?N; cbn [obind addend vmin vmax mult];
    apply f_equal; f_equal;
    first [reflexivity | apply sat_add3; tauto | apply sat_mul3; tauto | apply i_max3 | apply i_min3].
Qed.

(** Flags, booleans, once. *)
Lemma statFlags_order_free G :
  (forall a b, g_or G a b = g_or G b a) -> (forall a b c, g_or G a (g_or G b c) = g_or G (g_or G a b) c) ->
  order_free (statFlags G) everything everything.
Proof.
  intros Hc Ha. apply order_free_simple. intros v s u Hs Hu.
  assert (K : forall a b c, g_or G (g_or G a b) c = g_or G (g_or G a c) b).
  { intros a b c. rewrite <- !Ha. f_equal. apply Hc. }
  destruct s as [[x|x|x|x|x|x|x]|x]; try solve [destruct x]; try destruct Hs;
  destruct u as [[y|y|y|y|y|y|y]|y]; try solve [destruct y]; try destruct Hu;
  cbn; apply f_equal; f_equal; first [reflexivity | apply K].
Qed.
Lemma zflags_order_free : order_free (statFlags zflags) everything everything.
Proof. apply statFlags_order_free; cbn; [apply Z.lor_comm|intros; apply Z.lor_assoc]. Qed.
Lemma boolflags_order_free : order_free (statFlags boolflags) everything everything.
Proof. apply statFlags_order_free; cbn; [apply orb_comm|intros; apply orb_assoc]. Qed.

Lemma statExists_order_free : order_free statExists everything everything.
Proof.
  apply order_free_simple. intros v s u Hs Hu.
  destruct s as [[x|x|x|x|x|x|x]|x]; try destruct Hs;
  destruct u as [[y|y|y|y|y|y|y]|y]; try destruct Hu; try destruct x; try destruct y; destruct v; reflexivity.
Qed.
Lemma bool_order_free : order_free boolV everything everything.
Proof.
  apply order_free_simple. intros v s u Hs Hu.
  destruct s as [[x|x|x|x|x|x|x]|x]; try destruct Hs;
  destruct u as [[y|y|y|y|y|y|y]|y]; try destruct Hu; try destruct x; try destruct y; destruct v; reflexivity.
Qed.
Lemma statOnce_order_free A : order_free (statOnce A) everything everything.
Proof.
  apply order_free_simple. intros v s u Hs Hu.
  destruct s as [[x|x|x|x|x|x|x]|x]; try destruct Hs; try solve [destruct x];
  destruct u as [[y|y|y|y|y|y|y]|y]; try destruct Hu; try solve [destruct y];
  try (destruct x as [|x|]); try (destruct y as [|y|]); destruct v; reflexivity.
Qed.

(** ** C09: successful orders agree in checked builds *)
Lemma order_agree {S C} (abs : val S -> C) (g : C -> step S -> C) (P : val S -> Prop) (E : step S -> Prop) :
  (forall v s v', P v -> E s -> unordered s -> run_step v s = Done v' -> P v' /\ abs v' = g (abs v) s) ->
  (forall c s u, unordered s -> unordered u -> g (g c s) u = g (g c u) s) ->
  (forall v w, P v -> P w -> abs v = abs w -> v = w) ->
  order_free_if_done S P E.
Proof.
  intros Hs Hc Hi l l' HP HU HE v r r' Hv H1 H2.
  assert (Hg : forall k k', Permutation k k' -> Forall unordered k -> forall c, fold_left g k c = fold_left g k' c).
  { intros k k' K. induction K; intros U c; cbn; auto.
    - inversion U; subst. auto.
    - inversion U as [|? ? U1 U2]; subst. inversion U2; subst. rewrite Hc by assumption. reflexivity.
    - rewrite IHK1 by assumption. apply IHK2. eapply Permutation_Forall; eassumption. }
  assert (HE1 : Forall (fun s => E s /\ unordered s) l) by (rewrite Forall_forall in *; auto).
  assert (HE2 : Forall (fun s => E s /\ unordered s) l') by (eapply Permutation_Forall; eassumption).
  assert (St : forall a b a', P a -> E b /\ unordered b -> run_step a b = Done a' -> P a' /\ abs a' = g (abs a) b)
    by (intros a b a' Pa [Eb Ub]; apply Hs; assumption).
  destruct (ofold_exact run_step abs g P _ St l v r HE1 Hv H1) as [P1 A1].
  destruct (ofold_exact run_step abs g P _ St l' v r' HE2 Hv H2) as [P2 A2].
  apply Hi; try assumption. rewrite A1, A2. apply Hg; assumption.
Qed.

(** Exact effect of a step on an integer stat. *)
Definition exact4 (S : StatValue) (za : addT S -> Z) (zm : mulT S -> Z) (zb : boundsT S -> Z)
    (j : val S -> Z * Z * Z * Z) (mop : Z -> Z -> Z) (c : Z * Z * Z * Z) (s : step S) : Z * Z * Z * Z :=
  match c with
  | (a, l, h, m) =>
    match s with
    | SOp (OAdd x) => (a + za x, l, h, m)
    | SOp (OMul x) => (a, l, h, mop m (zm x))
    | SOp (OMin x) => (a, Z.max l (zb x), h, m)
    | SOp (OMax x) => (a, l, Z.min h (zb x), m)
    | SOp _ => c
    | SJoin v => match j v with (a', l', h', m') => (a + a', Z.max l l', Z.min h h', mop m m') end
    end
  end.
Definition quad4 (v : quad Z Z) : Z * Z * Z * Z := (addend v, vmin v, vmax v, mult v).

Lemma exact4_comm S za zm zb j mop :
  (forall a b c, mop (mop a b) c = mop (mop a c) b) ->
  forall c s u, exact4 S za zm zb j mop (exact4 S za zm zb j mop c s) u
              = exact4 S za zm zb j mop (exact4 S za zm zb j mop c u) s.
Proof.
  intros Hm [[[a l] h] m] s u.
  destruct s as [[x|x|x|x|x|x|x]|x]; destruct u as [[y|y|y|y|y|y|y]|y]; cbn; try reflexivity;
  repeat match goal with
  | H : j ?v = _ |- context [j ?v] => rewrite H; cbn
  | |- context [j ?v] => destruct (j v) as [[[? ?] ?] ?] eqn:?; cbn
  end;
  repeat (f_equal; try lia; try apply Hm).
Qed.

Lemma quad4_inj v w : quad4 v = quad4 w -> v = w.
Proof. destruct v, w. unfold quad4; cbn. intros H. inversion H; subst. reflexivity. Qed.

Ltac inv_done H :=
  repeat (match type of H with
  | obind _ _ = Done _ => apply obind_inv in H; let a := fresh "r" in let E := fresh "E" in destruct H as [a [E H]]
  end).

Lemma statInt_agree t : order_free_if_done (statInt true {| i_ty := t; i_flav := FPrim |}) everything everything.
Proof.
  apply (order_agree (S := statInt true _) quad4
    (exact4 (statInt true _) (fun x => x) (fun x => x) (fun x => x) quad4 Z.mul)).
  - intros v s v' _ _ Hu Hr. split; [exact I|].
    destruct s as [[x|x|x|x|x|x|x]|x]; try solve [destruct x]; try destruct Hu;
    cbn in Hr; unfold q_add, q_min, q_max, i_add, i_mul, i_norm in Hr; cbn in Hr; inv_done Hr;
    repeat match goal with E : chk true _ _ = Done _ |- _ => apply chk_true_inv in E; destruct E as [-> _] end;
    inversion Hr; subst; unfold quad4; cbn; rewrite ?i_max_eq, ?i_min_eq; reflexivity.
  - intros c s u _ _. apply exact4_comm. intros; lia.
  - intros v w _ _. apply quad4_inj.
Qed.

Lemma statPctAdd_agree t R scale :
  order_free_if_done (statPctAdd true {| i_ty := t; i_flav := FPrim |} R scale) everything everything.
Proof.
  apply (order_agree (S := statPctAdd true _ R scale) quad4
    (exact4 (statPctAdd true _ R scale) (fun x => x) (fun x => x) (fun x => x) quad4 Z.add)).
  - intros v s v' _ _ Hu Hr. split; [exact I|].
    destruct s as [[x|x|x|x|x|x|x]|x]; try solve [destruct x]; try destruct Hu;
    cbn in Hr; unfold q_add, q_min, q_max, i_add, i_mul, i_norm in Hr; cbn in Hr; inv_done Hr;
    repeat match goal with E : chk true _ _ = Done _ |- _ => apply chk_true_inv in E; destruct E as [-> _] end;
    inversion Hr; subst; unfold quad4; cbn; rewrite ?i_max_eq, ?i_min_eq; reflexivity.
  - intros c s u _ _. apply exact4_comm. intros; lia.
  - intros v w _ _. apply quad4_inj.
Qed.

(** The fraction multiplier, as a reduced rational of the standard library. *)
Definition quadQ (v : quad Z ratio) : Z * Z * Z * Q := (addend v, vmin v, vmax v, Qred (toQ (mult v))).
Definition exactQ (S : StatValue) (za : addT S -> Z) (zm : mulT S -> Q) (zb : boundsT S -> Z)
    (j : val S -> Z * Z * Z * Q) (c : Z * Z * Z * Q) (s : step S) : Z * Z * Z * Q :=
  match c with
  | (a, l, h, m) =>
    match s with
    | SOp (OAdd x) => (a + za x, l, h, m)
    | SOp (OMul x) => (a, l, h, Qred (m * zm x))
    | SOp (OMin x) => (a, Z.max l (zb x), h, m)
    | SOp (OMax x) => (a, l, Z.min h (zb x), m)
    | SOp _ => c
    | SJoin v => match j v with (a', l', h', m') => (a + a', Z.max l l', Z.min h h', Qred (m * m')) end
    end
  end.
Lemma Qred3 a b c : Qred (Qred (a * b) * c) = Qred (Qred (a * c) * b).
Proof. apply Qred_complete. rewrite !Qred_correct. ring. Qed.
Lemma exactQ_comm S za zm zb j c s u :
  exactQ S za zm zb j (exactQ S za zm zb j c s) u = exactQ S za zm zb j (exactQ S za zm zb j c u) s.
Proof.
  destruct c as [[[a l] h] m].
  destruct s as [[x|x|x|x|x|x|x]|x]; destruct u as [[y|y|y|y|y|y|y]|y]; cbn; try reflexivity;
  repeat match goal with
  | H : j ?v = _ |- context [j ?v] => rewrite H; cbn
  | |- context [j ?v] => destruct (j v) as [[[? ?] ?] ?] eqn:?; cbn
  end;
  repeat (f_equal; try lia; try apply Qred3).
Qed.

Definition frac_step_ok (oc : bool) T R (s : step (statIntFraction oc T R)) : Prop :=
  step_ok (S := statIntFraction oc T R) (fun v => reduced (i_ty T) (mult v))
    (op_ok (S := statIntFraction oc T R) everything (reduced (i_ty T)) everything) s.

Lemma r_mul_Qred t x y z : reduced t x -> reduced t y -> r_mul true t x y = Done z ->
  reduced t z /\ Qred (toQ z) = Qred (Qred (toQ x) * toQ y).
Proof.
  intros [Vx _] [Vy _] H. destruct (mul_exact t x y Vx Vy) as [[z' [E [Rz Q]]]|[p E]].
  - rewrite H in E. inversion E; subst z'. split; [exact Rz|]. apply Qred_complete.
    rewrite Qred_correct. exact Q.
  - rewrite H in E. discriminate.
Qed.

Lemma statIntFraction_agree t R :
  order_free_if_done (statIntFraction true {| i_ty := t; i_flav := FPrim |} R)
    (fun v => reduced t (mult v)) (frac_step_ok true {| i_ty := t; i_flav := FPrim |} R).
Proof.
  apply (order_agree (S := statIntFraction true _ R) quadQ
    (exactQ (statIntFraction true _ R) (fun x => x) toQ (fun x => x) quadQ)).
  - intros v s v' Hv Hs Hu Hr.
    destruct s as [[x|x|x|x|x|x|x]|x]; try solve [destruct x]; try destruct Hu;
    cbn in Hr, Hs; unfold q_add, q_min, q_max, i_add, i_norm in Hr; cbn in Hr; inv_done Hr;
    repeat match goal with E : chk true _ _ = Done _ |- _ => apply chk_true_inv in E; destruct E as [-> _] end;
    try match goal with E : r_mul true _ ?x ?y = Done _ |- _ =>
      destruct (r_mul_Qred _ x y _ Hv Hs E) as [? Eq] end;
    inversion Hr; subst; unfold quadQ; cbn; rewrite ?i_max_eq, ?i_min_eq;
    (split; [assumption|]); rewrite ?Eq; try reflexivity.
    f_equal. apply Qred_complete. rewrite !Qred_correct. reflexivity.
  - intros c s u _ _. apply exactQ_comm.
  - intros v w Hv Hw H. destruct v as [a l h m], w as [a' l' h' m']. unfold quadQ in H; cbn in *.
    inversion H as [[H1 H2 H3 H4]]; subst. f_equal. apply (reduced_inj t); try assumption.
    destruct Hv as [[_ D1] _], Hw as [[_ D2] _]. apply toQ_eq; try lia.
    rewrite <- (Qred_correct (toQ m)), <- (Qred_correct (toQ m')), H4. reflexivity.
Qed.
