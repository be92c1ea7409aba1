(** Totals of the float stats over fractions. *)
From Coq Require Import ZArith QArith Qminmax List Lia Permutation.
From Verif Require Import M_Outcome M_Ints M_Ratio M_Float M_Value M_Types S_Ratio S_Types S_Totals S_FloatTotals S_FracTotals
  L_Outcome L_Ints L_Ratio L_Round L_RatioQ L_Float L_Totals L_Totals2.
Import ListNotations.
Local Open Scope Z_scope.

Lemma qsum_cons x l : qsum (x :: l) = (toQ x + qsum l)%Q. Proof. reflexivity. Qed.
Lemma qproduct_cons x l : qproduct (x :: l) = (toQ x * qproduct l)%Q. Proof. reflexivity. Qed.
Lemma qsum_app l l' : (qsum (l ++ l') == qsum l + qsum l')%Q.
Proof. induction l as [|x l IH]; cbn [app]; [symmetry; apply Qplus_0_l|]. rewrite !qsum_cons, IH. apply Qplus_assoc. Qed.
Lemma qproduct_app l l' : (qproduct (l ++ l') == qproduct l * qproduct l')%Q.
Proof. induction l as [|x l IH]; cbn [app]; [symmetry; apply Qmult_1_l|]. rewrite !qproduct_cons, IH. apply Qmult_assoc. Qed.
Lemma qsum_one x : (qsum [x] == toQ x)%Q. Proof. apply Qplus_0_r. Qed.
Lemma qproduct_one x : (qproduct [x] == toQ x)%Q. Proof. apply Qmult_1_r. Qed.
Lemma qleast_top top l : (qleast top l <= inject_Z top)%Q.
Proof. induction l as [|x l IH]; cbn; [apply Qle_refl|]. eapply Qle_trans; [apply Q.le_min_r|exact IH]. Qed.
Lemma qmost_bottom bot l : (inject_Z bot <= qmost bot l)%Q.
Proof. induction l as [|x l IH]; cbn; [apply Qle_refl|]. eapply Qle_trans; [exact IH|apply Q.le_max_r]. Qed.
Lemma qleast_app top l l' : (qleast top (l ++ l') == Qmin (qleast top l) (qleast top l'))%Q.
Proof.
  induction l as [|x l IH]; cbn.
  - symmetry. rewrite Q.min_comm. apply Q.min_l, qleast_top.
  - fold (qleast top (l ++ l')) (qleast top l). rewrite IH. apply Q.min_assoc.
Qed.
Lemma qmost_app bot l l' : (qmost bot (l ++ l') == Qmax (qmost bot l) (qmost bot l'))%Q.
Proof.
  induction l as [|x l IH]; cbn.
  - symmetry. rewrite Q.max_comm. apply Q.max_l, qmost_bottom.
  - fold (qmost bot (l ++ l')) (qmost bot l). rewrite IH. apply Q.max_assoc.
Qed.
Lemma toQ_int t z : ity_ok t z -> reduced t (r_int z) /\ (toQ (r_int z) == inject_Z z)%Q.
Proof. intros H. split; [apply reduced_r_int; exact H|reflexivity]. Qed.
Lemma imin_fits t : ity_ok t (imin t). Proof. unfold ity_ok. pose proof (imin_le0 t). pose proof (imax_ge127 t). lia. Qed.
Lemma imax_fits t : ity_ok t (imax t). Proof. unfold ity_ok. pose proof (imin_le0 t). pose proof (imax_ge127 t). lia. Qed.
Lemma qleast_one top x : (toQ x <= inject_Z top)%Q -> (qleast top [x] == toQ x)%Q.
Proof. intros H. cbn. apply Q.min_l. exact H. Qed.
Lemma qmost_one bot x : (inject_Z bot <= toQ x)%Q -> (qmost bot [x] == toQ x)%Q.
Proof. intros H. cbn. apply Q.max_l. exact H. Qed.
Lemma toQ_le_imax t x : reduced t x -> (toQ x <= inject_Z (imax t))%Q.
Proof.
  intros [[Hn Hd] _]. unfold toQ, Qle, inject_Z. cbn [Qnum Qden]. rewrite Z2Pos.id by lia.
  pose proof (imax_ge127 t). nia.
Qed.
Lemma toQ_ge_imin t x : reduced t x -> (inject_Z (imin t) <= toQ x)%Q.
Proof.
  intros [[Hn Hd] _]. unfold toQ, Qle, inject_Z. cbn [Qnum Qden]. rewrite Z2Pos.id by lia.
  pose proof (imin_le0 t). nia.
Qed.

(** [a] is a fraction in lowest terms worth [q]. *)
Definition is_frac (t : ity) (q : Q) (a : ratio) : Prop := reduced t a /\ (toQ a == q)%Q.
Lemma reduced_pos t a : reduced t a -> 0 < denom a. Proof. intros [[_ H] _]. lia. Qed.
Lemma is_frac_max t p q a b : is_frac t p a -> is_frac t q b -> is_frac t (Qmax p q) (r_max a b).
Proof.
  intros [Ra Ea] [Rb Eb]. destruct (frac_max a b (reduced_pos t a Ra) (reduced_pos t b Rb)) as [_ E].
  split; [unfold r_max; destruct (r_ltb b a); assumption|]. rewrite E, Ea, Eb. reflexivity.
Qed.
Lemma is_frac_min t p q a b : is_frac t p a -> is_frac t q b -> is_frac t (Qmin p q) (r_min a b).
Proof.
  intros [Ra Ea] [Rb Eb]. destruct (frac_min a b (reduced_pos t a Ra) (reduced_pos t b Rb)) as [_ E].
  split; [unfold r_min; destruct (r_ltb b a); assumption|]. rewrite E, Ea, Eb. reflexivity.
Qed.
Lemma is_frac_eq t p q a : (p == q)%Q -> is_frac t p a -> is_frac t q a.
Proof. intros E [R H]. split; [exact R|]. rewrite H. exact E. Qed.
Lemma is_frac_unique t q a b : is_frac t q a -> is_frac t q b -> a = b.
Proof.
  intros [Ra Ea] [Rb Eb]. apply (reduced_inj t); [assumption|assumption|].
  pose proof (reduced_pos t a Ra). pose proof (reduced_pos t b Rb).
  assert (E : (toQ a == toQ b)%Q) by (rewrite Ea, Eb; reflexivity).
  unfold toQ, Qeq in E. cbn [Qnum Qden] in E. rewrite !Z2Pos.id in E by assumption. exact E.
Qed.
Lemma is_frac_add t p q a b c : is_frac t p a -> is_frac t q b -> r_add true t a b = Done c -> is_frac t (p + q) c.
Proof.
  intros [Ra Ea] [Rb Eb] H. destruct (add_exact t a b (proj1 Ra) (proj1 Rb)) as [(z & Hz & R & E)|(p' & Hp)]; [|congruence].
  rewrite H in Hz. injection Hz as <-. split; [exact R|]. rewrite E, Ea, Eb. reflexivity.
Qed.
Lemma is_frac_mul t p q a b c : is_frac t p a -> is_frac t q b -> r_mul true t a b = Done c -> is_frac t (p * q) c.
Proof.
  intros [Ra Ea] [Rb Eb] H. destruct (mul_exact t a b (proj1 Ra) (proj1 Rb)) as [(z & Hz & R & E)|(p' & Hp)]; [|congruence].
  rewrite H in Hz. injection Hz as <-. split; [exact R|]. rewrite E, Ea, Eb. reflexivity.
Qed.
Lemma is_frac_sum t x : reduced t x -> is_frac t (qsum [x]) x.
Proof. intros R. split; [exact R|]. symmetry. apply qsum_one. Qed.
Lemma is_frac_prod t x : reduced t x -> is_frac t (qproduct [x]) x.
Proof. intros R. split; [exact R|]. symmetry. apply qproduct_one. Qed.
Lemma is_frac_least t x : reduced t x -> is_frac t (qleast (imax t) [x]) x.
Proof. intros R. split; [exact R|]. symmetry. apply qleast_one, toQ_le_imax, R. Qed.
Lemma is_frac_most t x : reduced t x -> is_frac t (qmost (imin t) [x]) x.
Proof. intros R. split; [exact R|]. symmetry. apply qmost_one, toQ_ge_imin, R. Qed.
Lemma is_frac_int t z : ity_ok t z -> is_frac t (inject_Z z) (r_int z).
Proof. intros H. apply toQ_int, H. Qed.
Lemma one_fits t : ity_ok t 1.
Proof. unfold ity_ok. pose proof (imin_le0 t). pose proof (imax_ge127 t). lia. Qed.

Lemma is_frac_bound t lo hi x los his q : is_frac t (qmost (imin t) los) lo -> is_frac t (qleast (imax t) his) hi ->
  is_frac t q x -> is_frac t (qbounded t los his q) (r_max (r_min x hi) lo).
Proof. intros L U X. apply is_frac_max; [apply is_frac_min; assumption|assumption]. Qed.

Definition bounds_in {S : StatValue} (t : ity) (lo hi : val S -> ratio) (bnd : boundsT S -> ratio) (h : history S) (v : val S) : Prop :=
  is_frac t (qmost (imin t) (floors h bnd)) (lo v) /\ is_frac t (qleast (imax t) (ceilings h bnd)) (hi v).

Ltac bounds_start t := 
  let H := fresh "H" in
  pose proof (is_frac_int t _ (imin_fits t)); pose proof (is_frac_int t _ (imax_fits t)).
Ltac one_op :=
  repeat match goal with
  | H : obind _ _ = Done _ |- _ => apply obind_inv in H; let x := fresh "x" in let E := fresh "E" in destruct H as [x [E H]]
  end.

Section Quads.
  Variables (oc : bool) (t : ity).
  Lemma float_bounds (h : history (statFloat (fracF oc t))) :
    Forall (reduced t) (floors h same) -> Forall (reduced t) (ceilings h same) ->
    forall v, value_of h = Done v -> bounds_in (S := statFloat (fracF oc t)) t vmin vmax same h v.
  Proof.
    bounds_start t. unfold bounds_in, floors, ceilings, same.
    induction h as [|b|h IH o|h IHh k IHk]; intros Fl Fc v Hv; cbn [value_of] in Hv.
    - injection Hv as <-. cbn. auto.
    - injection Hv as <-. cbn. auto.
    - apply obind_inv in Hv. destruct Hv as [w [Hw Hv]].
      destruct o as [x|x|[]|[]|x|x|x]; cbn [write_to gathered] in *; rewrite ?app_nil_r in *;
        cbn [sv_add sv_mul sv_min sv_max sv_or sv_not sv_from_base statFloat statFloatAdditive] in Hv; unfold fq_add, fq_min, fq_max in Hv; one_op; try discriminate;
        try (injection Hv as <-); cbn [vmin vmax] in *; auto.
      + apply Forall_app in Fl. destruct Fl as [Fl Fx]. inversion Fx; subst. destruct (IH Fl Fc w Hw) as [L U]. split; [|exact U].
        eapply is_frac_eq; [symmetry; apply qmost_app|]. apply is_frac_max; [exact L|apply is_frac_most; assumption].
      + apply Forall_app in Fc. destruct Fc as [Fc Fx]. inversion Fx; subst. destruct (IH Fl Fc w Hw) as [L U]. split; [exact L|].
        eapply is_frac_eq; [symmetry; apply qleast_app|]. apply is_frac_min; [exact U|apply is_frac_least; assumption].
    - apply obind_inv in Hv. destruct Hv as [w1 [H1 Hv]]. apply obind_inv in Hv. destruct Hv as [w2 [H2 Hv]].
      cbn [gathered sv_join statFloat] in *. one_op. injection Hv as <-. cbn [vmin vmax].
      apply Forall_app in Fl, Fc. destruct Fl as [Fl1 Fl2], Fc as [Fc1 Fc2].
      destruct (IHh Fl1 Fc1 w1 H1) as [L1 U1], (IHk Fl2 Fc2 w2 H2) as [L2 U2]. split.
      + eapply is_frac_eq; [symmetry; apply qmost_app|]. apply is_frac_max; assumption.
      + eapply is_frac_eq; [symmetry; apply qleast_app|]. apply is_frac_min; assumption.
  Qed.
  Lemma additive_bounds (h : history (statFloatAdditive (fracF oc t))) :
    Forall (reduced t) (floors h same) -> Forall (reduced t) (ceilings h same) ->
    forall v, value_of h = Done v -> bounds_in (S := statFloatAdditive (fracF oc t)) t vmin vmax same h v.
  Proof.
    bounds_start t. unfold bounds_in, floors, ceilings, same.
    induction h as [|b|h IH o|h IHh k IHk]; intros Fl Fc v Hv; cbn [value_of] in Hv.
    - injection Hv as <-. cbn. auto.
    - injection Hv as <-. cbn. auto.
    - apply obind_inv in Hv. destruct Hv as [w [Hw Hv]].
      destruct o as [x|x|[]|[]|x|x|x]; cbn [write_to gathered] in *; rewrite ?app_nil_r in *;
        cbn [sv_add sv_mul sv_min sv_max sv_or sv_not sv_from_base statFloat statFloatAdditive] in Hv; unfold fq_add, fq_min, fq_max in Hv; one_op; try discriminate;
        try (injection Hv as <-); cbn [vmin vmax] in *; auto.
      + apply Forall_app in Fl. destruct Fl as [Fl Fx]. inversion Fx; subst. destruct (IH Fl Fc w Hw) as [L U]. split; [|exact U].
        eapply is_frac_eq; [symmetry; apply qmost_app|]. apply is_frac_max; [exact L|apply is_frac_most; assumption].
      + apply Forall_app in Fc. destruct Fc as [Fc Fx]. inversion Fx; subst. destruct (IH Fl Fc w Hw) as [L U]. split; [exact L|].
        eapply is_frac_eq; [symmetry; apply qleast_app|]. apply is_frac_min; [exact U|apply is_frac_least; assumption].
    - apply obind_inv in Hv. destruct Hv as [w1 [H1 Hv]]. apply obind_inv in Hv. destruct Hv as [w2 [H2 Hv]].
      cbn [gathered sv_join statFloatAdditive] in *. one_op. injection Hv as <-. cbn [vmin vmax].
      apply Forall_app in Fl, Fc. destruct Fl as [Fl1 Fl2], Fc as [Fc1 Fc2].
      destruct (IHh Fl1 Fc1 w1 H1) as [L1 U1], (IHk Fl2 Fc2 w2 H2) as [L2 U2]. split.
      + eapply is_frac_eq; [symmetry; apply qmost_app|]. apply is_frac_max; assumption.
      + eapply is_frac_eq; [symmetry; apply qleast_app|]. apply is_frac_min; assumption.
  Qed.
  Lemma mult_bounds (h : history (statMult (fracF oc t))) :
    Forall (reduced t) (floors h same) -> Forall (reduced t) (ceilings h same) ->
    forall v, value_of h = Done v -> bounds_in (S := statMult (fracF oc t)) t t_min t_max same h v.
  Proof.
    bounds_start t. unfold bounds_in, floors, ceilings, same.
    induction h as [|b|h IH o|h IHh k IHk]; intros Fl Fc v Hv; cbn [value_of] in Hv.
    - injection Hv as <-. cbn. auto.
    - injection Hv as <-. cbn. auto.
    - apply obind_inv in Hv. destruct Hv as [w [Hw Hv]].
      destruct o as [[]|x|[]|[]|x|x|x]; cbn [write_to gathered] in *; rewrite ?app_nil_r in *;
        cbn [sv_add sv_mul sv_min sv_max sv_or sv_not sv_from_base statMult] in Hv; one_op; try discriminate;
        try (injection Hv as <-); cbn [t_min t_max] in *; auto.
      + apply Forall_app in Fl. destruct Fl as [Fl Fx]. inversion Fx; subst. destruct (IH Fl Fc w Hw) as [L U]. split; [|exact U].
        eapply is_frac_eq; [symmetry; apply qmost_app|]. apply is_frac_max; [exact L|apply is_frac_most; assumption].
      + apply Forall_app in Fc. destruct Fc as [Fc Fx]. inversion Fx; subst. destruct (IH Fl Fc w Hw) as [L U]. split; [exact L|].
        eapply is_frac_eq; [symmetry; apply qleast_app|]. apply is_frac_min; [exact U|apply is_frac_least; assumption].
    - apply obind_inv in Hv. destruct Hv as [w1 [H1 Hv]]. apply obind_inv in Hv. destruct Hv as [w2 [H2 Hv]].
      cbn [gathered sv_join statMult] in *. one_op. injection Hv as <-. cbn [t_min t_max].
      apply Forall_app in Fl, Fc. destruct Fl as [Fl1 Fl2], Fc as [Fc1 Fc2].
      destruct (IHh Fl1 Fc1 w1 H1) as [L1 U1], (IHk Fl2 Fc2 w2 H2) as [L2 U2]. split.
      + eapply is_frac_eq; [symmetry; apply qmost_app|]. apply is_frac_max; assumption.
      + eapply is_frac_eq; [symmetry; apply qleast_app|]. apply is_frac_min; assumption.
  Qed.
End Quads.
