(** Proofs: equal values of the provided types behave alike. *)
From Coq Require Import ZArith QArith List Bool Lia.
From Flocq Require Import Core BinarySingleNaN.
From Verif Require Import M_Outcome M_Ints M_Ratio M_Float M_Value M_Types M_Qualifier M_Compare S_Ratio S_Types S_Totals S_FracTotals S_Zeros S_Compare S_CompareTypes
  L_Outcome L_Ints L_Ratio L_RatioQ L_FracTotals L_Zeros L_Compare.
Import ListNotations.
Local Open Scope Z_scope.

Lemma quad_eq_true {A M} ea em (v w : quad A M) : quad_eq ea em v w = true ->
  ea (addend v) (addend w) = true /\ ea (vmin v) (vmin w) = true /\ ea (vmax v) (vmax w) = true /\ em (mult v) (mult w) = true.
Proof. unfold quad_eq. rewrite !andb_true_iff. tauto. Qed.
Lemma tri_eq_true {F} e (v w : tri F) : tri_eq e v w = true ->
  e (t_min v) (t_min w) = true /\ e (t_max v) (t_max w) = true /\ e (t_mult v) (t_mult w) = true.
Proof. unfold tri_eq. rewrite !andb_true_iff. tauto. Qed.
Lemma quad_ext {A M} (v w : quad A M) : addend v = addend w -> vmin v = vmin w -> vmax v = vmax w -> mult v = mult w -> v = w.
Proof. destruct v, w. cbn. congruence. Qed.
Lemma fraction_eq t x y : reduced t x -> reduced t y -> c_eq fraction_cmp x y = true -> x = y.
Proof.
  intros A B E. apply fraction_eq_Q in E; [|apply A|apply B].
  apply (is_frac_unique t (toQ y)); split; try assumption. reflexivity.
Qed.

Lemma C76_StatInt_proof : forall oc T, interchangeable (cmp_StatInt oc T) (quad_eq Z.eqb Z.eqb) (all_ops _) (fun _ => True) Logic.eq.
Proof.
  intros oc T. apply interchange_eq.
  - intros v w E _ _. apply quad_eq_true in E. rewrite !Z.eqb_eq in E. apply quad_ext; tauto.
  - intros [] [] E _ _; cbn in E; try discriminate; try apply Z.eqb_eq in E; try congruence; destruct x.
Qed.
Lemma C76_StatIntPercentAdditive_proof : forall oc T R s,
  interchangeable (cmp_StatIntPercentAdditive oc T R s) (quad_eq Z.eqb Z.eqb) (all_ops _) (fun _ => True) Logic.eq.
Proof.
  intros oc T R s. apply interchange_eq.
  - intros v w E _ _. apply quad_eq_true in E. rewrite !Z.eqb_eq in E. apply quad_ext; tauto.
  - intros [] [] E _ _; cbn in E; try discriminate; try apply Z.eqb_eq in E; try congruence; destruct x.
Qed.
Lemma C76_StatIntPercent_proof : forall oc T R s,
  interchangeable (cmp_StatIntPercent oc T R s) (quad_eq Z.eqb (c_eq fraction_cmp)) (all_ops _) (fun v => reduced (i_ty T) (mult v)) Logic.eq.
Proof.
  intros oc T R s. apply interchange_eq.
  - intros v w E A B. apply quad_eq_true in E. rewrite !Z.eqb_eq in E. destruct E as (E1 & E2 & E3 & E4). apply quad_ext; try assumption.
    exact (fraction_eq _ _ _ A B E4).
  - intros [] [] E _ _; cbn in E; try discriminate; try apply Z.eqb_eq in E; try congruence; destruct x.
Qed.
Lemma C76_StatIntFraction_proof : forall oc T R,
  interchangeable (cmp_StatIntFraction oc T R) (quad_eq Z.eqb (c_eq fraction_cmp)) (frac_ops oc T R) (fun v => reduced (i_ty T) (mult v)) Logic.eq.
Proof.
  intros oc T R. apply interchange_eq.
  - intros v w E A B. apply quad_eq_true in E. rewrite !Z.eqb_eq in E. destruct E as (E1 & E2 & E3 & E4). apply quad_ext; try assumption.
    exact (fraction_eq _ _ _ A B E4).
  - intros [] [] E A B; cbn in E; try discriminate; try apply Z.eqb_eq in E; try congruence; try destruct x.
    f_equal. exact (fraction_eq _ _ _ A B E).
Qed.
Lemma C76_Fraction_StatFloat_proof : forall oc t,
  interchangeable (cmp_StatFloat_Fraction oc t) (quad_eq (c_eq fraction_cmp) (c_eq fraction_cmp)) (float_frac_ops oc t) (quad_reduced t) Logic.eq.
Proof.
  intros oc t. apply interchange_eq.
  - intros v w E (A1 & A2 & A3 & A4) (B1 & B2 & B3 & B4). apply quad_eq_true in E. destruct E as (E1 & E2 & E3 & E4).
    apply quad_ext; eapply fraction_eq; eassumption.
  - intros [x|x|[]|[]|x|x|x] [y|y|[]|[]|y|y|y] E A B; try discriminate E; f_equal; exact (fraction_eq _ _ _ A B E).
Qed.
Lemma C76_Fraction_StatFloatAdditive_proof : forall oc t,
  interchangeable (cmp_StatFloatAdditive_Fraction oc t) (quad_eq (c_eq fraction_cmp) (c_eq fraction_cmp)) (additive_frac_ops oc t) (quad_reduced t) Logic.eq.
Proof.
  intros oc t. apply interchange_eq.
  - intros v w E (A1 & A2 & A3 & A4) (B1 & B2 & B3 & B4). apply quad_eq_true in E. destruct E as (E1 & E2 & E3 & E4).
    apply quad_ext; eapply fraction_eq; eassumption.
  - intros [x|x|[]|[]|x|x|x] [y|y|[]|[]|y|y|y] E A B; try discriminate E; f_equal; exact (fraction_eq _ _ _ A B E).
Qed.
Lemma C76_Fraction_StatMult_proof : forall oc t,
  interchangeable (cmp_StatMult_Fraction oc t) (tri_eq (F := fracF oc t) (c_eq fraction_cmp)) (mult_frac_ops oc t) (tri_reduced oc t) Logic.eq.
Proof.
  intros oc t. apply interchange_eq.
  - intros v w E (A1 & A2 & A3) (B1 & B2 & B3). apply tri_eq_true in E. destruct E as (E1 & E2 & E3).
    pose proof (fraction_eq _ _ _ A1 B1 E1). pose proof (fraction_eq _ _ _ A2 B2 E2). pose proof (fraction_eq _ _ _ A3 B3 E3).
    destruct v, w. cbn in *. congruence.
  - intros [[]|x|[]|[]|x|x|x] [[]|y|[]|[]|y|y|y] E A B; try discriminate E; f_equal; exact (fraction_eq _ _ _ A B E).
Qed.

Section Floats.
  Variables prec emax : Z.
  Context (Hp : Prec_gt_0 prec) (He : Prec_lt_emax prec emax).
  Notation bf := (binary_float prec emax).
  Notation F := (binF prec emax Hp He).
  Notation alike := (alike prec emax).
  Lemma eqb_alike (x y : bf) : Beqb x y = true -> alike x y.
  Proof. intros E. apply alike_same. left. exact E. Qed.
  Ltac al := first [assumption | apply alike_refl | apply eqb_alike; assumption | apply alike_bmin | apply alike_bmax | apply alike_plus | apply alike_mult].
  Lemma C76_StatFloat_proof : interchangeable (cmp_StatFloat prec emax Hp He) (quad_eq Beqb Beqb) (all_ops _) (fun _ => True) same.
  Proof.
    apply interchange with (R := qalike prec emax).
    - intros v w E _ _. apply quad_eq_true in E. destruct E as (E1 & E2 & E3 & E4). repeat split; al.
    - intros [x|x|[]|[]|x|x|x] [y|y|[]|[]|y|y|y] v w E _ _ (Q1 & Q2 & Q3 & Q4); try discriminate E; cbn in E |- *; repeat split; cbn; repeat al.
    - intros v w x y (Q1 & Q2 & Q3 & Q4) (P1 & P2 & P3 & P4). cbn. repeat split; cbn; repeat al.
    - intros v w (Q1 & Q2 & Q3 & Q4). cbn. apply alike_same. unfold f_bound. cbn. repeat al.
  Qed.
  Lemma C76_StatFloatAdditive_proof : interchangeable (cmp_StatFloatAdditive prec emax Hp He) (quad_eq Beqb Beqb) (all_ops _) (fun _ => True) same.
  Proof.
    apply interchange with (R := qalike prec emax).
    - intros v w E _ _. apply quad_eq_true in E. destruct E as (E1 & E2 & E3 & E4). repeat split; al.
    - intros [x|x|[]|[]|x|x|x] [y|y|[]|[]|y|y|y] v w E _ _ (Q1 & Q2 & Q3 & Q4); try discriminate E; cbn in E |- *; repeat split; cbn; repeat al.
    - intros v w x y (Q1 & Q2 & Q3 & Q4) (P1 & P2 & P3 & P4). cbn. repeat split; cbn; repeat al.
    - intros v w (Q1 & Q2 & Q3 & Q4). cbn. apply alike_same. unfold f_bound. cbn. repeat al.
  Qed.
  Lemma C76_StatMult_proof : interchangeable (cmp_StatMult prec emax Hp He) (tri_eq (F := F) Beqb) (all_ops _) (fun _ => True) same.
  Proof.
    apply interchange with (R := talike prec emax Hp He).
    - intros v w E _ _. apply tri_eq_true in E. destruct E as (E1 & E2 & E3). repeat split; al.
    - intros [[]|x|[]|[]|x|x|x] [[]|y|[]|[]|y|y|y] v w E _ _ (Q1 & Q2 & Q3); try discriminate E; cbn in E |- *; repeat split; cbn; repeat al.
    - intros v w x y (Q1 & Q2 & Q3) (P1 & P2 & P3). cbn. repeat split; cbn; repeat al.
    - intros v w (Q1 & Q2 & Q3). cbn. apply alike_same. unfold f_bound. cbn. repeat al.
  Qed.

  Lemma to_int_zero t s : b_to_int prec emax t (B754_zero s) = b_to_int prec emax t (B754_zero false).
  Proof. destruct s; reflexivity. Qed.
  Lemma round_alike R (x y : bf) : alike x y -> exists a b, round_with R F x = Done a /\ round_with R F y = Done b /\ alike a b.
  Proof.
    intros [z|s s'].
    - assert (E : exists a, round_with R F z = Done a).
      { destruct R; cbn; try (eexists; reflexivity). destruct (Bltb _ z); [eexists; reflexivity|]. destruct (Bltb z _); eexists; reflexivity. }
      destruct E as [a E]. exists a, a. repeat split; try exact E. constructor.
    - destruct R; cbn; do 2 eexists; split; try reflexivity; split; try reflexivity; try constructor.
      all: cbn; destruct s; cbn; try reflexivity.
  Qed.
  Lemma C76_StatIntFloatMul_proof : forall oc t R,
    interchangeable (cmp_StatIntFloatMul prec emax Hp He oc t R) (quad_eq Z.eqb Beqb) (all_ops _) (fun _ => True) Logic.eq.
  Proof.
    intros oc t R.
    apply interchange with (R := fun v w : quad Z bf => addend v = addend w /\ vmin v = vmin w /\ vmax v = vmax w /\ alike (mult v) (mult w)).
    - intros v w E _ _. apply quad_eq_true in E. rewrite !Z.eqb_eq in E. destruct E as (E1 & E2 & E3 & E4). repeat split; try assumption. al.
    - intros [x|x|[]|[]|x|x|x] [y|y|[]|[]|y|y|y] v w E _ _ (Q1 & Q2 & Q3 & Q4); try discriminate E; cbn in E |- *; try apply Z.eqb_eq in E; try subst y;
        unfold q_add, q_min, q_max; rewrite ?Q1, ?Q2, ?Q3.
      + apply out_rel_bind with (R := Logic.eq); [apply out_rel_refl|]. intros a b <-. cbn. repeat split; assumption.
      + cbn. repeat split; try assumption. repeat al.
      + cbn. rewrite ?Q1, ?Q2, ?Q3. repeat split; assumption.
      + cbn. rewrite ?Q1, ?Q2, ?Q3. repeat split; assumption.
      + cbn. repeat split. constructor.
    - intros v w x y (Q1 & Q2 & Q3 & Q4) (P1 & P2 & P3 & P4). cbn. rewrite Q1, Q2, Q3, P1, P2, P3.
      apply out_rel_bind with (R := Logic.eq); [apply out_rel_refl|]. intros a b <-. cbn. repeat split. repeat al.
    - intros v w (Q1 & Q2 & Q3 & Q4). cbn. rewrite Q1.
      destruct (round_alike R (Bmult mode_NE (b_of_int prec emax Hp He (addend w)) (mult v)) (Bmult mode_NE (b_of_int prec emax Hp He (addend w)) (mult w))) as (a & b & A & B & AB).
      { repeat al. }
      rewrite A, B. cbn. unfold i_bound. rewrite Q2, Q3. destruct AB as [z|s s']; [reflexivity|]. rewrite (to_int_zero t s), (to_int_zero t s'). reflexivity.
  Qed.
End Floats.

Lemma C76_nan_refuted_proof : forall prec emax Hp He, exists o : stat_op (statFloat (binF prec emax Hp He)),
  op_eq (cmp_StatFloat prec emax Hp He) o o = false /\ op_partial_cmp (cmp_StatFloat prec emax Hp He) o o = None.
Proof. intros. exists (@OAdd (statFloat (binF prec emax Hp He)) B754_nan). split; reflexivity. Qed.
Lemma C76_unreduced_refuted_proof : exists v w : quad ratio ratio,
  quad_eq (c_eq fraction_cmp) (c_eq fraction_cmp) v w = true /\
  (let! x := steps (S := statFloat (fracF true I8)) v [Write (@OAdd (statFloat (fracF true I8)) (Frac 1 3))] in sv_eval (statFloat (fracF true I8)) x) = Panics POverflow /\
  (let! x := steps (S := statFloat (fracF true I8)) w [Write (@OAdd (statFloat (fracF true I8)) (Frac 1 3))] in sv_eval (statFloat (fracF true I8)) x) = Done (Frac 7 3).
Proof.
  exists (Quad (Frac 100 50) (Frac (-128) 1) (Frac 127 1) (Frac 1 1)), (Quad (Frac 2 1) (Frac (-128) 1) (Frac 127 1) (Frac 1 1)).
  split; [reflexivity|]. split; reflexivity.
Qed.
