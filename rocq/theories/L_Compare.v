(** Proofs: derived comparisons. *)
From Coq Require Import ZArith QArith Reals List Bool Lia Lra.
From Flocq Require Import Core BinarySingleNaN.
From Verif Require Import M_Outcome M_Ints M_Ratio M_Float M_Value M_Types M_Qualifier M_Compare S_Ratio S_Types S_Float S_Totals S_FloatTotals S_Monotone S_Zeros S_Compare
  L_Outcome L_Ints L_Ratio L_RatioQ L_Float L_FloatTotals L_FracTotals L_Monotone L_MonoFloat L_Zeros.
Import ListNotations.
Local Open Scope Z_scope.

(** * Operands *)
Lemma int_contract : contract (anything Z) int_cmp.
Proof.
  split; cbn; intros.
  - apply Z.eqb_eq in H1. subst. apply Z.eqb_refl.
  - apply Z.eqb_eq in H2, H3. subst. apply Z.eqb_refl.
  - rewrite Z.eqb_eq, <- Z.compare_eq_iff. split; [intros [= E]; exact E|intros ->; reflexivity].
  - rewrite (Z.compare_antisym x y). destruct (x ?= y); cbn; split; congruence.
  - injection H2 as H2. injection H3 as H3. f_equal. apply Z.compare_lt_iff. apply -> Z.compare_lt_iff in H2. apply -> Z.compare_lt_iff in H3. lia.
  - apply Z.eqb_eq in H3. subst. exact H2.
  - apply Z.eqb_eq in H2. subst. exact H3.
Qed.
Lemma bool_contract : contract (anything bool) bool_cmp.
Proof. split; cbn; intros; repeat match goal with b : bool |- _ => destruct b end; cbn in *; try split; congruence. Qed.
Lemma never_contract : contract (anything Empty_set) never_cmp.
Proof. split; intros []. Qed.

Definition positive_denom (x : ratio) : Prop := 0 < denom x.
Lemma r_cmp_Q x y : positive_denom x -> positive_denom y -> r_cmp x y = (toQ x ?= toQ y)%Q.
Proof. unfold positive_denom, r_cmp, toQ, Qcompare. cbn. intros A B. rewrite !Z2Pos.id by assumption. reflexivity. Qed.
Lemma fraction_eq_Q x y : positive_denom x -> positive_denom y -> c_eq fraction_cmp x y = true <-> (toQ x == toQ y)%Q.
Proof.
  intros A B. cbn. rewrite r_cmp_Q by assumption. rewrite Qeq_alt. destruct (toQ x ?= toQ y)%Q; split; congruence.
Qed.
Lemma fraction_lt_Q x y : positive_denom x -> positive_denom y -> c_cmp fraction_cmp x y = Some Lt <-> (toQ x < toQ y)%Q.
Proof. intros A B. cbn. rewrite r_cmp_Q by assumption. rewrite Qlt_alt. destruct (toQ x ?= toQ y)%Q; split; congruence. Qed.
Lemma fraction_contract : contract positive_denom fraction_cmp.
Proof.
  split; intros.
  - rewrite fraction_eq_Q in * by assumption. symmetry. assumption.
  - rewrite fraction_eq_Q in * by assumption. etransitivity; eassumption.
  - rewrite fraction_eq_Q by assumption. cbn. rewrite r_cmp_Q by assumption. rewrite Qeq_alt. split; congruence.
  - cbn. rewrite !r_cmp_Q by assumption. rewrite <- (Qcompare_antisym (toQ x) (toQ y)). destruct (toQ x ?= toQ y)%Q; cbn; split; congruence.
  - rewrite fraction_lt_Q in * by assumption. eapply Qlt_trans; eassumption.
  - rewrite fraction_lt_Q, fraction_eq_Q in * by assumption. rewrite <- H3. assumption.
  - rewrite fraction_lt_Q, fraction_eq_Q in * by assumption. rewrite H2. assumption.
Qed.

Section FloatOrder.
  Variables prec emax : Z.
  Context (Hp : Prec_gt_0 prec) (He : Prec_lt_emax prec emax).
  Notation bf := (binary_float prec emax).
  Lemma cmp_nan (x y : bf) c : Bcompare x y = Some c -> is_nan x = false /\ is_nan y = false.
  Proof. destruct x, y; cbn; try discriminate; split; reflexivity. Qed.
  Lemma cmp_lt (x y : bf) : Bcompare x y = Some Lt <-> is_nan x = false /\ is_nan y = false /\ (ext x < ext y)%R.
  Proof.
    split.
    - intros E. destruct (cmp_nan x y _ E) as [A B]. repeat split; try assumption.
      pose proof (ltb_ext prec emax x y A B) as L. rewrite ltb_cmp, E in L. destruct (Rlt_bool_spec (ext x) (ext y)); [assumption|discriminate].
    - intros (A & B & L). pose proof (ltb_ext prec emax x y A B) as E. rewrite ltb_cmp in E. rewrite Rlt_bool_true in E by exact L.
      destruct (Bcompare x y) as [[]|]; congruence.
  Qed.
  Lemma cmp_eq (x y : bf) : Bcompare x y = Some Eq <-> is_nan x = false /\ is_nan y = false /\ ext x = ext y.
  Proof.
    split.
    - intros E. apply (eqb_inv prec emax). rewrite eqb_cmp, E. reflexivity.
    - intros (A & B & L). destruct (cmp_some prec emax x y A B) as [[] E]; rewrite E; [reflexivity| |].
      + apply cmp_lt in E. lra.
      + assert (F : Bcompare y x = Some Lt) by (rewrite Bcompare_swap, E; reflexivity). apply cmp_lt in F. lra.
  Qed.
  Lemma float_contract : contract (anything bf) (float_cmp prec emax).
  Proof.
    assert (EQ : forall x y : bf, Beqb x y = true <-> Bcompare x y = Some Eq).
    { intros x y. rewrite eqb_cmp. destruct (Bcompare x y) as [[]|]; split; congruence. }
    split; cbn [c_eq c_cmp float_cmp]; intros; rewrite ?EQ in *; rewrite ?cmp_lt, ?cmp_eq in *; try tauto.
    - repeat split; try tauto. symmetry. tauto.
    - repeat split; try tauto. etransitivity; [apply H2|apply H3].
    - rewrite <- cmp_lt. rewrite (Bcompare_swap _ _ x y). destruct (Bcompare x y) as [[]|]; cbn; split; congruence.
    - repeat split; try tauto. eapply Rlt_trans; [apply H2|apply H3].
    - repeat split; try tauto. destruct H3 as (_ & _ & <-). tauto.
    - repeat split; try tauto. destruct H2 as (_ & _ & ->). tauto.
  Qed.
  Lemma float_reflexive : reflexive (fun x : bf => is_nan x = false) (float_cmp prec emax).
  Proof. intros x N. cbn. rewrite eqb_cmp. assert (E : Bcompare x x = Some Eq) by (apply cmp_eq; auto). rewrite E. reflexivity. Qed.
  Lemma float_total : total (fun x : bf => is_nan x = false) (float_cmp prec emax).
  Proof. intros x y A B. cbn. destruct (cmp_some prec emax x y A B) as [c ->]. discriminate. Qed.
  Lemma nan_incomparable (x : bf) y : is_nan x = true -> Bcompare x y = None /\ Beqb x y = false /\ Bcompare y x = None /\ Beqb y x = false.
  Proof. rewrite !eqb_cmp. destruct x; try discriminate. destruct y; repeat split. Qed.
End FloatOrder.

Lemma C76_operands_proof :
  (contract (anything Z) int_cmp /\ reflexive (anything Z) int_cmp /\ total (anything Z) int_cmp) /\
  (contract (anything bool) bool_cmp /\ reflexive (anything bool) bool_cmp /\ total (anything bool) bool_cmp) /\
  (contract (anything Empty_set) never_cmp /\ reflexive (anything Empty_set) never_cmp /\ total (anything Empty_set) never_cmp) /\
  (contract (fun x => 0 < denom x) fraction_cmp /\ reflexive (fun _ => True) fraction_cmp /\ total (fun _ => True) fraction_cmp) /\
  forall prec emax (Hp : Prec_gt_0 prec) (He : Prec_lt_emax prec emax),
    contract (anything _) (float_cmp prec emax) /\ reflexive (fun x => is_nan x = false) (float_cmp prec emax) /\
    total (fun x => is_nan x = false) (float_cmp prec emax) /\
    forall x y : binary_float prec emax, is_nan x = true ->
      c_eq (float_cmp prec emax) x y = false /\ c_eq (float_cmp prec emax) y x = false /\
      c_cmp (float_cmp prec emax) x y = None /\ c_cmp (float_cmp prec emax) y x = None.
Proof.
  split; [split; [exact int_contract|split; [intros x _; apply Z.eqb_refl|discriminate]]|].
  split; [split; [exact bool_contract|split; [intros [] _; reflexivity|discriminate]]|].
  split; [split; [exact never_contract|split; intros []]|].
  split; [split; [exact fraction_contract|split; [|discriminate]]|].
  - intros x _. cbn. unfold r_cmp. rewrite Z.compare_refl. reflexivity.
  - intros prec emax Hp He. split; [apply float_contract; assumption|]. split; [apply float_reflexive; assumption|].
    split; [apply float_total; assumption|]. intros x y N. destruct (nan_incomparable prec emax x y N). cbn [c_eq c_cmp float_cmp]. tauto.
Qed.

(** * Operations *)
Section Ops.
  Context {S : StatValue} (K : operands S) (D : allowed S).
  Lemma C76_operations_proof : operand_wise (@contract) D K -> contract (op_in D) (op_cmp K).
  Proof.
    intros (CA & CM & CB & CL & CS). split; cbn [c_eq c_cmp op_cmp].
    - intros [] [] P P' E; cbn in *; try discriminate; eapply eq_sym; eassumption.
    - intros [] [] [] P P' P'' E E'; cbn in *; try discriminate; eapply eq_trans with (y := x0); eassumption.
    - intros [] [] P P'; cbn in *; try (split; discriminate); eapply agrees; eassumption.
    - intros [] [] P P'; cbn in *; try (split; discriminate); try (split; reflexivity); eapply dual; eassumption.
    - intros [] [] [] P P' P'' E E'; cbn in *; try discriminate; try reflexivity; eapply lt_trans with (y := x0); eassumption.
    - intros [] [] [] P P' P'' E E'; cbn in *; try discriminate; try reflexivity; eapply lt_eq with (y := x0); eassumption.
    - intros [] [] [] P P' P'' E E'; cbn in *; try discriminate; try reflexivity; eapply eq_lt with (y := x0); eassumption.
  Qed.
  Lemma C76_operations_reflexive_proof : operand_wise (@reflexive) D K -> reflexive (op_in D) (op_cmp K).
  Proof. intros (CA & CM & CB & CL & CS) [] P; cbn in *; auto. Qed.
  Lemma C76_operations_total_proof : operand_wise (@total) D K -> total (op_in D) (op_cmp K).
  Proof. intros (CA & CM & CB & CL & CS) [] [] P P'; cbn in *; auto; discriminate. Qed.
End Ops.

Lemma C76_kinds_proof : forall (S : StatValue) (K : operands S) (o o' : stat_op S),
  (kind_of o <> kind_of o' -> op_eq K o o' = false) /\
  (before (kind_of o) (kind_of o') -> op_partial_cmp K o o' = Some Lt) /\
  (before (kind_of o') (kind_of o) -> op_partial_cmp K o o' = Some Gt) /\
  (kind_of o = kind_of o' \/ before (kind_of o) (kind_of o') \/ before (kind_of o') (kind_of o)).
Proof.
  intros S K o o'.
  assert (B : forall k l, before k l -> match k with
    | Adds => l <> Adds | Muls => l <> Adds /\ l <> Muls | Ors => l <> Adds /\ l <> Muls /\ l <> Ors
    | Nots => l = Mins \/ l = Maxs \/ l = Bases | Mins => l = Maxs \/ l = Bases | Maxs => l = Bases | Bases => False end).
  { intros k l (a & b & c & E). unfold kinds in E.
    repeat (destruct a as [|? a]; cbn [app] in E; [|injection E as <- E]); try (destruct a; discriminate E); try discriminate E; injection E as <- E;
      repeat (destruct b as [|? b]; cbn [app] in E; [|injection E as <- E]); try (destruct b; discriminate E); try discriminate E;
      try (injection E as <- E); repeat split; auto; discriminate. }
  split; [|split; [|split]].
  - destruct o, o'; cbn; congruence.
  - intros H. apply B in H. destruct o, o'; cbn in *; intuition congruence.
  - intros H. apply B in H. destruct o, o'; cbn in *; intuition congruence.
  - assert (W : forall i j, (i < j < 7)%nat -> before (nth i kinds Adds) (nth j kinds Adds)).
    { intros i j H. unfold before. exists (firstn i kinds), (firstn (j - i - 1) (skipn (Datatypes.S i) kinds)), (skipn (Datatypes.S j) kinds).
      do 7 (destruct i as [|i]; [do 7 (destruct j as [|j]; [try lia; try reflexivity|]); lia|try (exfalso; lia)]). }
    destruct o, o'; cbn [kind_of]; try (left; reflexivity);
      (right; first [left; solve [ apply (W 0 1)%nat; lia | apply (W 0 2)%nat; lia | apply (W 0 3)%nat; lia | apply (W 0 4)%nat; lia | apply (W 0 5)%nat; lia | apply (W 0 6)%nat; lia
        | apply (W 1 2)%nat; lia | apply (W 1 3)%nat; lia | apply (W 1 4)%nat; lia | apply (W 1 5)%nat; lia | apply (W 1 6)%nat; lia
        | apply (W 2 3)%nat; lia | apply (W 2 4)%nat; lia | apply (W 2 5)%nat; lia | apply (W 2 6)%nat; lia
        | apply (W 3 4)%nat; lia | apply (W 3 5)%nat; lia | apply (W 3 6)%nat; lia
        | apply (W 4 5)%nat; lia | apply (W 4 6)%nat; lia | apply (W 5 6)%nat; lia]
      | right; solve [ apply (W 0 1)%nat; lia | apply (W 0 2)%nat; lia | apply (W 0 3)%nat; lia | apply (W 0 4)%nat; lia | apply (W 0 5)%nat; lia | apply (W 0 6)%nat; lia
        | apply (W 1 2)%nat; lia | apply (W 1 3)%nat; lia | apply (W 1 4)%nat; lia | apply (W 1 5)%nat; lia | apply (W 1 6)%nat; lia
        | apply (W 2 3)%nat; lia | apply (W 2 4)%nat; lia | apply (W 2 5)%nat; lia | apply (W 2 6)%nat; lia
        | apply (W 3 4)%nat; lia | apply (W 3 5)%nat; lia | apply (W 3 6)%nat; lia
        | apply (W 4 5)%nat; lia | apply (W 4 6)%nat; lia | apply (W 5 6)%nat; lia]]).
Qed.
Lemma C76_same_kind_proof : forall (S : StatValue) (K : operands S),
  (forall x y, op_eq K (OAdd x) (OAdd y) = c_eq (k_add K) x y /\ op_partial_cmp K (OAdd x) (OAdd y) = c_cmp (k_add K) x y) /\
  (forall x y, op_eq K (OMul x) (OMul y) = c_eq (k_mul K) x y /\ op_partial_cmp K (OMul x) (OMul y) = c_cmp (k_mul K) x y) /\
  (forall x y, op_eq K (OOr x) (OOr y) = c_eq (k_bit K) x y /\ op_partial_cmp K (OOr x) (OOr y) = c_cmp (k_bit K) x y) /\
  (forall x y, op_eq K (ONot x) (ONot y) = c_eq (k_bit K) x y /\ op_partial_cmp K (ONot x) (ONot y) = c_cmp (k_bit K) x y) /\
  (forall x y, op_eq K (OMin x) (OMin y) = c_eq (k_bound K) x y /\ op_partial_cmp K (OMin x) (OMin y) = c_cmp (k_bound K) x y) /\
  (forall x y, op_eq K (OMax x) (OMax y) = c_eq (k_bound K) x y /\ op_partial_cmp K (OMax x) (OMax y) = c_cmp (k_bound K) x y) /\
  (forall x y, op_eq K (OBase x) (OBase y) = c_eq (k_base K) x y /\ op_partial_cmp K (OBase x) (OBase y) = c_cmp (k_base K) x y).
Proof. repeat split. Qed.

(** * Values *)
Definition out_rel {A B} (R : A -> B -> Prop) (a : outcome A) (b : outcome B) : Prop :=
  match a, b with Done x, Done y => R x y | Panics p, Panics q => p = q | UB, UB | NoFuel, NoFuel => True | _, _ => False end.
Lemma out_rel_bind {A B A' B'} (R : A -> B -> Prop) (R' : A' -> B' -> Prop) a b f g :
  out_rel R a b -> (forall x y, R x y -> out_rel R' (f x) (g y)) -> out_rel R' (let! x := a in f x) (let! y := b in g y).
Proof. intros H G. destruct a, b; cbn in *; try contradiction; auto. Qed.

Section Steps.
  Context {S : StatValue} (K : operands S) (veq : val S -> val S -> bool) (D : allowed S) (ok : val S -> Prop).
  Context (R : val S -> val S -> Prop) (Q : outT S -> outT S -> Prop).
  Hypothesis eq_R : forall v w, veq v w = true -> ok v -> ok w -> R v w.
  Hypothesis write_R : forall o o' v w, op_eq K o o' = true -> op_in D o -> op_in D o' -> R v w -> out_rel R (write_to o v) (write_to o' w).
  Hypothesis join_R : forall v w x y, R v w -> R x y -> out_rel R (sv_join S v x) (sv_join S w y).
  Hypothesis eval_Q : forall v w, R v w -> out_rel Q (sv_eval S v) (sv_eval S w).
  Lemma interchange : interchangeable K veq D ok Q.
  Proof.
    intros v w l m E O1 O2 F. pose proof (eq_R v w E O1 O2) as H. clear E O1 O2. revert v w H.
    change (forall v w, R v w -> Forall (step_in D ok) l -> Forall (step_in D ok) m ->
      out_rel Q (let! x := steps v l in sv_eval S x) (let! x := steps w m in sv_eval S x)).
    induction F as [|a b l m A F IH]; intros v w H G G'.
    - cbn [steps obind]. apply eval_Q, H.
    - apply Forall_cons_iff in G. destruct G as [G0 G]. apply Forall_cons_iff in G'. destruct G' as [G0' G'].
      destruct a as [o|u], b as [o'|u']; cbn [step_equal] in A; try contradiction; cbn [steps].
      + rewrite !obind_assoc. eapply out_rel_bind; [apply write_R; eassumption|]. intros x y XY. apply IH; assumption.
      + rewrite !obind_assoc. eapply out_rel_bind; [apply join_R; [exact H|apply eq_R; assumption]|]. intros x y XY. apply IH; assumption.
  Qed.
End Steps.

Lemma out_rel_refl {A} (a : outcome A) : out_rel Logic.eq a a.
Proof. destruct a; cbn; auto. Qed.
(** Where equality is identity. *)
Lemma interchange_eq {S : StatValue} (K : operands S) veq D (ok : val S -> Prop) :
  (forall v w : val S, veq v w = true -> ok v -> ok w -> v = w) ->
  (forall o o', op_eq K o o' = true -> op_in D o -> op_in D o' -> o = o') ->
  interchangeable K veq D ok Logic.eq.
Proof.
  intros V O. apply interchange with (R := Logic.eq); try assumption.
  - intros o o' v w E P P' <-. rewrite (O o o' E P P'). apply out_rel_refl.
  - intros v w x y <- <-. apply out_rel_refl.
  - intros v w <-. apply out_rel_refl.
Qed.
