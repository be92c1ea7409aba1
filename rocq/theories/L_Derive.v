From Coq Require Import String ZArith List Bool Lia Permutation.
From Verif Require Import M_Outcome M_Derive S_Derive.
Import ListNotations.
Local Open Scope Z_scope.

(** After an explicit discriminant both numberings agree. *)
Lemma indices_after oc l : forall last, Forall (fun d => 0 <= d <= u64_max) (discriminants_from (last + 1) l) ->
  indices_from oc last l = Some (discriminants_from (last + 1) l).
Proof.
  induction l as [|v l IH]; intros last F; cbn [indices_from discriminants_from]; [reflexivity|].
  cbn [discriminants_from] in F. apply Forall_cons_iff in F. destruct F as [F1 F2]. destruct (vr_disc v) as [d|].
  - replace ((0 <=? d) && (d <=? u64_max)) with true by (symmetry; apply andb_true_iff; split; apply Z.leb_le; lia).
    rewrite IH by assumption. reflexivity.
  - destruct (u64_max <? last + 1) eqn:E; [apply Z.ltb_lt in E; lia|]. rewrite IH by assumption. reflexivity.
Qed.

Fixpoint run_of (a : Z) (n : nat) : list Z := match n with O => [] | S n' => a :: run_of (a + 1) n' end.
Lemma run_of_in a n : forall x, In x (run_of a n) <-> a <= x < a + Z.of_nat n.
Proof. revert a. induction n as [|n IH]; intros a x; cbn [run_of In]; [lia|]. rewrite IH. lia. Qed.
Lemma run_of_nodup a n : NoDup (run_of a n).
Proof. revert a. induction n as [|n IH]; intros a; cbn [run_of]; constructor; [rewrite run_of_in; lia|apply IH]. Qed.
Lemma run_of_length a n : length (run_of a n) = n.
Proof. revert a. induction n; intros; cbn; auto. Qed.

Lemma discr_split l : forall next, discriminants_from next l = run_of next (leading l) ++ skipn (leading l) (discriminants_from next l).
Proof.
  induction l as [|v l IH]; intros next; cbn [discriminants_from leading]; [reflexivity|].
  destruct (vr_disc v); cbn [run_of skipn app]; [reflexivity|]. rewrite <- IH. reflexivity.
Qed.
Lemma leading_length l : (leading l <= length l)%nat.
Proof. induction l as [|v l IH]; cbn; [lia|]. destruct (vr_disc v); lia. Qed.

(** The tail does not depend on where the leading run starts. *)
Lemma tail_same l : forall a b, skipn (leading l) (discriminants_from a l) = skipn (leading l) (discriminants_from b l).
Proof.
  induction l as [|v l IH]; intros a b; cbn [discriminants_from leading]; [reflexivity|].
  destruct (vr_disc v); cbn [skipn]; [reflexivity|]. apply IH.
Qed.

Lemma indices_split oc l : accepted l ->
  indices oc l = Some (run_of 1 (leading l) ++ tail_discriminants l).
Proof.
  intros [_ _ F L]. unfold indices, tail_discriminants, discriminants in *.
  rewrite (tail_same l 0 1). rewrite <- (discr_split l 1). apply (indices_after oc l 0). cbn.
  rewrite (discr_split l 0) in F. apply Forall_app in F. destruct F as [_ F].
  rewrite (discr_split l 1), (tail_same l 1 0). apply Forall_app. split; [|exact F].
  apply Forall_forall. intros x Hx. apply run_of_in in Hx. pose proof (leading_length l). lia.
Qed.

Lemma nodup_app {A} (a b : list A) : NoDup (a ++ b) <-> NoDup a /\ NoDup b /\ forall x, In x a -> ~ In x b.
Proof.
  induction a as [|x a IH]; cbn.
  - split; [intros H; repeat split; auto; constructor|intros (_ & H & _); exact H].
  - split.
    + intros H. apply NoDup_cons_iff in H. destruct H as [H1 H2]. apply IH in H2. destruct H2 as (H2 & H3 & H4).
      split; [constructor; [intros I; apply H1, in_or_app; auto|assumption]|]. split; [assumption|].
      intros y [->|Hy]; [intros I; apply H1, in_or_app; auto|auto].
    + intros (H1 & H2 & H3). apply NoDup_cons_iff in H1. destruct H1 as [H1 H4]. constructor.
      * intros I. apply in_app_or in I. destruct I as [I|I]; [auto|]. apply (H3 x); auto.
      * apply IH. split; [assumption|]. split; [assumption|]. intros y Hy. apply H3. auto.
Qed.

Lemma distinct_iff l : accepted l -> NoDup (run_of 1 (leading l) ++ tail_discriminants l) <-> gap l.
Proof.
  intros [_ D _ _]. unfold discriminants in D. rewrite (discr_split l 0) in D. fold (discriminants l) in D. fold (tail_discriminants l) in D.
  apply nodup_app in D. destruct D as (_ & D2 & D3). rewrite nodup_app. unfold gap. split.
  - intros (_ & _ & H). destruct (leading l) as [|n] eqn:E; [auto|right]. apply H. apply run_of_in. lia.
  - intros G. split; [apply run_of_nodup|]. split; [assumption|]. intros x Hx I. apply run_of_in in Hx.
    destruct G as [G|G]; [rewrite G in Hx; lia|].
    destruct (Z.eq_dec x (Z.of_nat (leading l))) as [->|Hn]; [auto|].
    apply (D3 x); [apply run_of_in; lia|assumption].
Qed.

(** First matching arm. *)
Lemma arms_some js i : forall k k', arms k js i = Some k' ->
  (k <= k')%nat /\ (k' - k < length js)%nat /\ nth (k' - k) js 0 = i /\ forall j, (j < k' - k)%nat -> nth j js 0 <> i.
Proof.
  induction js as [|x js IH]; intros k k' H; cbn in H; [discriminate|]. destruct (x =? i) eqn:E.
  - injection H as <-. apply Z.eqb_eq in E. rewrite Nat.sub_diag. cbn. repeat split; [lia..|assumption|]. intros j Hj. lia.
  - destruct (IH _ _ H) as (A & B & C & D). replace (k' - k)%nat with (S (k' - S k)) by lia. cbn. repeat split; [lia|lia|exact C|].
    intros [|j] Hj; [apply Z.eqb_neq, E|apply D; lia].
Qed.
Lemma arms_none js i : forall k, arms k js i = None <-> ~ In i js.
Proof.
  induction js as [|x js IH]; intros k; cbn; [tauto|]. destruct (x =? i) eqn:E.
  - apply Z.eqb_eq in E. split; [discriminate|]. intros H. destruct H. auto.
  - apply Z.eqb_neq in E. rewrite IH. tauto.
Qed.
Lemma arms_hit js i : In i js -> exists k, arms 0 js i = Some k /\ (k < length js)%nat /\ nth k js 0 = i /\ forall j, (j < k)%nat -> nth j js 0 <> i.
Proof.
  intros I. destruct (arms 0 js i) as [k|] eqn:E; [|apply arms_none in E; contradiction].
  exists k. destruct (arms_some js i 0 k E) as (_ & B & C & D). rewrite Nat.sub_0_r in *. auto.
Qed.

Lemma default_arm_spec vs : forall k d,
  (forall v, In v vs -> vr_default v = false) /\ default_arm k vs d = d \/
  exists j v, nth_error vs j = Some v /\ vr_default v = true /\ default_arm k vs d = Done (k + j)%nat /\
    forall j' v', nth_error vs j' = Some v' -> vr_default v' = true -> (j' <= j)%nat.
Proof.
  induction vs as [|v vs IH]; intros k d; cbn [default_arm]; [left; split; [intros v []|reflexivity]|].
  destruct (IH (S k) (if vr_default v then Done k else d)) as [[A B]|(j & w & A & B & C & D)].
  - destruct (vr_default v) eqn:E.
    + right. exists O, v. rewrite B, Nat.add_0_r. repeat split; auto. intros [|j'] v' H1 H2; [lia|]. cbn in H1.
      apply nth_error_In in H1. rewrite (A _ H1) in H2. discriminate.
    + left. split; [|assumption]. intros v' [<-|H]; auto.
  - right. exists (S j), w. split; [assumption|]. split; [assumption|]. split; [rewrite C; f_equal; lia|].
    intros [|j'] v' H1 H2; [lia|]. apply le_n_S. eapply D; eassumption.
Qed.
