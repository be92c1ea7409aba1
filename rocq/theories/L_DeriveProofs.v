From Coq Require Import String ZArith List Bool Lia.
From Verif Require Import M_Outcome M_Derive S_Derive L_Derive.
Import ListNotations.
Local Open Scope Z_scope.

Lemma C40_indices_distinct_iff_proof :
  forall (oc : bool) (l : list variant), accepted l ->
  exists ix, indices oc l = Some ix /\ length ix = length l /\ (NoDup ix <-> gap l).
Proof.
  intros oc l A. eexists. split; [apply indices_split, A|]. split; [|apply distinct_iff, A].
  assert (H : forall n, length (discriminants_from n l) = length l) by (clear; induction l; intros; cbn; auto).
  rewrite <- (H 1), (discr_split l 1), (tail_same l 1 0). reflexivity.
Qed.

Lemma C40_indices_distinct_refuted_proof :
  exists l ix, accepted l /\ (forall oc, indices oc l = Some ix) /\ ~ NoDup ix /\
  exists k, (k < length l)%nat /\ d_from_index l ix (d_as_index ix k) <> Done k.
Proof.
  exists enum_ab, [1; 1]. split.
  - constructor; cbn; unfold u64_max; repeat constructor; cbn; try lia; intros H; repeat (destruct H as [H|H]; try discriminate H); auto.
  - split; [intros []; reflexivity|]. split; [intros H; apply NoDup_cons_iff in H; destruct H as [H _]; apply H; left; reflexivity|].
    exists 1%nat. split; [cbn; lia|]. cbn. discriminate.
Qed.

Lemma C40_from_index_first_proof :
  forall (l : list variant) (ix : list Z) k, (k < length ix)%nat ->
  exists k', d_from_index l ix (d_as_index ix k) = Done k' /\ (k' <= k)%nat /\
    d_as_index ix k' = d_as_index ix k /\ forall j, (j < k')%nat -> d_as_index ix j <> d_as_index ix k.
Proof.
  intros l ix k Hk. unfold d_from_index, d_as_index.
  destruct (arms_hit ix (nth k ix 0)) as (k' & A & B & C & D); [apply nth_In, Hk|].
  exists k'. rewrite A. split; [reflexivity|]. split; [|auto]. destruct (Nat.le_gt_cases k' k) as [|G]; [assumption|]. destruct (D k G eq_refl).
Qed.

Lemma C40_round_trip_iff_proof :
  forall (l : list variant) (ix : list Z),
  NoDup ix <-> forall k, (k < length ix)%nat -> d_from_index l ix (d_as_index ix k) = Done k.
Proof.
  intros l ix. split.
  - intros N k Hk. destruct (C40_from_index_first_proof l ix k Hk) as (k' & A & B & C & _). rewrite A. f_equal.
    apply (proj1 (NoDup_nth ix 0) N); [lia|assumption|exact C].
  - intros H. apply (NoDup_nth ix 0). intros i j Hi Hj E.
    pose proof (H i Hi) as A. pose proof (H j Hj) as B. unfold d_as_index in A, B. rewrite E in A. congruence.
Qed.

Lemma C40_first_explicit_proof :
  forall (oc : bool) (l : list variant), accepted l -> leading l = O ->
  indices oc l = Some (discriminants l) /\
  forall k, (k < length l)%nat -> d_from_index l (discriminants l) (d_as_index (discriminants l) k) = Done k.
Proof.
  intros oc l A L. assert (E : indices oc l = Some (discriminants l)).
  { rewrite (indices_split oc l A). unfold tail_discriminants. rewrite L. reflexivity. }
  split; [exact E|]. destruct (C40_indices_distinct_iff_proof oc l A) as (ix & E' & Len & _). rewrite E in E'. injection E' as <-.
  intros k Hk. apply C40_round_trip_iff_proof; [apply acc_distinct, A|rewrite Len; exact Hk].
Qed.

Lemma C40_all_implicit_proof :
  forall (oc : bool) (l : list variant), accepted l -> (forall v, In v l -> vr_disc v = None) ->
  exists ix, indices oc l = Some ix /\
  (forall k, (k < length l)%nat -> d_as_index ix k = Z.of_nat k + 1 /\ d_from_index l ix (d_as_index ix k) = Done k).
Proof.
  intros oc l A H. assert (L : leading l = length l).
  { clear A. induction l as [|v l IH]; cbn; [reflexivity|]. rewrite (H v) by (left; reflexivity). f_equal. apply IH. intros w Hw. apply H. right. assumption. }
  destruct (C40_indices_distinct_iff_proof oc l A) as (ix & E & Len & G). exists ix. split; [exact E|].
  assert (N : NoDup ix).
  { apply G. right. unfold tail_discriminants. rewrite L. rewrite skipn_all2; [intros []|].
    assert (K : forall n, length (discriminants_from n l) = length l) by (clear; induction l; intros; cbn; auto). unfold discriminants. rewrite K. lia. }
  intros k Hk. split; [|apply C40_round_trip_iff_proof; [exact N|rewrite Len; exact Hk]].
  rewrite (indices_split oc l A) in E. injection E as <-. unfold d_as_index. rewrite app_nth1 by (rewrite run_of_length; lia).
  rewrite <- L in Hk. assert (R : forall n a j, (j < n)%nat -> nth j (run_of a n) 0 = a + Z.of_nat j).
  { clear. induction n as [|n IH]; intros a [|j] Hj; cbn; try lia. rewrite IH by lia. lia. }
  rewrite R by assumption. lia.
Qed.

Lemma C40_bad_index_proof :
  forall (l : list variant) (ix : list Z) i, ~ In i ix ->
  ((forall v, In v l -> vr_default v = false) /\ d_from_index l ix i = Panics PBadIndex) \/
  exists k v, nth_error l k = Some v /\ vr_default v = true /\ d_from_index l ix i = Done k /\
    forall k' v', nth_error l k' = Some v' -> vr_default v' = true -> (k' <= k)%nat.
Proof.
  intros l ix i H. unfold d_from_index. rewrite (proj2 (arms_none ix i 0) H).
  destruct (default_arm_spec l 0 (Panics PBadIndex)) as [A|(j & v & A)]; [left; exact A|right; exists j, v; exact A].
Qed.

Lemma C40_values_names_proof :
  forall l : list variant, accepted l ->
  (forall k, In k (d_values l) <-> (k < length l)%nat) /\ NoDup (d_values l) /\
  (forall j k, (j < length l)%nat -> (k < length l)%nat -> d_name l j = d_name l k -> j = k) /\
  (forall u, unit_from_index (unit_as_index u) = Done u /\ In u unit_values).
Proof.
  intros l A. split; [intros k; unfold d_values; rewrite in_seq; lia|]. split; [apply seq_NoDup|]. split.
  - intros j k Hj Hk. apply (proj1 (NoDup_nth _ _) (acc_names l A)); rewrite map_length; assumption.
  - intros []. split; [reflexivity|left; reflexivity].
Qed.

Lemma C40_vtable_names_iff_proof :
  forall (oc : bool) (l : list variant) ix, accepted l -> indices oc l = Some ix ->
  ((forall n i, In (n, i) (d_named l ix) -> d_vtable_name l ix i = Done n) <-> gap l).
Proof.
  intros oc l ix A E. destruct (C40_indices_distinct_iff_proof oc l A) as (ix' & E' & Len & G). rewrite E in E'. injection E' as <-.
  rewrite <- G. unfold d_named, d_vtable_name. split.
  - intros H. apply (C40_round_trip_iff_proof l). intros k Hk.
    destruct (C40_from_index_first_proof l ix k Hk) as (k' & B1 & B2 & _). rewrite B1.
    specialize (H (d_name l k) (d_as_index ix k)). rewrite B1 in H. cbn [obind] in H.
    assert (K : Done (d_name l k') = Done (d_name l k)).
    { apply H. apply in_map_iff. exists k. split; [reflexivity|]. apply in_seq. lia. }
    injection K as K. f_equal. apply (C40_values_names_proof l A); [lia|lia|exact K].
  - intros N n i H. apply in_map_iff in H. destruct H as (k & H & Hk). injection H as <- <-. apply in_seq in Hk.
    rewrite (proj1 (C40_round_trip_iff_proof l ix) N k) by lia. reflexivity.
Qed.
