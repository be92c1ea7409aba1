(** C40: the code generated by [#[derive(Stat)]]. *)
From Coq Require Import String ZArith List Bool Lia.
From Verif Require Import M_Outcome M_Derive S_Derive L_Derive L_DeriveProofs.
Import ListNotations.
Local Open Scope Z_scope.

(** For every enum the compiler accepts the macro succeeds, and its indices are distinct exactly
    if the discriminant following the leading run of implicit variants is not used. *)
Theorem C40_indices_distinct_iff :
  forall (oc : bool) (l : list variant), accepted l ->
  exists ix, indices oc l = Some ix /\ length ix = length l /\ (NoDup ix <-> gap l).
Proof. exact C40_indices_distinct_iff_proof. Qed.
Print Assumptions C40_indices_distinct_iff.

(** As stated the property is false: [enum { A, B = 1 }] gets the indices 1 and 1, and
    [from_index(as_index(B))] is [A]. *)
Theorem C40_indices_distinct_refuted :
  exists l ix, accepted l /\ (forall oc, indices oc l = Some ix) /\ ~ NoDup ix /\
  exists k, (k < length l)%nat /\ d_from_index l ix (d_as_index ix k) <> Done k.
Proof. exact C40_indices_distinct_refuted_proof. Qed.
Print Assumptions C40_indices_distinct_refuted.

(** What [from_index] recovers: the first variant with the same index, hence the variant itself
    for all of them exactly if the indices are distinct. *)
Theorem C40_from_index_first :
  forall (l : list variant) (ix : list Z) k, (k < length ix)%nat ->
  exists k', d_from_index l ix (d_as_index ix k) = Done k' /\ (k' <= k)%nat /\
    d_as_index ix k' = d_as_index ix k /\ forall j, (j < k')%nat -> d_as_index ix j <> d_as_index ix k.
Proof. exact C40_from_index_first_proof. Qed.
Print Assumptions C40_from_index_first.

Theorem C40_round_trip_iff :
  forall (l : list variant) (ix : list Z),
  NoDup ix <-> forall k, (k < length ix)%nat -> d_from_index l ix (d_as_index ix k) = Done k.
Proof. exact C40_round_trip_iff_proof. Qed.
Print Assumptions C40_round_trip_iff.

(** The property holds for every enum with a leading explicit discriminant; the indices are then
    the discriminants themselves. *)
Theorem C40_first_explicit :
  forall (oc : bool) (l : list variant), accepted l -> leading l = O ->
  indices oc l = Some (discriminants l) /\
  forall k, (k < length l)%nat -> d_from_index l (discriminants l) (d_as_index (discriminants l) k) = Done k.
Proof. exact C40_first_explicit_proof. Qed.
Print Assumptions C40_first_explicit.

(** And for every enum without explicit discriminants; the indices are then 1, 2, 3 … *)
Theorem C40_all_implicit :
  forall (oc : bool) (l : list variant), accepted l -> (forall v, In v l -> vr_disc v = None) ->
  exists ix, indices oc l = Some ix /\
  (forall k, (k < length l)%nat -> d_as_index ix k = Z.of_nat k + 1 /\ d_from_index l ix (d_as_index ix k) = Done k).
Proof. exact C40_all_implicit_proof. Qed.
Print Assumptions C40_all_implicit.

(** An index of no variant: the last variant marked [#[default]], or the panic. *)
Theorem C40_bad_index :
  forall (l : list variant) (ix : list Z) i, ~ In i ix ->
  ((forall v, In v l -> vr_default v = false) /\ d_from_index l ix i = Panics PBadIndex) \/
  exists k v, nth_error l k = Some v /\ vr_default v = true /\ d_from_index l ix i = Done k /\
    forall k' v', nth_error l k' = Some v' -> vr_default v' = true -> (k' <= k)%nat.
Proof. exact C40_bad_index_proof. Qed.
Print Assumptions C40_bad_index.

(** [values] lists every variant once, [name] is injective, and the unit struct round trips. *)
Theorem C40_values_names :
  forall l : list variant, accepted l ->
  (forall k, In k (d_values l) <-> (k < length l)%nat) /\ NoDup (d_values l) /\
  (forall j k, (j < length l)%nat -> (k < length l)%nat -> d_name l j = d_name l k -> j = k) /\
  (forall u, unit_from_index (unit_as_index u) = Done u /\ In u unit_values).
Proof. exact C40_values_names_proof. Qed.
Print Assumptions C40_values_names.

(** The name the vtable gives for a value is the one the value was registered with, for all values
    exactly if the indices are distinct. *)
Theorem C40_vtable_names_iff :
  forall (oc : bool) (l : list variant) ix, accepted l -> indices oc l = Some ix ->
  ((forall n i, In (n, i) (d_named l ix) -> d_vtable_name l ix i = Done n) <-> gap l).
Proof. exact C40_vtable_names_iff_proof. Qed.
Print Assumptions C40_vtable_names_iff.

(** tests/derive.rs; an enum with a default; and the colliding one. *)
Example C40_case :
  indices true enum_num = Some [2; 0; 1; 3] /\ discriminants enum_num = [2; 0; 1; 3] /\
  indices true enum_def = Some [1; 2; 5; 6; 3] /\ discriminants enum_def = [0; 1; 5; 6; 3] /\
  d_from_index enum_def [1; 2; 5; 6; 3] 6 = Done 3%nat /\ d_from_index enum_def [1; 2; 5; 6; 3] 0 = Done 4%nat /\
  d_from_index enum_num [2; 0; 1; 3] 4 = Panics PBadIndex /\
  d_name enum_ab 0 = "A"%string /\ d_from_index enum_ab [1; 1] 1 = Done 0%nat /\
  d_named enum_ab [1; 1] = [("A", 1); ("B", 1)]%string.
Proof. repeat split; reflexivity. Qed.
Example C40_hypotheses : accepted enum_def /\ gap enum_def /\ leading enum_num = O /\ accepted enum_ab /\ ~ gap enum_ab.
Proof.
  split; [constructor; cbn; unfold u64_max; repeat constructor; cbn; try lia; intros H; repeat (destruct H as [H|H]; try discriminate H); auto|].
  split; [right; cbn; intros H; repeat (destruct H as [H|H]; try discriminate H); auto|]. split; [reflexivity|].
  split; [constructor; cbn; unfold u64_max; repeat constructor; cbn; try lia; intros H; repeat (destruct H as [H|H]; try discriminate H); auto|].
  intros [H|H]; [discriminate H|apply H; left; reflexivity].
Qed.
