From Coq Require Import ZArith Lia Bool.
From Verif Require Import M_Outcome M_Ints.
Local Open Scope Z_scope.

Definition ity_ok (t : ity) (z : Z) : Prop := imin t <= z <= imax t.

Definition modulus (t : ity) : Z := 2 ^ bits t.

Lemma modulus_pos t : 0 < modulus t.
Proof. destruct t; reflexivity. Qed.

Lemma imax_eq t : imax t = imin t + modulus t - 1.
Proof. destruct t; reflexivity. Qed.

Lemma imin_le0 t : imin t <= 0.
Proof. destruct t; cbv; discriminate. Qed.

Lemma imax_ge127 t : 127 <= imax t.
Proof. destruct t; cbv; discriminate. Qed.

Lemma unsigned_imin t : signed t = false -> imin t = 0.
Proof. destruct t; cbn; intros H; try discriminate; reflexivity. Qed.

Lemma signed_imin t : signed t = true -> imin t = - imax t - 1.
Proof. destruct t; cbn; intros H; try discriminate; reflexivity. Qed.

Lemma in_range_iff t z : in_range t z = true <-> ity_ok t z.
Proof. unfold in_range, ity_ok. rewrite andb_true_iff, !Z.leb_le. tauto. Qed.

Lemma in_range_false t z : in_range t z = false <-> ~ ity_ok t z.
Proof. rewrite <- in_range_iff. destruct (in_range t z); intuition congruence. Qed.

Lemma wrap_range t z : ity_ok t (wrap t z).
Proof.
  unfold ity_ok, wrap. rewrite imax_eq. fold (modulus t).
  pose proof (Z.mod_pos_bound (z - imin t) (modulus t) (modulus_pos t)). lia.
Qed.

Lemma wrap_id t z : ity_ok t z -> wrap t z = z.
Proof.
  unfold ity_ok, wrap. rewrite imax_eq. fold (modulus t). intros H.
  rewrite Z.mod_small by lia. lia.
Qed.

Lemma wrap_congr t z : exists k, wrap t z = z + k * modulus t.
Proof.
  exists (- ((z - imin t) / modulus t)). unfold wrap. fold (modulus t).
  pose proof (modulus_pos t). pose proof (Z.div_mod (z - imin t) (modulus t)). lia.
Qed.

Lemma wrap_shift t z k : wrap t (z + k * modulus t) = wrap t z.
Proof.
  unfold wrap. fold (modulus t).
  replace (z + k * modulus t - imin t) with (z - imin t + k * modulus t) by lia.
  rewrite Z.mod_add by (pose proof (modulus_pos t); lia). reflexivity.
Qed.

Lemma wrap_eq t a b : (exists k, a = b + k * modulus t) -> wrap t a = wrap t b.
Proof. intros [k ->]. apply wrap_shift. Qed.

Lemma wrap_add_l t a b : wrap t (wrap t a + b) = wrap t (a + b).
Proof. destruct (wrap_congr t a) as [k H]. apply wrap_eq. exists k. lia. Qed.

Lemma wrap_add_r t a b : wrap t (a + wrap t b) = wrap t (a + b).
Proof. rewrite Z.add_comm, wrap_add_l, Z.add_comm. reflexivity. Qed.

Lemma wrap_mul_l t a b : wrap t (wrap t a * b) = wrap t (a * b).
Proof. destruct (wrap_congr t a) as [k H]. apply wrap_eq. exists (k * b). rewrite H. ring. Qed.

Lemma wrap_mul_r t a b : wrap t (a * wrap t b) = wrap t (a * b).
Proof. rewrite Z.mul_comm, wrap_mul_l, Z.mul_comm. reflexivity. Qed.

Lemma sat_range t z : ity_ok t (sat t z).
Proof. unfold ity_ok, sat. pose proof (imin_le0 t). pose proof (imax_ge127 t). lia. Qed.

Lemma sat_id t z : ity_ok t z -> sat t z = z.
Proof. unfold ity_ok, sat. lia. Qed.

Lemma chk_id oc t z : ity_ok t z -> chk oc t z = Done z.
Proof. intros H. unfold chk. apply in_range_iff in H. rewrite H. reflexivity. Qed.

Lemma chk_true_inv t z r : chk true t z = Done r -> r = z /\ ity_ok t z.
Proof.
  unfold chk. destruct (in_range t z) eqn:E; intros H; [|discriminate].
  inversion H; subst. apply in_range_iff in E. auto.
Qed.

Lemma chk_true_iff t z : chk true t z = Done z <-> ity_ok t z.
Proof.
  split; [intros H; apply chk_true_inv in H; tauto|apply chk_id].
Qed.

Lemma chk_range oc t z r : chk oc t z = Done r -> ity_ok t r.
Proof.
  unfold chk. destruct (in_range t z) eqn:E.
  - intros H. inversion H; subst. apply in_range_iff. exact E.
  - destruct oc; [discriminate|]. intros H. inversion H. apply wrap_range.
Qed.

(** A successful checked computation is what the unchecked build computes. *)
Lemma chk_mono oc t z r : chk true t z = Done r -> chk oc t z = Done r.
Proof. intros H. apply chk_true_inv in H. destruct H as [-> H]. apply chk_id. exact H. Qed.

(** Types whose arithmetic wraps: [Wrapping<T>], and primitives without overflow checks. *)
Definition wraps (oc : bool) (T : intp) : Prop :=
  i_flav T = FWrapping \/ (i_flav T = FPrim /\ oc = false).

Lemma wraps_norm oc T z : wraps oc T -> i_norm oc T z = Done (wrap (i_ty T) z).
Proof.
  unfold i_norm. intros [->|[-> ->]]; [reflexivity|]. unfold chk.
  destruct (in_range (i_ty T) z) eqn:E; [|reflexivity].
  apply in_range_iff in E. rewrite wrap_id by exact E. reflexivity.
Qed.

Lemma i_norm_range oc T z r : i_norm oc T z = Done r -> ity_ok (i_ty T) r.
Proof.
  unfold i_norm. destruct (i_flav T).
  - apply chk_range.
  - intros H. inversion H. apply wrap_range.
  - intros H. inversion H. apply sat_range.
Qed.

Lemma i_norm_id oc T z : ity_ok (i_ty T) z -> i_norm oc T z = Done z.
Proof.
  intros H. unfold i_norm. destruct (i_flav T).
  - apply chk_id. exact H.
  - rewrite wrap_id by exact H. reflexivity.
  - rewrite sat_id by exact H. reflexivity.
Qed.

Lemma i_min_eq a b : i_min a b = Z.min a b.
Proof. unfold i_min. destruct (Z.ltb_spec b a); lia. Qed.

Lemma i_max_eq a b : i_max a b = Z.max a b.
Proof. unfold i_max. destruct (Z.ltb_spec b a); lia. Qed.

Lemma from_i64_narrow t v :
  wrap I64 (imin t) <= wrap I64 (imax t) ->
  from_i64 t v = Done (wrap t (Z.max (wrap I64 (imin t)) (Z.min v (wrap I64 (imax t))))).
Proof.
  intros H. unfold from_i64, i64_clamp.
  destruct (Z.leb_spec (wrap I64 (imin t)) (wrap I64 (imax t))); [|lia].
  cbn. repeat f_equal. destruct (Z.ltb_spec v (wrap I64 (imin t))); [lia|].
  destruct (Z.ltb_spec (wrap I64 (imax t)) v); lia.
Qed.

(** The types whose bounds survive the casts [MIN as i64], [MAX as i64]. *)
Definition fits_i64 (t : ity) : bool :=
  match t with U64 | Usize | U128 | I128 => false | _ => true end.

Lemma from_i64_ok t v : fits_i64 t = true ->
  from_i64 t v = Done (Z.max (imin t) (Z.min v (imax t))).
Proof.
  intros H. assert (Hmin : wrap I64 (imin t) = imin t) by (destruct t; try discriminate; reflexivity).
  assert (Hmax : wrap I64 (imax t) = imax t) by (destruct t; try discriminate; reflexivity).
  rewrite from_i64_narrow; rewrite Hmin, Hmax.
  - rewrite wrap_id; [reflexivity|]. unfold ity_ok.
    pose proof (imin_le0 t). pose proof (imax_ge127 t). lia.
  - pose proof (imin_le0 t). pose proof (imax_ge127 t). lia.
Qed.

Lemma from_i64_panics t v : fits_i64 t = false -> from_i64 t v = Panics PClamp.
Proof. destruct t; intros H; try discriminate; reflexivity. Qed.
