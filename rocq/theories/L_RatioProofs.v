From Coq Require Import ZArith QArith Qround Bool List Lia.
From Verif Require Import M_Outcome M_Ints M_Ratio M_Float S_Ratio L_Ints L_Ratio L_Round L_RatioQ.
Import ListNotations.
Local Open Scope Z_scope.

Lemma C19_new_exact_or_panics_proof :
  forall (t : ity) (n d : Z),
  imin t <= n <= imax t -> imin t <= d <= imax t ->
  (exists z, r_new true t n d = Done z /\
     d <> 0 /\ reduced t z /\ (toQ z == inject_Z n / inject_Z d)%Q)
  \/ (exists p, r_new true t n d = Panics p).
Proof. exact new_exact. Qed.

Lemma C19_add_exact_or_panics_proof :
  forall (t : ity) (x y : ratio), valid t x -> valid t y ->
  (exists z, r_add true t x y = Done z /\ reduced t z /\ (toQ z == toQ x + toQ y)%Q)
  \/ (exists p, r_add true t x y = Panics p).
Proof. exact add_exact. Qed.

Lemma C19_sub_exact_or_panics_proof :
  forall (t : ity) (x y : ratio), valid t x -> valid t y ->
  (exists z, r_sub true t x y = Done z /\ reduced t z /\ (toQ z == toQ x - toQ y)%Q)
  \/ (exists p, r_sub true t x y = Panics p).
Proof. exact sub_exact. Qed.

Lemma C19_mul_exact_or_panics_proof :
  forall (t : ity) (x y : ratio), valid t x -> valid t y ->
  (exists z, r_mul true t x y = Done z /\ reduced t z /\ (toQ z == toQ x * toQ y)%Q)
  \/ (exists p, r_mul true t x y = Panics p).
Proof. exact mul_exact. Qed.

Lemma C19_mul_succeeds_when_representable_proof :
  forall (oc : bool) (t : ity) (x y z : ratio),
  reduced t x -> reduced t y -> reduced t z ->
  (toQ z == toQ x * toQ y)%Q -> r_mul oc t x y = Done z.
Proof. exact mul_complete. Qed.

Lemma C19_order_of_rationals_proof :
  forall x y : ratio, 0 < denom x -> 0 < denom y -> r_cmp x y = Qcompare (toQ x) (toQ y).
Proof. exact cmp_exact. Qed.

Lemma C19_add_panics_only_if_unrepresentable_refuted_proof :
  ~ (forall (t : ity) (x y z : ratio), reduced t x -> reduced t y -> reduced t z ->
     (toQ z == toQ x + toQ y)%Q -> r_add true t x y = Done z).
Proof.
  intros H.
  assert (R : forall a b, Z.gcd a b = 1 -> -128 <= a <= 127 -> 0 < b <= 127 -> reduced I8 (Frac a b))
    by (intros a b G A B; unfold reduced, valid; cbn; auto).
  specialize (H I8 (Frac 126 1) (Frac (-125) 2) (Frac 127 2)
    ltac:(apply R; [reflexivity|lia|lia]) ltac:(apply R; [reflexivity|lia|lia])
    ltac:(apply R; [reflexivity|lia|lia]) ltac:(reflexivity)).
  discriminate H.
Qed.

Lemma C19_release_exact_refuted_proof :
  ~ (forall (t : ity) (x y z : ratio), reduced t x -> reduced t y ->
     r_mul false t x y = Done z -> (toQ z == toQ x * toQ y)%Q).
Proof.
  intros H.
  assert (R : reduced I8 (Frac 1 127)) by (unfold reduced, valid; cbn; split; [lia|reflexivity]).
  specialize (H I8 (Frac 1 127) (Frac 1 127) (Frac 1 1) R R ltac:(reflexivity)). discriminate H.
Qed.

Lemma C20_fraction_rounding_proof :
  forall (R : rounding) (oc : bool) (t : ity) (x : ratio),
  valid t x -> ~ round_overflows R t (numer x) (denom x) ->
  exists z y, round_with R (fracF oc t) x = Done z /\ valid t z /\
    (toQ z == inject_Z y)%Q /\ rounds_to R (numer x) (denom x) y /\ imin t <= y <= imax t.
Proof.
  intros R oc t x Hv Hno.
  destruct (round_with_frac_spec R oc t x Hv Hno) as [z [y [E [V [N [_ [P B]]]]]]].
  exists z, y. split; [exact E|]. split; [exact V|]. split; [|split; [exact P|exact B]].
  unfold toQ, inject_Z, Qeq; cbn. destruct V as [_ V]. rewrite Z2Pos.id by lia. lia.
Qed.

Lemma C20_rounding_unique_proof :
  forall (R : rounding) (n d y z : Z), 0 < d -> rounds_to R n d y -> rounds_to R n d z -> y = z.
Proof. exact rounds_to_unique. Qed.

Lemma C20_floor_is_Qfloor_proof :
  forall (x : ratio) (y : Z), 0 < denom x -> rounds_to Floor (numer x) (denom x) y <-> y = Qfloor (toQ x).
Proof. exact floor_Q. Qed.

Lemma C20_ceil_is_Qceiling_proof :
  forall (x : ratio) (y : Z), 0 < denom x -> rounds_to Ceil (numer x) (denom x) y <-> y = Qceiling (toQ x).
Proof. exact ceil_Q. Qed.

Lemma C20_fraction_overflow_panics_proof :
  forall (R : rounding) (t : ity) (x : ratio),
  valid t x -> round_overflows R t (numer x) (denom x) ->
  round_with R (fracF true t) x = Panics POverflow.
Proof. exact round_with_frac_overflow. Qed.

Lemma C20_fraction_floor_release_refuted_proof :
  ~ (forall (t : ity) (x z : ratio), reduced t x ->
     round_with Floor (fracF false t) x = Done z -> (toQ z == inject_Z (Qfloor (toQ x)))%Q).
Proof.
  intros H.
  assert (R : reduced I32 (Frac (-2147483648) 3)) by (unfold reduced, valid; cbn; split; [lia|reflexivity]).
  specialize (H I32 (Frac (-2147483648) 3) (Frac 715827882 1) R ltac:(reflexivity)). discriminate H.
Qed.

Lemma C20_fraction_ceil_checked_total_refuted_proof :
  ~ (forall (t : ity) (x : ratio), reduced t x -> exists z, round_with Ceil (fracF true t) x = Done z).
Proof.
  intros H.
  assert (R : reduced I32 (Frac 2147483647 2)) by (unfold reduced, valid; cbn; split; [lia|reflexivity]).
  destruct (H I32 (Frac 2147483647 2) R) as [z E]. discriminate E.
Qed.

Lemma C21_from_i64_nearest_proof :
  forall (t : ity) (v : Z), imax t <= imax I64 ->  imin I64 <= imin t ->
  exists r, from_i64 t v = Done r /\ imin t <= r <= imax t /\
    (forall r', imin t <= r' <= imax t -> Z.abs (v - r) <= Z.abs (v - r')).
Proof.
  intros t v H1 H2. rewrite from_i64_ok by (destruct t; try reflexivity; exfalso; apply H1; reflexivity).
  eexists. split; [reflexivity|]. pose proof (imin_le0 t). pose proof (imax_ge127 t).
  split; [lia|]. intros r' Hr. lia.
Qed.

Lemma C21_from_i64_wide_panics_proof :
  forall (t : ity) (v : Z), imax I64 < imax t -> from_i64 t v = Panics PClamp.
Proof.
  intros t v H. apply from_i64_panics. destruct t; try reflexivity; discriminate H.
Qed.

Lemma C21_from_i64_total_refuted_proof :
  ~ (forall (t : ity) (v : Z), exists r, from_i64 t v = Done r).
Proof. intros H. destruct (H U64 100) as [r E]. discriminate E. Qed.
Lemma C19_release_agrees_proof :
  forall (t : ity) (x y z : ratio),
  (r_reduce true t x = Done z -> r_reduce false t x = Done z) /\
  (r_add true t x y = Done z -> r_add false t x y = Done z) /\
  (r_sub true t x y = Done z -> r_sub false t x y = Done z) /\
  (r_mul true t x y = Done z -> r_mul false t x y = Done z) /\
  (r_floor true t x = Done z -> r_floor false t x = Done z) /\
  (r_ceil true t x = Done z -> r_ceil false t x = Done z) /\
  (r_round true t x = Done z -> r_round false t x = Done z).
Proof.
  exact (fun t x y z =>
    conj (r_reduce_mono false t x z) (conj (r_add_mono false t x y z) (conj (r_sub_mono false t x y z)
    (conj (r_mul_mono false t x y z) (conj (r_floor_mono false t x z) (conj (r_ceil_mono false t x z)
    (r_round_mono false t x z))))))).
Qed.

Lemma C19_lowest_terms_unique_proof :
  forall (t : ity) (x y : ratio), reduced t x -> reduced t y -> (toQ x == toQ y)%Q -> x = y.
Proof.
  exact (fun t x y Hx Hy E =>
    reduced_inj t x y Hx Hy
      (proj1 (toQ_eq x y (proj1 (proj2 (proj1 Hx))) (proj1 (proj2 (proj1 Hy)))) E)).
Qed.
