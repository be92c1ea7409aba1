From Coq Require Import ZArith QArith Lia Bool List Permutation.
From Verif Require Import M_Outcome M_Ints M_Ratio M_Float M_Value M_Types S_Ratio S_Types
  L_Outcome L_Ints L_Ratio L_Round L_RatioQ L_Types L_Types2.
Import ListNotations.
Local Open Scope Z_scope.
Local Arguments Z.mul : simpl never.
Local Arguments Z.add : simpl never.
Local Arguments Z.sub : simpl never.
Local Arguments Z.opp : simpl never.
Local Arguments Z.gcd : simpl never.
Local Arguments Z.max : simpl never.
Local Arguments Z.min : simpl never.
Local Arguments r_add : simpl never.
Local Arguments r_int : simpl never.

(** ** C13: what StatIntPercent does instead *)
Lemma r_add_one_one oc t : r_add oc t (r_int 1) (r_int 1) = Done (r_int 2).
Proof.
  unfold r_add, p_add. rewrite (r_addsub_ints oc t Z.add 1 1); [reflexivity|].
  unfold ity_ok. pose proof (imin_le0 t). pose proof (imax_ge127 t). lia.
Qed.

Lemma r_mul_ints oc t a b : ity_ok t a -> ity_ok t b -> ity_ok t (a * b) -> r_mul oc t (r_int a) (r_int b) = Done (r_int (a * b)).
Proof.
  intros Ha Hb Hab. apply mul_complete; try (apply reduced_r_int; assumption).
  unfold toQ, r_int, Qeq, Qmult; cbn. lia.
Qed.

Lemma statPct_query oc T R scale b : z_ok T b -> z_ok T (1 + b) -> z_ok T ((1 + b) * 2) ->
  oc = false \/ ~ round_overflows R (i_ty T) ((1 + b) * 2) 1 ->
  (let! q := sv_join (statPct oc T R scale) (sv_default _) (sv_from_base (statPct oc T R scale) b) in
   sv_eval (statPct oc T R scale) q) = Done ((1 + b) * 2).
Proof.
  intros Hb H1 H2 Hno. cbn. unfold i_add. rewrite i_norm_id by exact H1. cbn [obind].
  rewrite r_add_one_one. cbn [obind addend vmin vmax mult].
  assert (ity_ok (i_ty T) 2).
  { unfold ity_ok. pose proof (imin_le0 (i_ty T)). pose proof (imax_ge127 (i_ty T)). lia. }
  rewrite r_mul_ints by assumption. cbn [obind]. rewrite round_to_int_int by (exact H2 || tauto).
  cbn [obind]. f_equal. unfold i_bound. cbn. rewrite i_max_eq, !i_min_eq, i_max_eq. unfold z_ok in *. lia.
Qed.

(** ** C14: the priority is never updated *)
Definition takes {A} (last : bool) (p : Z) (x : prio A) : bool :=
  if last then p <=? p_priority x else p <? p_priority x.
Definition taken {A} (last : bool) (p : Z) (acc : A) (l : list (prio A)) : A :=
  fold_left (fun acc x => if takes last p x then p_value x else acc) l acc.

Lemma prio_join_spec A d last (v : prio A) l :
  ofold (sv_join (prioritized A d last)) v l = Done (Prio (taken last (p_priority v) (p_value v) l) (p_priority v)).
Proof.
  revert v. induction l as [|x l IH]; intros v.
  - destruct v; reflexivity.
  - cbn [ofold].
    assert (E : sv_join (prioritized A d last) v x = Done (if takes last (p_priority v) x then Prio (p_value x) (p_priority v) else v)).
    { unfold takes; cbn. destruct last; reflexivity. }
    rewrite E. cbn [obind]. rewrite IH. unfold taken at 2. cbn [fold_left].
    destruct (takes last (p_priority v) x); reflexivity.
Qed.

(** The last contribution that beats the initial priority. *)
Lemma taken_last {A} last p (acc : A) l1 x l2 :
  takes last p x = true -> (forall y, In y l2 -> takes last p y = false) ->
  taken last p acc (l1 ++ x :: l2) = p_value x.
Proof.
  intros Hx H. unfold taken. rewrite fold_left_app. cbn [fold_left]. rewrite Hx.
  generalize (p_value x). clear Hx. induction l2 as [|y l2 IH]; intros a; [reflexivity|].
  cbn [fold_left]. rewrite (H y (or_introl eq_refl)). apply IH. intros z Hz. apply H. right. exact Hz.
Qed.
Lemma taken_none {A} last p (acc : A) l : (forall y, In y l -> takes last p y = false) -> taken last p acc l = acc.
Proof.
  intros H. unfold taken. revert acc. induction l as [|y l IH]; intros a; [reflexivity|].
  cbn [fold_left]. rewrite (H y (or_introl eq_refl)). apply IH. intros z Hz. apply H. right. exact Hz.
Qed.

(** ** C15 *)
Lemma once_join_spec {A} (l l' : list A) : once_join (once_spec l) (once_spec l') = once_spec (l ++ l').
Proof.
  destruct l as [|a [|b l]], l' as [|c [|d l']]; try reflexivity; cbn; rewrite ?app_nil_r; reflexivity.
Qed.
Lemma once_or_spec {A} (l : list A) x : once_or (once_spec l) x = once_spec (l ++ [x]).
Proof. destruct l as [|a [|b l]]; reflexivity. Qed.
Lemma once_tree A (t : tree A) :
  tree_run (statOnce A) A (fun x => x) (fun x => x) t = Done (once_spec (included t)).
Proof.
  induction t as [|b|t IH b|t IH b|t IHt u IHu]; cbn [tree_run included]; try reflexivity.
  - rewrite IH. cbn. rewrite once_or_spec. reflexivity.
  - rewrite IH. reflexivity.
  - rewrite IHt, IHu. cbn. rewrite once_join_spec. reflexivity.
Qed.
Lemma once_try_set_spec {A} (l : list A) x :
  once_try_set (once_spec l) x = match l with [] => (once_spec [x], true) | _ => (once_spec l, false) end.
Proof. destruct l as [|a [|b l]]; reflexivity. Qed.
Lemma once_accessors {A} (l : list A) d :
  once_into_option (once_spec l) = match l with [x] => Some x | _ => None end /\
  once_is_some (once_spec l) = (length l =? 1)%nat /\ once_is_none (once_spec l) = negb (length l =? 1)%nat /\
  once_unwrap_or (once_spec l) d = match l with [x] => x | _ => d end /\
  once_unwrap (once_spec l) = match l with [x] => Done x | _ => Panics PUnwrap end.
Proof. destruct l as [|a [|b l]]; repeat split. Qed.

(** ** C16 *)
Lemma flags_tree G F mem : lawful_flags G F mem ->
  forall t, exists v, tree_run (statFlags G) (gcar G) (fun x => x) (fun x => x) t = Done v /\
    (forall f, mem (f_or v) f <-> exists b, In b (included t) /\ mem b f) /\
    (forall f, mem (f_not v) f <-> exists b, In b (excluded t) /\ mem b f).
Proof.
  intros [D O X] t. induction t as [|b|t IH b|t IH b|t IHt u IHu]; cbn [tree_run included excluded].
  - eexists. split; [reflexivity|]. cbn. split; intros f; split.
    1, 3: intros H; destruct (D f H). all: intros [b [[] _]].
  - eexists. split; [reflexivity|]. cbn. split; intros f; split.
    + intros H. exists b. auto.
    + intros [c [[->|[]] H]]. exact H.
    + intros H. destruct (D f H).
    + intros [c [[] _]].
  - destruct IH as [v [-> [H1 H2]]]. eexists. split; [reflexivity|]. cbn. split; intros f.
    + rewrite O, H1. split.
      * intros [[c [Hc Hm]]|Hm]; [exists c|exists b]; (split; [apply in_or_app|exact Hm]); cbn; auto.
      * intros [c [Hc Hm]]. apply in_app_or in Hc. destruct Hc as [Hc|[->|[]]]; [left; eauto|right; exact Hm].
    + apply H2.
  - destruct IH as [v [-> [H1 H2]]]. eexists. split; [reflexivity|]. cbn. split; intros f.
    + apply H1.
    + rewrite O, H2. split.
      * intros [[c [Hc Hm]]|Hm]; [exists c|exists b]; (split; [apply in_or_app|exact Hm]); cbn; auto.
      * intros [c [Hc Hm]]. apply in_app_or in Hc. destruct Hc as [Hc|[->|[]]]; [left; eauto|right; exact Hm].
  - destruct IHt as [v [-> [H1 H2]]], IHu as [w [-> [H3 H4]]]. eexists. split; [reflexivity|]. cbn. split; intros f.
    + rewrite O, H1, H3. split.
      * intros [[c [Hc Hm]]|[c [Hc Hm]]]; exists c; (split; [apply in_or_app|exact Hm]); auto.
      * intros [c [Hc Hm]]. apply in_app_or in Hc. destruct Hc; [left|right]; eauto.
    + rewrite O, H2, H4. split.
      * intros [[c [Hc Hm]]|[c [Hc Hm]]]; exists c; (split; [apply in_or_app|exact Hm]); auto.
      * intros [c [Hc Hm]]. apply in_app_or in Hc. destruct Hc; [left|right]; eauto.
Qed.

Lemma flags_eval G F mem : lawful_flags G F mem ->
  forall t, exists r,
    (let! v := tree_run (statFlags G) (gcar G) (fun x => x) (fun x => x) t in sv_eval (statFlags G) v) = Done r /\
    forall f, mem r f <->
      (exists b, In b (included t) /\ mem b f) /\ ~ (exists b, In b (excluded t) /\ mem b f).
Proof.
  intros L t. destruct (flags_tree G F mem L t) as [v [-> [H1 H2]]]. cbn. eexists. split; [reflexivity|].
  intros f. rewrite (lf_exclude G F mem L), H1, H2. reflexivity.
Qed.

Lemma zflags_lawful : lawful_flags zflags nat (fun z i => Z.testbit z (Z.of_nat i) = true).
Proof.
  split; cbn.
  - intros f. rewrite Z.bits_0. discriminate.
  - intros a b f. rewrite Z.lor_spec, orb_true_iff. reflexivity.
  - intros a b f. rewrite Z.lxor_spec, Z.land_spec.
    destruct (Z.testbit a (Z.of_nat f)), (Z.testbit b (Z.of_nat f)); cbn; intuition congruence.
Qed.
Lemma boolflags_lawful : lawful_flags boolflags unit (fun b _ => b = true).
Proof.
  split; cbn.
  - discriminate.
  - intros a b _. apply orb_true_iff.
  - intros [] [] _; cbn; intuition congruence.
Qed.

(** ** C17 *)
Lemma exists_tree (t : tree bool) :
  tree_run statExists bool (fun x => x) (fun x => x) t = Done (existsb (fun b => b) (included t)).
Proof.
  induction t as [|b|t IH b|t IH b|t IHt u IHu]; cbn [tree_run included]; try reflexivity.
  - cbn. rewrite orb_false_r. reflexivity.
  - rewrite IH. cbn. rewrite existsb_app. cbn. rewrite orb_false_r. reflexivity.
  - rewrite IH. reflexivity.
  - rewrite IHt, IHu. cbn. rewrite existsb_app. reflexivity.
Qed.
Fixpoint no_or {B} (t : tree B) : Prop :=
  match t with
  | TOr _ _ => False | TNot t _ => no_or t | TJoin t u => no_or t /\ no_or u | _ => True
  end.
Lemma bool_tree (t : tree bool) : no_or t ->
  tree_run boolV bool (fun x => x) (fun x => x) t = Done (existsb (fun b => b) (included t)).
Proof.
  induction t as [|b|t IH b|t IH b|t IHt u IHu]; cbn [tree_run included no_or]; intros H; try reflexivity.
  - cbn. rewrite orb_false_r. reflexivity.
  - destruct H.
  - rewrite IH by exact H. reflexivity.
  - destruct H as [H1 H2]. rewrite IHt, IHu by assumption. cbn. rewrite existsb_app. reflexivity.
Qed.

(** ** C18 *)
Lemma floor_scale k n d y : 0 < k -> is_floor (k * n) (k * d) y <-> is_floor n d y.
Proof.
  intros Hk. unfold is_floor.
  replace (y * (k * d)) with (k * (y * d)) by ring. replace ((y + 1) * (k * d)) with (k * ((y + 1) * d)) by ring.
  rewrite <- Z.mul_le_mono_pos_l, <- Z.mul_lt_mono_pos_l by exact Hk. reflexivity.
Qed.
Lemma ceil_scale k n d y : 0 < k -> is_ceil (k * n) (k * d) y <-> is_ceil n d y.
Proof.
  intros Hk. unfold is_ceil.
  replace (y * (k * d)) with (k * (y * d)) by ring. replace ((y - 1) * (k * d)) with (k * ((y - 1) * d)) by ring.
  rewrite <- Z.mul_le_mono_pos_l, <- Z.mul_lt_mono_pos_l by exact Hk. reflexivity.
Qed.
Lemma sign_scale k n : 0 < k -> (0 <= k * n <-> 0 <= n) /\ (k * n <= 0 <-> n <= 0) /\ (0 < k * n <-> 0 < n) /\ (k * n < 0 <-> n < 0) /\ (k * n = 0 <-> n = 0).
Proof. intros Hk. repeat split; intros; nia. Qed.
Lemma trunc_scale k n d y : 0 < k -> is_trunc (k * n) (k * d) y <-> is_trunc n d y.
Proof.
  intros Hk. unfold is_trunc. rewrite floor_scale, ceil_scale by exact Hk.
  destruct (sign_scale k n Hk) as [-> [-> _]]. reflexivity.
Qed.
Lemma rounds_to_scale R k n d y : 0 < k -> rounds_to R (k * n) (k * d) y <-> rounds_to R n d y.
Proof.
  intros Hk. destruct R; cbn.
  - apply trunc_scale; exact Hk.
  - apply floor_scale; exact Hk.
  - apply ceil_scale; exact Hk.
  - unfold is_round. replace (y * (k * d) - k * n) with (k * (y * d - n)) by ring.
    replace (y * (k * d)) with (k * (y * d)) by ring. rewrite !Z.abs_mul, !(Z.abs_eq k) by lia.
    split; intros [H1 H2]; (split; [nia|]); intros H3; nia.
  - unfold is_trunc_signed. destruct (sign_scale k n Hk) as [_ [_ [-> [-> ->]]]].
    assert (K : forall z, is_trunc (k * n) (k * d) z <-> is_trunc n d z) by (intros; apply trunc_scale; exact Hk).
    split; intros [H1 [H2 H3]]; (split; [|split]); try exact H3; intros H;
    [destruct (H1 H) as [z [Hz E]]|destruct (H2 H) as [z [Hz E]]|destruct (H1 H) as [z [Hz E]]|destruct (H2 H) as [z [Hz E]]];
    exists z; (split; [apply K; exact Hz|exact E]).
Qed.

(** Equal rationals round alike. *)
Lemma rounds_to_eqv R n d n' d' y : 0 < d -> 0 < d' -> n * d' = n' * d -> rounds_to R n d y <-> rounds_to R n' d' y.
Proof.
  intros Hd Hd' E. rewrite <- (rounds_to_scale R d' n d y Hd'), <- (rounds_to_scale R d n' d' y Hd).
  replace (d' * n) with (d * n') by lia. replace (d' * d) with (d * d') by lia. reflexivity.
Qed.
Lemma overflows_reduced R t n d n' d' : 0 < d' -> 0 < d -> d' <= d -> n' * d = n * d' ->
  ~ round_overflows R t n d -> ~ round_overflows R t n' d'.
Proof.
  intros Hd' Hd Hle E. pose proof (imin_le0 t). pose proof (imax_ge127 t).
  destruct R; cbn; try tauto; intros Hno [H1 H2]; apply Hno.
  - assert (n < 0) by nia. split; [assumption|].
    assert (n <= n') by nia. lia.
  - assert (0 <= n) by nia. split; [assumption|]. assert (n' <= n) by nia. lia.
Qed.

Lemma reduced_smaller t n d z : 0 < d -> reduced t z -> numer z * d = n * denom z -> denom z <= d.
Proof.
  intros Hd [[_ Hz] Hg] E. apply Z.divide_pos_le; [exact Hd|].
  apply Z.gauss with (numer z); [|rewrite Z.gcd_comm; exact Hg]. exists n. lia.
Qed.

Lemma pct_total oc T R scale s v : from_i64 (i_ty T) scale = Done s -> 0 < s ->
  z_ok T (s + mult v) -> z_ok T (addend v * (s + mult v)) ->
  ~ round_overflows R (i_ty T) (addend v * (s + mult v)) s ->
  exists r, sv_eval (statPctAdd oc T R scale) v = Done r /\ pct_result R s v r.
Proof.
  intros Es Hs H1 H2 Hno. set (t := i_ty T) in *.
  assert (Rs : ity_ok t s).
  { unfold from_i64 in Es. apply obind_inv in Es. destruct Es as [c [_ Es]]. inversion Es. apply wrap_range. }
  cbn. fold t. rewrite Es. cbn [obind]. unfold i_add, i_mul.
  rewrite (Z.add_comm (mult v) s), i_norm_id by exact H1. cbn [obind]. rewrite i_norm_id by exact H2. cbn [obind].
  destruct (r_reduce_positive t (Frac (addend v * (s + mult v)) s) oc H2 ltac:(cbn; unfold ity_ok in Rs; lia))
    as [z [E [Rz N]]]. cbn in N. unfold r_new. rewrite E. cbn [obind].
  pose proof Rz as [[Hzn Hzd] Hzg].
  pose proof (reduced_smaller t _ s z Hs Rz N) as Hle.
  assert (Hno' : ~ round_overflows R t (numer z) (denom z)).
  { apply (overflows_reduced R t (addend v * (s + mult v)) s); try lia; try assumption. }
  destruct (round_to_int_spec oc R t z (proj1 Rz) Hno') as [y [Ey [Py By]]].
  rewrite Ey. cbn [obind]. eexists. split; [reflexivity|]. exists y. split.
  - apply (rounds_to_eqv R (numer z) (denom z)); try lia; assumption.
  - unfold i_bound. rewrite i_max_eq, i_min_eq. reflexivity.
Qed.

Lemma r_new_true_valid t n d z : ity_ok t n -> ity_ok t d -> r_new true t n d = Done z -> 0 < d ->
  reduced t z /\ numer z * d = n * denom z.
Proof. intros Hn Hd H _. apply (r_reduce_spec t (Frac n d) z Hn Hd H). Qed.

Lemma round_to_int_true R t z y : valid t z -> round_to_int true R t z = Done y -> rounds_to R (numer z) (denom z) y.
Proof.
  intros V H. destruct (round_overflows_dec R t (numer z) (denom z)) as [Ho|Hn].
  - unfold round_to_int in H. rewrite (round_with_frac_overflow R t z V Ho) in H. discriminate.
  - destruct (round_to_int_spec true R t z V Hn) as [y' [E [P _]]]. rewrite H in E. inversion E; subst. exact P.
Qed.

Lemma pct_exact t R scale s v r : from_i64 t scale = Done s -> 0 < s ->
  sv_eval (statPctAdd true {| i_ty := t; i_flav := FPrim |} R scale) v = Done r -> pct_result R s v r.
Proof.
  intros Es Hs H.
  assert (Rs : ity_ok t s).
  { unfold from_i64 in Es. apply obind_inv in Es. destruct Es as [c [_ Es]]. inversion Es. apply wrap_range. }
  cbn in H. rewrite Es in H. cbn [obind] in H. unfold i_add, i_mul, i_norm in H. cbn [i_flav i_ty] in H.
  apply obind_inv in H. destruct H as [m [E1 H]]. apply chk_true_inv in E1. destruct E1 as [-> R1].
  apply obind_inv in H. destruct H as [n [E2 H]]. apply chk_true_inv in E2. destruct E2 as [-> R2].
  apply obind_inv in H. destruct H as [z [E3 H]].
  destruct (r_new_true_valid t _ s z R2 Rs E3 Hs) as [Rz N].
  apply obind_inv in H. destruct H as [y [E4 H]]. inversion H; subst.
  exists y. pose proof (round_to_int_true R t z y (proj1 Rz) E4) as P. destruct Rz as [[_ Hz] _]. split.
  - apply (rounds_to_eqv R (numer z) (denom z)); [lia|lia| |exact P].
    rewrite N, (Z.add_comm (mult v) s). reflexivity.
  - unfold i_bound. rewrite i_max_eq, i_min_eq. reflexivity.
Qed.

(** The same for fraction multipliers. *)
Lemma frac_exact T R v r : reduced (i_ty T) (mult v) -> z_ok T (addend v) ->
  sv_eval (statIntFraction true T R) v = Done r -> frac_result R v r.
Proof.
  intros [Vm _] Ha H. cbn in H. set (t := i_ty T) in *.
  apply obind_inv in H. destruct H as [z [E1 H]].
  destruct (r_mul_spec t _ _ z Vm (valid_r_int t _ Ha) E1) as [Rz N]. unfold r_int in N. cbn [numer denom] in N. rewrite Z.mul_1_r in N.
  apply obind_inv in H. destruct H as [y [E2 H]]. inversion H; subst.
  exists y. pose proof (round_to_int_true R t z y (proj1 Rz) E2) as P. destruct Rz as [[_ Hz] _], Vm as [_ Hm]. split.
  - apply (rounds_to_eqv R (numer z) (denom z)); [lia|lia|lia|exact P].
  - unfold i_bound. rewrite i_max_eq, i_min_eq. reflexivity.
Qed.
Lemma frac_total oc T R v z : reduced (i_ty T) (mult v) -> z_ok T (addend v) ->
  reduced (i_ty T) z -> (toQ z == toQ (mult v) * inject_Z (addend v))%Q ->
  ~ round_overflows R (i_ty T) (numer z) (denom z) ->
  exists r, sv_eval (statIntFraction oc T R) v = Done r /\ frac_result R v r.
Proof.
  intros Rm Ha Rz Q Hno. cbn. set (t := i_ty T) in *.
  assert (E : r_mul oc t (mult v) (r_int (addend v)) = Done z).
  { apply mul_complete; try assumption. apply reduced_r_int. exact Ha. }
  rewrite E. cbn [obind]. destruct (round_to_int_spec oc R t z (proj1 Rz) Hno) as [y [E2 [P B]]].
  rewrite E2. cbn [obind]. eexists. split; [reflexivity|]. exists y. split.
  - destruct Rz as [[_ Hz] _], Rm as [[_ Hm] _]. apply (rounds_to_eqv R (numer z) (denom z)); try lia; [|exact P].
    unfold toQ, inject_Z, Qeq, Qmult in Q; cbn in Q. rewrite Pos.mul_1_r, !Z2Pos.id in Q by lia. lia.
  - unfold i_bound. rewrite i_max_eq, i_min_eq. reflexivity.
Qed.
