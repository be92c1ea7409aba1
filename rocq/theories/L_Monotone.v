(** Proofs: what more was granted to is worth no less (integers). *)
From Coq Require Import ZArith QArith List Bool Lia.
From Verif Require Import M_Outcome M_Ints M_Ratio M_Float M_Value M_Types S_Ratio S_Types S_Totals S_Monotone
  L_Outcome L_Ints L_Ratio L_Types2 L_Round L_RatioProofs L_Types2 L_Types3.
Import ListNotations.
Local Open Scope Z_scope.

(** ** The induction common to all types *)
Section Induction.
  Context {S : StatValue} (O : merits S) (le : val S -> val S -> Prop).
  Hypothesis le_default : le (sv_default S) (sv_default S).
  Hypothesis le_base : forall b b', better_base O b b' -> le (sv_from_base S b) (sv_from_base S b').
  Hypothesis le_based : forall b, gain_base O b -> le (sv_default S) (sv_from_base S b).
  Hypothesis le_unbased : forall b, loss_base O b -> le (sv_from_base S b) (sv_default S).
  Hypothesis le_op : forall o o' v w v' w', (forall b, o <> OBase b) -> better_op O o o' -> le v w ->
    write_to o v = Done v' -> write_to o' w = Done w' -> le v' w'.
  Hypothesis le_gain : forall o v w w', gain O o -> le v w -> write_to o w = Done w' -> le v w'.
  Hypothesis le_loss : forall o v v' w, loss O o -> le v w -> write_to o v = Done v' -> le v' w.
  Hypothesis le_join : forall v w x y v' w', le v w -> le x y -> sv_join S v x = Done v' -> sv_join S w y = Done w' -> le v' w'.
  Hypothesis le_joined : forall v w y w', le v w -> le (sv_default S) y -> sv_join S w y = Done w' -> le v w'.
  Hypothesis le_unjoined : forall v w x v', le v w -> le x (sv_default S) -> sv_join S v x = Done v' -> le v' w.

  Lemma improved_le h k : improved O h k -> forall v w, value_of h = Done v -> value_of k = Done w -> le v w.
  Proof.
    intros I. induction I as [|b b' B|b B|b B|h k o o' I IH B|h k b b' B|h k o I IH B|h k o I IH B|h k i j I IH I2 IH2|h k j I IH I2 IH2|h k i I IH I2 IH2];
      intros v w V W; cbn [value_of] in V, W.
    - injection V as <-. injection W as <-. exact le_default.
    - injection V as <-. injection W as <-. auto.
    - injection V as <-. injection W as <-. auto.
    - injection V as <-. injection W as <-. auto.
    - apply obind_inv in V. destruct V as (v0 & V0 & V). apply obind_inv in W. destruct W as (w0 & W0 & W).
      destruct o as [x|x|x|x|x|x|x];
        try (eapply le_op; [|exact B|exact (IH _ _ V0 W0)|exact V|exact W]; intros; discriminate).
      destruct o'; cbn in B; try contradiction. cbn in V, W. injection V as <-. injection W as <-. auto.
    - apply obind_inv in V. destruct V as (v0 & V0 & V). apply obind_inv in W. destruct W as (w0 & W0 & W).
      cbn in V, W. injection V as <-. injection W as <-. auto.
    - apply obind_inv in W. destruct W as (w0 & W0 & W). eapply le_gain; [exact B|exact (IH _ _ V W0)|exact W].
    - apply obind_inv in V. destruct V as (v0 & V0 & V). eapply le_loss; [exact B|exact (IH _ _ V0 W)|exact V].
    - apply obind_inv in V. destruct V as (v0 & V0 & V). apply obind_inv in V. destruct V as (v1 & V1 & V).
      apply obind_inv in W. destruct W as (w0 & W0 & W). apply obind_inv in W. destruct W as (w1 & W1 & W).
      eapply le_join; [exact (IH _ _ V0 W0)|exact (IH2 _ _ V1 W1)|exact V|exact W].
    - apply obind_inv in W. destruct W as (w0 & W0 & W). apply obind_inv in W. destruct W as (w1 & W1 & W).
      eapply le_joined; [exact (IH _ _ V W0)|exact (IH2 _ _ eq_refl W1)|exact W].
    - apply obind_inv in V. destruct V as (v0 & V0 & V). apply obind_inv in V. destruct V as (v1 & V1 & V).
      eapply le_unjoined; [exact (IH _ _ V0 W)|exact (IH2 _ _ V1 eq_refl)|exact V].
  Qed.
End Induction.

(** ** Integers *)
Lemma norm_inv oc T z r : keeps_order oc T -> i_norm oc T z = Done r ->
  r = sat (i_ty T) z /\ z_ok T r.
Proof.
  intros K H. split; [|exact (i_norm_range oc T z r H)]. unfold i_norm in H. destruct K as [E | [E ->]]; rewrite E in H.
  - injection H as <-. reflexivity.
  - apply chk_true_inv in H. destruct H as [-> H]. symmetry. apply sat_id. exact H.
Qed.
Lemma sat_le t x y : x <= y -> sat t x <= sat t y.
Proof. unfold sat. lia. Qed.
Lemma sat_pos t x : 0 <= x -> 0 <= sat t x.
Proof. intros. pose proof (imin_le0 t). pose proof (imax_ge127 t). unfold sat. lia. Qed.
Lemma sat_above t x y : imin t <= x <= imax t -> x <= y -> x <= sat t y.
Proof. unfold sat. lia. Qed.
Lemma sat_below t x y : imin t <= x <= imax t -> y <= x -> sat t y <= x.
Proof. unfold sat. lia. Qed.

(** The three fields that all integer stats treat alike. *)
Definition front_le {M} (T : intp) (v w : quad Z M) : Prop :=
  z_ok T (addend v) /\ z_ok T (addend w) /\ addend v <= addend w /\ vmin v <= vmin w /\ vmax v <= vmax w /\
  imin (i_ty T) <= vmin v /\ vmax w <= imax (i_ty T).
Lemma i_bound_le {M} T (v w : quad Z M) x y : front_le T v w -> x <= y -> i_bound v x <= i_bound w y.
Proof. unfold front_le, i_bound. rewrite !i_max_eq, !i_min_eq. lia. Qed.

Lemma front_add {M} oc T (v w v' w' : quad Z M) x y : keeps_order oc T -> front_le T v w -> x <= y ->
  q_add oc T v x = Done v' -> q_add oc T w y = Done w' -> front_le T v' w' /\ mult v' = mult v /\ mult w' = mult w.
Proof.
  intros K (A1 & A2 & A3 & A4) L V W. unfold q_add in V, W.
  apply obind_inv in V. destruct V as (a & Va & V). apply obind_inv in W. destruct W as (b & Wb & W).
  injection V as <-. injection W as <-. apply (norm_inv _ _ _ _ K) in Va, Wb. destruct Va as [-> Ra], Wb as [-> Rb].
  unfold front_le. cbn. repeat split; try tauto; try apply Ra; try apply Rb. apply sat_le. lia.
Qed.
Lemma front_add_r {M} oc T (v w w' : quad Z M) y : keeps_order oc T -> front_le T v w -> 0 <= y ->
  q_add oc T w y = Done w' -> front_le T v w' /\ mult w' = mult w.
Proof.
  intros K (A1 & A2 & A3 & A4) L W. unfold q_add in W. apply obind_inv in W. destruct W as (b & Wb & W).
  injection W as <-. apply (norm_inv _ _ _ _ K) in Wb. destruct Wb as [-> Rb].
  unfold front_le. cbn. repeat split; try tauto; try apply A1; try apply Rb. apply sat_above; [exact A1|lia].
Qed.
Lemma front_add_l {M} oc T (v w v' : quad Z M) x : keeps_order oc T -> front_le T v w -> x <= 0 ->
  q_add oc T v x = Done v' -> front_le T v' w /\ mult v' = mult v.
Proof.
  intros K (A1 & A2 & A3 & A4) L V. unfold q_add in V. apply obind_inv in V. destruct V as (b & Vb & V).
  injection V as <-. apply (norm_inv _ _ _ _ K) in Vb. destruct Vb as [-> Rb].
  unfold front_le. cbn. repeat split; try tauto; try apply A2; try apply Rb. apply sat_below; [exact A2|lia].
Qed.

Ltac inv H x E := apply obind_inv in H; destruct H as (x & E & H).
Ltac bounds := unfold front_le in *; cbn [addend vmin vmax mult] in *; rewrite ?i_max_eq, ?i_min_eq in *.

(** Joined fields. *)
Lemma front_join {M} oc T (v w x y : quad Z M) a b m n : keeps_order oc T -> front_le T v w -> front_le T x y ->
  i_add oc T (addend v) (addend x) = Done a -> i_add oc T (addend w) (addend y) = Done b ->
  front_le T (Quad a (i_max (vmin v) (vmin x)) (i_min (vmax v) (vmax x)) m)
             (Quad b (i_max (vmin w) (vmin y)) (i_min (vmax w) (vmax y)) n : quad Z M).
Proof.
  intros K F1 F2 A B. apply (norm_inv _ _ _ _ K) in A, B. destruct A as [-> Ra], B as [-> Rb]. bounds.
  destruct F1 as (_ & _ & ? & ? & ? & ? & ?), F2 as (_ & _ & ? & ? & ? & ? & ?).
  repeat split; try apply Ra; try apply Rb; [apply sat_le| | | |]; lia.
Qed.
(** [d] is a default: it adds nothing and bounds nothing. *)
Lemma front_joined {M} oc T (v w y d : quad Z M) b n : keeps_order oc T -> front_le T v w -> front_le T d y ->
  addend d = 0 -> vmax d = imax (i_ty T) ->
  i_add oc T (addend w) (addend y) = Done b ->
  front_le T v (Quad b (i_max (vmin w) (vmin y)) (i_min (vmax w) (vmax y)) n).
Proof.
  intros K F1 F2 D1 D2 B. apply (norm_inv _ _ _ _ K) in B. destruct B as [-> Rb]. bounds.
  destruct F1 as (Z1 & _ & ? & ? & ? & ? & ?), F2 as (_ & _ & ? & ? & ? & ? & ?).
  repeat split; try apply Z1; try apply Rb; [apply sat_above; [exact Z1|]| | | |]; lia.
Qed.
Lemma front_unjoined {M} oc T (v w x d : quad Z M) a m : keeps_order oc T -> front_le T v w -> front_le T x d ->
  addend d = 0 -> vmin d = imin (i_ty T) ->
  i_add oc T (addend v) (addend x) = Done a ->
  front_le T (Quad a (i_max (vmin v) (vmin x)) (i_min (vmax v) (vmax x)) m) w.
Proof.
  intros K F1 F2 D1 D2 A. apply (norm_inv _ _ _ _ K) in A. destruct A as [-> Ra]. bounds.
  destruct F1 as (_ & Z2 & ? & ? & ? & ? & ?), F2 as (_ & _ & ? & ? & ? & ? & ?).
  repeat split; try apply Z2; try apply Ra; [apply sat_below; [exact Z2|]| | | |]; lia.
Qed.

(** Values of an integer stat: its fields, and [mle] for the multipliers. *)
Definition quad_le {M} (T : intp) (mle : M -> M -> Prop) (v w : quad Z M) : Prop :=
  front_le T v w /\ mle (mult v) (mult w).

Lemma front_base {M} T b b' (m n : M) : z_ok T b -> z_ok T b' -> b <= b' ->
  front_le T (Quad b (imin (i_ty T)) (imax (i_ty T)) m) (Quad b' (imin (i_ty T)) (imax (i_ty T)) n : quad Z M).
Proof. intros A B L. bounds. repeat split; try apply A; try apply B; lia. Qed.
Lemma z_ok_0 T : z_ok T 0.
Proof. pose proof (imin_le0 (i_ty T)). pose proof (imax_ge127 (i_ty T)). unfold z_ok. lia. Qed.
Lemma front_mult {M} T (v w : quad Z M) m n : front_le T v w ->
  front_le T (Quad (addend v) (vmin v) (vmax v) m) (Quad (addend w) (vmin w) (vmax w) n : quad Z M).
Proof. intros H. bounds. exact H. Qed.
Lemma front_mult_r {M} T (v w : quad Z M) n : front_le T v w -> front_le T v (Quad (addend w) (vmin w) (vmax w) n : quad Z M).
Proof. intros H. bounds. exact H. Qed.
Lemma front_mult_l {M} T (v w : quad Z M) m : front_le T v w -> front_le T (Quad (addend v) (vmin v) (vmax v) m) w.
Proof. intros H. bounds. exact H. Qed.

(** ** [StatInt] *)
Definition imul_le (T : intp) (raise : bool) (m n : Z) : Prop :=
  z_ok T m /\ z_ok T n /\ 0 <= m /\ upto raise Z.le m n.
Lemma upto_pos raise m n : 0 <= m -> upto raise Z.le m n -> 0 <= n.
Proof. destruct raise; cbn; lia. Qed.
Lemma imul_both oc T raise m n x y m' n' : keeps_order oc T -> imul_le T raise m n -> 0 <= x -> upto raise Z.le x y ->
  i_mul oc T m x = Done m' -> i_mul oc T n y = Done n' -> imul_le T raise m' n'.
Proof.
  intros K (A & B & P & U) Px Uxy E F. apply (norm_inv _ _ _ _ K) in E, F. destruct E as [-> Re], F as [-> Rf].
  split; [exact Re|]. split; [exact Rf|]. split; [apply sat_pos; nia|].
  destruct raise; cbn in *; [apply sat_le; nia|subst; reflexivity].
Qed.
Lemma imul_right oc T raise m n y n' : keeps_order oc T -> imul_le T raise m n -> upto raise Z.le 1 y ->
  i_mul oc T n y = Done n' -> imul_le T raise m n'.
Proof.
  intros K (A & B & P & U) Uxy F. apply (norm_inv _ _ _ _ K) in F. destruct F as [-> Rf].
  split; [exact A|]. split; [exact Rf|]. split; [exact P|].
  destruct raise; cbn in *; [apply sat_above; [exact A|nia]|subst]. rewrite Z.mul_1_r. symmetry. apply sat_id. exact B.
Qed.
Lemma imul_left oc T raise m n x m' : keeps_order oc T -> imul_le T raise m n -> 0 <= x -> upto raise Z.le x 1 ->
  i_mul oc T m x = Done m' -> imul_le T raise m' n.
Proof.
  intros K (A & B & P & U) Px Uxy F. apply (norm_inv _ _ _ _ K) in F. destruct F as [-> Rf].
  split; [exact Rf|]. split; [exact B|]. split; [apply sat_pos; nia|].
  destruct raise; cbn in *; [apply sat_below; [exact B|nia]|subst]. rewrite Z.mul_1_r. apply sat_id. exact B.
Qed.

Lemma int_le oc T raise h k v w : keeps_order oc T -> improved (int_merits raise oc T) h k ->
  value_of h = Done v -> value_of k = Done w -> quad_le T (imul_le T raise) v w.
Proof.
  intros K I V W. pose proof (z_ok_0 T) as Z0.
  assert (O1 : imul_le T raise 1 1).
  { pose proof (imin_le0 (i_ty T)). pose proof (imax_ge127 (i_ty T)). unfold imul_le, z_ok. repeat split; try lia. destruct raise; cbn; lia. }
  revert v w V W. apply (improved_le (int_merits raise oc T) (quad_le T (imul_le T raise))) with (h := h) (k := k); try exact I; clear I h k.
  - split; [apply front_base; auto; lia|exact O1].
  - intros b b' (A & B & L). split; [apply front_base; auto|exact O1].
  - intros b (A & L). split; [apply front_base; auto|exact O1].
  - intros b (A & L). split; [apply front_base; auto|exact O1].
  - intros o o' v w v' w' NB B [F Q] V W. destruct o, o'; cbn in B; try contradiction; cbn in V, W.
    + destruct (front_add oc T v w v' w' x x0 K F B V W) as (F' & E1 & E2). split; [exact F'|rewrite E1, E2; exact Q].
    + inv V m E. inv W n E'. injection V as <-. injection W as <-. split; [apply front_mult; exact F|].
      cbn. destruct B as [P U]. exact (imul_both oc T raise _ _ _ _ _ _ K Q P U E E').
    + injection V as <-. injection W as <-. split; [|exact Q]. bounds. unfold z_ok in *. lia.
    + injection V as <-. injection W as <-. split; [|exact Q]. bounds. unfold z_ok in *. lia.
    + destruct (NB x eq_refl).
  - intros o v w w' G [F Q] W. destruct o; cbn in G; try contradiction; cbn in W.
    + destruct (front_add_r oc T v w w' x K F G W) as (F' & E1). split; [exact F'|rewrite E1; exact Q].
    + inv W n E. injection W as <-. split; [apply front_mult_r; exact F|]. exact (imul_right oc T raise _ _ _ _ K Q G E).
    + injection W as <-. split; [|exact Q]. bounds. unfold z_ok in *. lia.
  - intros o v v' w G [F Q] V. destruct o; cbn in G; try contradiction; cbn in V.
    + destruct (front_add_l oc T v w v' x K F G V) as (F' & E1). split; [exact F'|rewrite E1; exact Q].
    + inv V n E. injection V as <-. split; [apply front_mult_l; exact F|]. destruct G as [P U]. exact (imul_left oc T raise _ _ _ _ K Q P U E).
    + injection V as <-. split; [|exact Q]. bounds. unfold z_ok in *. lia.
  - intros v w x y v' w' [F Q] [F' Q'] V W. cbn in V, W. inv V a Ea. inv V m Em. inv W b Eb. inv W n En.
    injection V as <-. injection W as <-. split; [exact (front_join oc T v w x y a b m n K F F' Ea Eb)|].
    destruct Q' as (_ & _ & P & U). exact (imul_both oc T raise _ _ _ _ _ _ K Q P U Em En).
  - intros v w y w' [F Q] [F' Q'] W. cbn in W. inv W b Eb. inv W n En.
    injection W as <-. split; [exact (front_joined oc T v w y _ b n K F F' eq_refl eq_refl Eb)|].
    destruct Q' as (_ & _ & P & U). exact (imul_right oc T raise _ _ _ _ K Q U En).
  - intros v w x v' [F Q] [F' Q'] V. cbn in V. inv V b Eb. inv V n En.
    injection V as <-. split; [exact (front_unjoined oc T v w x _ b n K F F' eq_refl eq_refl Eb)|].
    destruct Q' as (_ & _ & P & U). exact (imul_left oc T raise _ _ _ _ K Q P U En).
Qed.

Lemma C75_StatInt_proof : forall raise oc T h k v r r', keeps_order oc T -> improved (int_merits raise oc T) h k ->
  value_of h = Done v -> (raise = true -> 0 <= addend v) -> worth h = Done r -> worth k = Done r' -> r <= r'.
Proof.
  intros raise oc T h k v r r' K I V P R R'. unfold worth in R, R'. rewrite V in R. inv R' w W.
  destruct (int_le oc T raise h k v w K I V W) as [F (A & B & Pm & U)]. cbn in R, R'. inv R p E. inv R' q E'.
  injection R as <-. injection R' as <-. apply (i_bound_le T); [exact F|].
  apply (norm_inv _ _ _ _ K) in E, E'. destruct E as [-> _], E' as [-> _]. apply sat_le.
  destruct F as (_ & _ & La & _). destruct raise; cbn in U; [specialize (P eq_refl); nia|rewrite <- U; nia].
Qed.

(** ** Rounding keeps the order *)
Lemma floor_le n d y n' d' y' : 0 < d -> 0 < d' -> n * d' <= n' * d -> is_floor n d y -> is_floor n' d' y' -> y <= y'.
Proof.
  unfold is_floor. intros Hd Hd' L [A _] [_ B].
  assert (y * d * d' < (y' + 1) * d' * d) by nia. assert (y < y' + 1) by nia. lia.
Qed.
Lemma ceil_le n d y n' d' y' : 0 < d -> 0 < d' -> n * d' <= n' * d -> is_ceil n d y -> is_ceil n' d' y' -> y <= y'.
Proof.
  unfold is_ceil. intros Hd Hd' L [A _] [_ B].
  assert ((y - 1) * d * d' < y' * d' * d) by nia. assert (y - 1 < y') by nia. lia.
Qed.
Lemma floor_pos n d y : 0 < d -> 0 <= n -> is_floor n d y -> 0 <= y.
Proof. unfold is_floor. intros. nia. Qed.
Lemma ceil_neg n d y : 0 < d -> n <= 0 -> is_ceil n d y -> y <= 0.
Proof. unfold is_ceil. intros. nia. Qed.
Lemma trunc_le n d y n' d' y' : 0 < d -> 0 < d' -> n * d' <= n' * d -> is_trunc n d y -> is_trunc n' d' y' -> y <= y'.
Proof.
  intros Hd Hd' L [A1 A2] [B1 B2]. destruct (Z_le_gt_dec 0 n) as [P|P].
  - assert (0 <= n') by nia. apply (floor_le n d y n' d'); auto.
  - destruct (Z_le_gt_dec 0 n') as [P'|P'].
    + pose proof (floor_pos n' d' y' Hd' P' (B1 P')). pose proof (ceil_neg n d y Hd ltac:(lia) (A2 ltac:(lia))). lia.
    + apply (ceil_le n d y n' d'); auto with zarith.
Qed.
Lemma half_le n d y n' d' y' : 0 < d -> 0 < d' -> n * d' <= n' * d -> is_round n d y -> is_round n' d' y' -> y <= y'.
Proof.
  unfold is_round. intros Hd Hd' L [A A'] [B B']. destruct (Z_le_gt_dec y y') as [G|G]; [exact G|exfalso].
  assert (U : y * d - n <= Z.abs (y * d - n)) by lia. assert (V : n' - y' * d' <= Z.abs (y' * d' - n')) by lia.
  assert (P : 2 * (y * d) <= 2 * n + d) by lia. assert (Q : 2 * n' <= 2 * (y' * d') + d') by lia.
  assert (P1 : (2 * y - 1) * (d * d') <= 2 * n * d') by nia.
  assert (Q1 : 2 * n' * d <= (2 * y' + 1) * (d * d')) by nia.
  assert (Dd : 0 < d * d') by nia.
  assert (E : y = y' + 1) by nia.
  assert (T1 : 2 * n = (2 * y - 1) * d) by nia. assert (T2 : 2 * n' = (2 * y' + 1) * d') by nia.
  assert (E1 : 2 * Z.abs (y * d - n) = d) by lia. assert (E2 : 2 * Z.abs (y' * d' - n') = d') by lia.
  specialize (A' E1). specialize (B' E2).
  destruct (Z_le_gt_dec 1 y).
  - assert (0 <= y' * d') by nia. assert (0 < n') by nia. lia.
  - assert (y * d <= 0) by nia. assert (n < 0) by nia. lia.
Qed.
Lemma rounds_le R n d y n' d' y' : 0 < d -> 0 < d' -> n * d' <= n' * d -> rounds_to R n d y -> rounds_to R n' d' y' -> y <= y'.
Proof.
  intros Hd Hd' L. destruct R; cbn.
  - apply trunc_le; assumption.
  - apply floor_le; assumption.
  - apply ceil_le; assumption.
  - apply half_le; assumption.
  - intros (A1 & A2 & A3) (B1 & B2 & B3). destruct (Z.lt_trichotomy 0 n) as [P|[P|P]].
    + assert (P' : 0 < n') by nia. destruct (A1 P) as (a & Ta & ->), (B1 P') as (b & Tb & ->).
      pose proof (trunc_le n d a n' d' b Hd Hd' L Ta Tb). lia.
    + rewrite (A3 (eq_sym P)). destruct (Z.lt_trichotomy 0 n') as [P'|[P'|P']]; [|rewrite (B3 (eq_sym P')); lia|nia].
      destruct (B1 P') as (b & _ & ->). lia.
    + destruct (A2 P) as (a & Ta & ->). destruct (Z.lt_trichotomy 0 n') as [P'|[P'|P']].
      * destruct (B1 P') as (b & _ & ->). lia.
      * rewrite (B3 (eq_sym P')). lia.
      * destruct (B2 P') as (b & Tb & ->). pose proof (trunc_le n d a n' d' b Hd Hd' L Ta Tb). lia.
Qed.

(** ** [StatIntPercentAdditive] *)
Definition pmul_le (T : intp) (raise : bool) (m n : Z) : Prop := z_ok T m /\ z_ok T n /\ upto raise Z.le m n.
Lemma pmul_both oc T raise m n x y m' n' : keeps_order oc T -> pmul_le T raise m n -> upto raise Z.le x y ->
  i_add oc T m x = Done m' -> i_add oc T n y = Done n' -> pmul_le T raise m' n'.
Proof.
  intros K (A & B & U) Uxy E F. apply (norm_inv _ _ _ _ K) in E, F. destruct E as [-> Re], F as [-> Rf].
  split; [exact Re|]. split; [exact Rf|]. destruct raise; cbn in *; [apply sat_le; lia|subst; reflexivity].
Qed.
Lemma pmul_right oc T raise m n y n' : keeps_order oc T -> pmul_le T raise m n -> upto raise Z.le 0 y ->
  i_add oc T n y = Done n' -> pmul_le T raise m n'.
Proof.
  intros K (A & B & U) Uxy F. apply (norm_inv _ _ _ _ K) in F. destruct F as [-> Rf].
  split; [exact A|]. split; [exact Rf|].
  destruct raise; cbn in *; [apply sat_above; [exact A|lia]|subst]. rewrite Z.add_0_r. symmetry. apply sat_id. exact B.
Qed.
Lemma pmul_left oc T raise m n x m' : keeps_order oc T -> pmul_le T raise m n -> upto raise Z.le x 0 ->
  i_add oc T m x = Done m' -> pmul_le T raise m' n.
Proof.
  intros K (A & B & U) Uxy F. apply (norm_inv _ _ _ _ K) in F. destruct F as [-> Rf].
  split; [exact Rf|]. split; [exact B|].
  destruct raise; cbn in *; [apply sat_below; [exact B|lia]|subst]. rewrite Z.add_0_r. apply sat_id. exact B.
Qed.

Lemma pct_le oc T R scale raise h k v w : keeps_order oc T -> improved (pct_merits raise oc T R scale) h k ->
  value_of h = Done v -> value_of k = Done w -> quad_le T (pmul_le T raise) v w.
Proof.
  intros K I V W. pose proof (z_ok_0 T) as Z0.
  assert (O1 : pmul_le T raise 0 0).
  { split; [exact Z0|]. split; [exact Z0|]. destruct raise; cbn; lia. }
  revert v w V W. apply (improved_le (pct_merits raise oc T R scale) (quad_le T (pmul_le T raise))) with (h := h) (k := k); try exact I; clear I h k.
  - split; [apply front_base; auto; lia|exact O1].
  - intros b b' (A & B & L). split; [apply front_base; auto|exact O1].
  - intros b (A & L). split; [apply front_base; auto|exact O1].
  - intros b (A & L). split; [apply front_base; auto|exact O1].
  - intros o o' v w v' w' NB B [F Q] V W. destruct o, o'; cbn in B; try contradiction; cbn in V, W.
    + destruct (front_add oc T v w v' w' x x0 K F B V W) as (F' & E1 & E2). split; [exact F'|rewrite E1, E2; exact Q].
    + inv V m E. inv W n E'. injection V as <-. injection W as <-. split; [apply front_mult; exact F|].
      cbn. exact (pmul_both oc T raise _ _ _ _ _ _ K Q B E E').
    + injection V as <-. injection W as <-. split; [|exact Q]. bounds. unfold z_ok in *. lia.
    + injection V as <-. injection W as <-. split; [|exact Q]. bounds. unfold z_ok in *. lia.
    + destruct (NB x eq_refl).
  - intros o v w w' G [F Q] W. destruct o; cbn in G; try contradiction; cbn in W.
    + destruct (front_add_r oc T v w w' x K F G W) as (F' & E1). split; [exact F'|rewrite E1; exact Q].
    + inv W n E. injection W as <-. split; [apply front_mult_r; exact F|]. exact (pmul_right oc T raise _ _ _ _ K Q G E).
    + injection W as <-. split; [|exact Q]. bounds. unfold z_ok in *. lia.
  - intros o v v' w G [F Q] V. destruct o; cbn in G; try contradiction; cbn in V.
    + destruct (front_add_l oc T v w v' x K F G V) as (F' & E1). split; [exact F'|rewrite E1; exact Q].
    + inv V n E. injection V as <-. split; [apply front_mult_l; exact F|]. exact (pmul_left oc T raise _ _ _ _ K Q G E).
    + injection V as <-. split; [|exact Q]. bounds. unfold z_ok in *. lia.
  - intros v w x y v' w' [F Q] [F' Q'] V W. cbn in V, W. inv V a Ea. inv V m Em. inv W b Eb. inv W n En.
    injection V as <-. injection W as <-. split; [exact (front_join oc T v w x y a b m n K F F' Ea Eb)|].
    destruct Q' as (_ & _ & U). exact (pmul_both oc T raise _ _ _ _ _ _ K Q U Em En).
  - intros v w y w' [F Q] [F' Q'] W. cbn in W. inv W b Eb. inv W n En.
    injection W as <-. split; [exact (front_joined oc T v w y _ b n K F F' eq_refl eq_refl Eb)|].
    destruct Q' as (_ & _ & U). exact (pmul_right oc T raise _ _ _ _ K Q U En).
  - intros v w x v' [F Q] [F' Q'] V. cbn in V. inv V b Eb. inv V n En.
    injection V as <-. split; [exact (front_unjoined oc T v w x _ b n K F F' eq_refl eq_refl Eb)|].
    destruct Q' as (_ & _ & U). exact (pmul_left oc T raise _ _ _ _ K Q U En).
Qed.

Lemma C75_StatIntPercentAdditive_proof : forall raise T R scale s h k v r r', keeps_order true T ->
  improved (pct_merits raise true T R scale) h k -> from_i64 (i_ty T) scale = Done s -> 0 < s ->
  value_of h = Done v -> 0 <= s + mult v -> (raise = true -> 0 <= addend v) -> worth h = Done r -> worth k = Done r' -> r <= r'.
Proof.
  intros raise T R scale s h k v r r' K I Es Hs V Pm P H H'. unfold worth in H, H'. rewrite V in H. inv H' w W.
  destruct (pct_le true T R scale raise h k v w K I V W) as [F (A & B & U)].
  assert (Rs : ity_ok (i_ty T) s).
  { unfold from_i64 in Es. apply obind_inv in Es. destruct Es as [c [_ Es]]. inversion Es. apply wrap_range. }
  cbn in H, H'. rewrite Es in H, H'. cbn [obind] in H, H'. inv H m E1. inv H n E2. inv H z E3. inv H y E4. injection H as <-.
  inv H' m' E1'. inv H' n' E2'. inv H' z' E3'. inv H' y' E4'. injection H' as <-. apply (i_bound_le T); [exact F|].
  apply (norm_inv _ _ _ _ K) in E1, E2, E1', E2'.
  destruct E1 as [-> R1], E2 as [-> R2], E1' as [-> R1'], E2' as [-> R2'].
  destruct (r_new_true_valid _ _ s z R2 Rs E3 Hs) as [[Vz _] N]. destruct (r_new_true_valid _ _ s z' R2' Rs E3' Hs) as [[Vz' _] N'].
  pose proof (round_to_int_true R _ z y Vz E4) as Y. pose proof (round_to_int_true R _ z' y' Vz' E4') as Y'.
  destruct Vz as [_ Dz], Vz' as [_ Dz'].
  apply (rounds_le R (numer z) (denom z) y (numer z') (denom z') y'); try assumption; try lia.
  set (a := sat (i_ty T) (addend v * _)) in *. set (b := sat (i_ty T) (addend w * _)) in *.
  assert (Lab : a <= b).
  { apply sat_le. destruct F as (_ & _ & La & _).
    assert (Q : 0 <= sat (i_ty T) (mult v + s)) by (apply sat_pos; lia).
    destruct raise; cbn in U.
    - specialize (P eq_refl). assert (sat (i_ty T) (mult v + s) <= sat (i_ty T) (mult w + s)) by (apply sat_le; lia). nia.
    - rewrite <- U. nia. }
  assert (G : numer z * denom z' * s <= numer z' * denom z * s).
  { replace (numer z * denom z' * s) with (numer z * s * denom z') by ring.
    replace (numer z' * denom z * s) with (numer z' * s * denom z) by ring. rewrite N, N'.
    replace (b * denom z' * denom z) with (b * (denom z * denom z')) by ring. rewrite <- Z.mul_assoc.
    apply Z.mul_le_mono_nonneg_r; nia. }
  apply (Z.mul_le_mono_pos_r _ _ s); assumption.
Qed.

(** ** [StatIntFraction] *)
Definition fmul_le (T : intp) (raise : bool) (m n : ratio) : Prop :=
  reduced (i_ty T) m /\ reduced (i_ty T) n /\ 0 <= numer m /\ upto raise frac_le m n.
Lemma frac_le_iff x y : 0 < denom x -> 0 < denom y -> frac_le x y <-> numer x * denom y <= numer y * denom x.
Proof. intros Hx Hy. unfold frac_le, Qle, toQ. cbn. rewrite !Z2Pos.id by assumption. reflexivity. Qed.
Lemma fmul_both T raise m n x y m' n' : fmul_le T raise m n -> fmul_le T raise x y ->
  r_mul true (i_ty T) m x = Done m' -> r_mul true (i_ty T) n y = Done n' -> fmul_le T raise m' n'.
Proof.
  intros (A & B & P & U) (Ax & By & Px & Ux) E F.
  destruct (r_mul_spec _ _ _ _ (proj1 A) (proj1 Ax) E) as [Re N]. destruct (r_mul_spec _ _ _ _ (proj1 B) (proj1 By) F) as [Rf N'].
  split; [exact Re|]. split; [exact Rf|].
  destruct A as [[_ Da] _], B as [[_ Db] _], Ax as [[_ Dx] _], By as [[_ Dy] _]. pose proof Re as [[_ De] _]. pose proof Rf as [[_ Df] _].
  assert (0 < denom m * denom x) by nia. assert (0 < denom n * denom y) by nia.
  assert (0 <= numer m * numer x) by nia. split; [nia|].
  destruct raise; cbn in *; [|subst; congruence].
  rewrite frac_le_iff in U, Ux |- * by lia.
  assert (L : numer m * numer x * (denom n * denom y) <= numer n * numer y * (denom m * denom x)).
  { assert (0 <= numer n) by nia. assert (0 <= numer y) by nia.
    replace (numer m * numer x * (denom n * denom y)) with ((numer m * denom n) * (numer x * denom y)) by ring.
    replace (numer n * numer y * (denom m * denom x)) with ((numer n * denom m) * (numer y * denom x)) by ring.
    apply Z.mul_le_mono_nonneg; nia. }
  set (a := denom m * denom x) in *. set (b := denom n * denom y) in *.
  assert (G : numer m' * denom n' * (a * b) <= numer n' * denom m' * (a * b)).
  { replace (numer m' * denom n' * (a * b)) with (numer m' * a * (denom n' * b)) by ring.
    replace (numer n' * denom m' * (a * b)) with (numer n' * b * (denom m' * a)) by ring. rewrite N, N'.
    replace (numer m * numer x * denom m' * (denom n' * b)) with (numer m * numer x * b * (denom m' * denom n')) by ring.
    replace (numer n * numer y * denom n' * (denom m' * a)) with (numer n * numer y * a * (denom m' * denom n')) by ring.
    apply Z.mul_le_mono_nonneg_r; nia. }
  assert (0 < a * b) by nia. apply (Z.mul_le_mono_pos_r _ _ (a * b)); assumption.
Qed.
Lemma one_reduced t : reduced t (r_int 1).
Proof. apply reduced_r_int. pose proof (imin_le0 t). pose proof (imax_ge127 t). unfold ity_ok. lia. Qed.
Lemma fmul_one T raise y : upto raise frac_le (r_int 1) y -> reduced (i_ty T) y -> fmul_le T raise (r_int 1) y.
Proof. intros U Ry. split; [apply one_reduced|]. split; [exact Ry|]. split; [cbn; lia|exact U]. Qed.
Lemma fmul_to_one T raise x : upto raise frac_le x (r_int 1) -> reduced (i_ty T) x -> 0 <= numer x -> fmul_le T raise x (r_int 1).
Proof. intros U Rx P. split; [exact Rx|]. split; [apply one_reduced|]. split; [exact P|exact U]. Qed.
Lemma fmul_right T raise m n y n' : fmul_le T raise m n -> fmul_le T raise (r_int 1) y ->
  r_mul true (i_ty T) n y = Done n' -> fmul_le T raise m n'.
Proof. intros A B E. exact (fmul_both T raise m n _ _ m n' A B (r_mul_one_r true _ m (proj1 A)) E). Qed.
Lemma fmul_left T raise m n x m' : fmul_le T raise m n -> fmul_le T raise x (r_int 1) ->
  r_mul true (i_ty T) m x = Done m' -> fmul_le T raise m' n.
Proof. intros A B E. exact (fmul_both T raise m n _ _ m' n A B E (r_mul_one_r true _ n (proj1 (proj2 A)))). Qed.

Lemma frac_value_le T R raise h k v w : keeps_order true T -> improved (frac_merits raise true T R) h k ->
  value_of h = Done v -> value_of k = Done w -> quad_le T (fmul_le T raise) v w.
Proof.
  intros K I V W. pose proof (z_ok_0 T) as Z0.
  assert (O1 : fmul_le T raise (r_int 1) (r_int 1)).
  { apply fmul_one; [destruct raise; [apply Qle_refl|reflexivity]|apply one_reduced]. }
  revert v w V W. apply (improved_le (frac_merits raise true T R) (quad_le T (fmul_le T raise))) with (h := h) (k := k); try exact I; clear I h k.
  - split; [apply front_base; auto; lia|exact O1].
  - intros b b' (A & B & L). split; [apply front_base; auto|exact O1].
  - intros b (A & L). split; [apply front_base; auto|exact O1].
  - intros b (A & L). split; [apply front_base; auto|exact O1].
  - intros o o' v w v' w' NB B [F Q] V W. destruct o, o'; cbn in B; try contradiction; cbn in V, W.
    + destruct (front_add true T v w v' w' x x0 K F B V W) as (F' & E1 & E2). split; [exact F'|rewrite E1, E2; exact Q].
    + inv V m E. inv W n E'. injection V as <-. injection W as <-. split; [apply front_mult; exact F|].
      cbn. exact (fmul_both T raise _ _ _ _ _ _ Q B E E').
    + injection V as <-. injection W as <-. split; [|exact Q]. bounds. unfold z_ok in *. lia.
    + injection V as <-. injection W as <-. split; [|exact Q]. bounds. unfold z_ok in *. lia.
    + destruct (NB x eq_refl).
  - intros o v w w' G [F Q] W. destruct o; cbn in G; try contradiction; cbn in W.
    + destruct (front_add_r true T v w w' x K F G W) as (F' & E1). split; [exact F'|rewrite E1; exact Q].
    + inv W n E. injection W as <-. split; [apply front_mult_r; exact F|].
      exact (fmul_right T raise _ _ _ _ Q (fmul_one T raise _ (proj2 G) (proj1 G)) E).
    + injection W as <-. split; [|exact Q]. bounds. unfold z_ok in *. lia.
  - intros o v v' w G [F Q] V. destruct o; cbn in G; try contradiction; cbn in V.
    + destruct (front_add_l true T v w v' x K F G V) as (F' & E1). split; [exact F'|rewrite E1; exact Q].
    + inv V n E. injection V as <-. split; [apply front_mult_l; exact F|]. destruct G as (Rx & P & U).
      exact (fmul_left T raise _ _ _ _ Q (fmul_to_one T raise _ U Rx P) E).
    + injection V as <-. split; [|exact Q]. bounds. unfold z_ok in *. lia.
  - intros v w x y v' w' [F Q] [F' Q'] V W. cbn in V, W. inv V a Ea. inv V m Em. inv W b Eb. inv W n En.
    injection V as <-. injection W as <-. split; [exact (front_join true T v w x y a b m n K F F' Ea Eb)|].
    exact (fmul_both T raise _ _ _ _ _ _ Q Q' Em En).
  - intros v w y w' [F Q] [F' Q'] W. cbn in W. inv W b Eb. inv W n En.
    injection W as <-. split; [exact (front_joined true T v w y _ b n K F F' eq_refl eq_refl Eb)|].
    exact (fmul_right T raise _ _ _ _ Q Q' En).
  - intros v w x v' [F Q] [F' Q'] V. cbn in V. inv V b Eb. inv V n En.
    injection V as <-. split; [exact (front_unjoined true T v w x _ b n K F F' eq_refl eq_refl Eb)|].
    exact (fmul_left T raise _ _ _ _ Q Q' En).
Qed.

Lemma C75_StatIntFraction_proof : forall raise T R h k v r r', keeps_order true T ->
  improved (frac_merits raise true T R) h k ->
  value_of h = Done v -> (raise = true -> 0 <= addend v) -> worth h = Done r -> worth k = Done r' -> r <= r'.
Proof.
  intros raise T R h k v r r' K I V P H H'. unfold worth in H, H'. rewrite V in H. inv H' w W.
  destruct (frac_value_le T R raise h k v w K I V W) as [F (A & B & Pm & U)].
  pose proof F as (Av & Aw & La & _).
  destruct (frac_exact T R v r A Av H) as (y & Y & ->). destruct (frac_exact T R w r' B Aw H') as (y' & Y' & ->).
  enough (L : y <= y') by (destruct F as (_ & _ & _ & ? & ? & _); lia).
  destruct A as [[_ Da] _], B as [[_ Db] _].
  apply (rounds_le R (addend v * numer (mult v)) (denom (mult v)) y (addend w * numer (mult w)) (denom (mult w)) y');
    try assumption; try lia.
  destruct raise; cbn in U; [|rewrite <- U; repeat apply Z.mul_le_mono_nonneg_r; lia]. specialize (P eq_refl). rewrite frac_le_iff in U by lia.
  rewrite <- !Z.mul_assoc. apply Z.mul_le_mono_nonneg; nia.
Qed.
