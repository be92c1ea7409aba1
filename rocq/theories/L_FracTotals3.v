(** Totals of the float stats over fractions: what the stats are worth. *)
From Coq Require Import ZArith QArith Qminmax List Lia Permutation.
From Verif Require Import M_Outcome M_Ints M_Ratio M_Float M_Value M_Types S_Ratio S_Types S_Totals S_FloatTotals S_FracTotals
  L_Outcome L_Ints L_Ratio L_Round L_RatioQ L_Float L_Totals L_Totals2 L_FracTotals L_FracTotals2.
Import ListNotations.
Local Open Scope Z_scope.

Lemma is_frac_out t p a : is_frac t p a -> reduced t a /\ (toQ a == p)%Q. Proof. exact id. Qed.
Lemma qbounded_eq t los his p q : (p == q)%Q -> (qbounded t los his p == qbounded t los his q)%Q.
Proof. intros E. unfold qbounded. rewrite E. reflexivity. Qed.

Lemma C59_Fraction_StatFloat_checked_proof :
  forall t (h : history (statFloat (fracF true t))) r,
  Forall (reduced t) (gains h same same) -> Forall (reduced t) (factors h same) ->
  Forall (reduced t) (floors h same) -> Forall (reduced t) (ceilings h same) ->
  worth h = Done r ->
  reduced t r /\
  (toQ r == qbounded t (floors h same) (ceilings h same) (qsum (gains h same same) * qproduct (factors h same)))%Q.
Proof.
  intros t h r Fg Ff Fl Fc H. unfold worth in H. apply obind_inv in H. destruct H as [v [Hv H]].
  destruct (float_checked t h Fg Ff v Hv) as [A M]. destruct (float_bounds true t h Fl Fc v Hv) as [L U].
  cbn [sv_eval statFloat f_mul fracF] in H. apply obind_inv in H. destruct H as [p [Hp H]]. injection H as <-.
  apply is_frac_bound; [exact L|exact U|]. eapply is_frac_mul; eassumption.
Qed.
Lemma C59_Fraction_StatFloatAdditive_checked_proof :
  forall t (h : history (statFloatAdditive (fracF true t))) r,
  Forall (reduced t) (gains h same same) -> Forall (reduced t) (factors h same) ->
  Forall (reduced t) (floors h same) -> Forall (reduced t) (ceilings h same) ->
  worth h = Done r ->
  reduced t r /\
  (toQ r == qbounded t (floors h same) (ceilings h same) (qsum (gains h same same) * (1 + qsum (factors h same))))%Q.
Proof.
  intros t h r Fg Ff Fl Fc H. unfold worth in H. apply obind_inv in H. destruct H as [v [Hv H]].
  destruct (additive_checked t h Fg Ff v Hv) as [A M]. destruct (additive_bounds true t h Fl Fc v Hv) as [L U].
  cbn [sv_eval statFloatAdditive f_mul f_add f_one fracF] in H. apply obind_inv in H. destruct H as [m [Hm H]].
  apply obind_inv in H. destruct H as [p [Hp H]]. injection H as <-.
  apply is_frac_bound; [exact L|exact U|]. eapply is_frac_mul; [exact A| |exact Hp].
  eapply is_frac_eq; [apply Qplus_comm|]. eapply is_frac_add; [exact M|apply (is_frac_int t 1), one_fits|exact Hm].
Qed.
Lemma C59_Fraction_StatMult_checked_proof :
  forall t (h : history (statMult (fracF true t))) r,
  Forall (reduced t) (scales h same same) ->
  Forall (reduced t) (floors h same) -> Forall (reduced t) (ceilings h same) ->
  worth h = Done r ->
  reduced t r /\ (toQ r == qbounded t (floors h same) (ceilings h same) (qproduct (scales h same same)))%Q.
Proof.
  intros t h r Ff Fl Fc H. unfold worth in H. apply obind_inv in H. destruct H as [v [Hv H]].
  pose proof (mult_checked t h Ff v Hv) as M. destruct (mult_bounds true t h Fl Fc v Hv) as [L U].
  cbn [sv_eval statMult] in H. injection H as <-. apply is_frac_bound; assumption.
Qed.

(** ** Order does not matter *)
Lemma qsum_perm l l' : Permutation l l' -> (qsum l == qsum l')%Q.
Proof.
  induction 1 as [|x l l' _ IH|x y l|l l' l'' _ IH _ IH']; [reflexivity|rewrite !qsum_cons, IH; reflexivity|rewrite !qsum_cons; ring|etransitivity; eassumption].
Qed.
Lemma qproduct_perm l l' : Permutation l l' -> (qproduct l == qproduct l')%Q.
Proof.
  induction 1 as [|x l l' _ IH|x y l|l l' l'' _ IH _ IH']; [reflexivity|rewrite !qproduct_cons, IH; reflexivity|rewrite !qproduct_cons; ring|etransitivity; eassumption].
Qed.
Lemma qleast_perm top l l' : Permutation l l' -> (qleast top l == qleast top l')%Q.
Proof.
  induction 1 as [|x l l' _ IH|x y l|l l' l'' _ IH _ IH']; [reflexivity| | |etransitivity; eassumption].
  - change (Qmin (toQ x) (qleast top l) == Qmin (toQ x) (qleast top l'))%Q. rewrite IH. reflexivity.
  - change (Qmin (toQ y) (Qmin (toQ x) (qleast top l)) == Qmin (toQ x) (Qmin (toQ y) (qleast top l)))%Q.
    rewrite !Q.min_assoc, (Q.min_comm (toQ y)). reflexivity.
Qed.
Lemma qmost_perm bot l l' : Permutation l l' -> (qmost bot l == qmost bot l')%Q.
Proof.
  induction 1 as [|x l l' _ IH|x y l|l l' l'' _ IH _ IH']; [reflexivity| | |etransitivity; eassumption].
  - change (Qmax (toQ x) (qmost bot l) == Qmax (toQ x) (qmost bot l'))%Q. rewrite IH. reflexivity.
  - change (Qmax (toQ y) (Qmax (toQ x) (qmost bot l)) == Qmax (toQ x) (Qmax (toQ y) (qmost bot l)))%Q.
    rewrite !Q.max_assoc, (Q.max_comm (toQ y)). reflexivity.
Qed.
Lemma qbounded_perm t los los' his his' p q : Permutation los los' -> Permutation his his' -> (p == q)%Q ->
  (qbounded t los his p == qbounded t los' his' q)%Q.
Proof. intros L U E. unfold qbounded. rewrite E, (qleast_perm _ _ _ U), (qmost_perm _ _ _ L). reflexivity. Qed.
Lemma perm_all t l l' : Permutation l l' -> Forall (reduced t) l -> Forall (reduced t) l'.
Proof. intros E. apply Permutation_Forall. exact E. Qed.

Lemma C59_Fraction_StatFloat_order_free_proof :
  forall t (h k : history (statFloat (fracF true t))) r s,
  Forall (reduced t) (gains h same same) -> Forall (reduced t) (factors h same) ->
  Forall (reduced t) (floors h same) -> Forall (reduced t) (ceilings h same) ->
  Permutation (gains h same same) (gains k same same) -> Permutation (factors h same) (factors k same) ->
  Permutation (floors h same) (floors k same) -> Permutation (ceilings h same) (ceilings k same) ->
  worth h = Done r -> worth k = Done s -> r = s.
Proof.
  intros t h k r s Fg Ff Fl Fc Pg Pf Pl Pc Hr Hs.
  pose proof (C59_Fraction_StatFloat_checked_proof t h r Fg Ff Fl Fc Hr) as A.
  pose proof (C59_Fraction_StatFloat_checked_proof t k s (perm_all t _ _ Pg Fg) (perm_all t _ _ Pf Ff) (perm_all t _ _ Pl Fl) (perm_all t _ _ Pc Fc) Hs) as B.
  eapply is_frac_unique; [exact A|]. eapply is_frac_eq; [|exact B]. symmetry. apply qbounded_perm; try assumption.
  rewrite (qsum_perm _ _ Pg), (qproduct_perm _ _ Pf). reflexivity.
Qed.
Lemma C59_Fraction_StatFloatAdditive_order_free_proof :
  forall t (h k : history (statFloatAdditive (fracF true t))) r s,
  Forall (reduced t) (gains h same same) -> Forall (reduced t) (factors h same) ->
  Forall (reduced t) (floors h same) -> Forall (reduced t) (ceilings h same) ->
  Permutation (gains h same same) (gains k same same) -> Permutation (factors h same) (factors k same) ->
  Permutation (floors h same) (floors k same) -> Permutation (ceilings h same) (ceilings k same) ->
  worth h = Done r -> worth k = Done s -> r = s.
Proof.
  intros t h k r s Fg Ff Fl Fc Pg Pf Pl Pc Hr Hs.
  pose proof (C59_Fraction_StatFloatAdditive_checked_proof t h r Fg Ff Fl Fc Hr) as A.
  pose proof (C59_Fraction_StatFloatAdditive_checked_proof t k s (perm_all t _ _ Pg Fg) (perm_all t _ _ Pf Ff) (perm_all t _ _ Pl Fl) (perm_all t _ _ Pc Fc) Hs) as B.
  eapply is_frac_unique; [exact A|]. eapply is_frac_eq; [|exact B]. symmetry. apply qbounded_perm; try assumption.
  rewrite (qsum_perm _ _ Pg), (qsum_perm _ _ Pf). reflexivity.
Qed.
Lemma C59_Fraction_StatMult_order_free_proof :
  forall t (h k : history (statMult (fracF true t))) r s,
  Forall (reduced t) (scales h same same) ->
  Forall (reduced t) (floors h same) -> Forall (reduced t) (ceilings h same) ->
  Permutation (scales h same same) (scales k same same) ->
  Permutation (floors h same) (floors k same) -> Permutation (ceilings h same) (ceilings k same) ->
  worth h = Done r -> worth k = Done s -> r = s.
Proof.
  intros t h k r s Ff Fl Fc Pf Pl Pc Hr Hs.
  pose proof (C59_Fraction_StatMult_checked_proof t h r Ff Fl Fc Hr) as A.
  pose proof (C59_Fraction_StatMult_checked_proof t k s (perm_all t _ _ Pf Ff) (perm_all t _ _ Pl Fl) (perm_all t _ _ Pc Fc) Hs) as B.
  eapply is_frac_unique; [exact A|]. eapply is_frac_eq; [|exact B]. symmetry. apply qbounded_perm; try assumption.
  apply qproduct_perm. exact Pf.
Qed.

(** ** With room *)
Lemma mul_by_size oc t x y p q N1 D1 N2 D2 : is_frac t p x -> is_frac t q y ->
  Z.abs (numer x) <= N1 -> denom x <= D1 -> Z.abs (numer y) <= N2 -> denom y <= D2 ->
  N1 * N2 <= imax t -> D1 * D2 <= imax t -> exists z, r_mul oc t x y = Done z /\ is_frac t (p * q) z.
Proof.
  intros X Y H1 H2 H3 H4 Hn Hd. destruct (proj1 X) as [[Hxn Hxd] _], (proj1 Y) as [[Hyn Hyd] _].
  destruct (r_mul_done oc t x y (proj1 (proj1 X)) (proj1 (proj1 Y))) as (z & E & E').
  - rewrite Z.abs_mul. nia.
  - intros U. pose proof (unsigned_numer t x U (proj1 X)). pose proof (unsigned_numer t y U (proj1 Y)). nia.
  - nia.
  - exists z. split; [exact E|]. eapply is_frac_mul; eassumption.
Qed.
Lemma sum_size t D l a : Forall (reduced t) l -> adds_over t D l -> is_frac t (qsum l) a -> Z.abs (numer a) <= room (scaled D l) /\ denom a <= D.
Proof.
  intros F (HD & Hd & _) A. destruct (is_frac_over t a (sum (scaled D l)) D ltac:(lia)) as (k & K1 & K2 & K3).
  { eapply is_frac_eq; [apply qsum_scaled; [lia|eapply all_pos; eassumption|assumption]|exact A]. }
  pose proof (abs_sum_room (scaled D l)). destruct (proj1 A) as [[_ Ha] _]. rewrite K3 in *. rewrite Z.abs_mul in *. split; nia.
Qed.
Lemma product_size t l m : Forall (reduced t) l -> is_frac t (qproduct l) m -> Z.abs (numer m) <= room_frac l /\ denom m <= room_frac l.
Proof.
  intros F M. destruct (qproduct_over l (all_pos t l F)) as [P E].
  destruct (is_frac_over t m (over l) (under l) P) as (k & K1 & K2 & K3); [eapply is_frac_eq; [exact E|exact M]|].
  pose proof (over_room t l F). pose proof (under_room t l F). destruct (proj1 M) as [[_ Ha] _]. rewrite K3 in *. rewrite Z.abs_mul in *. split; nia.
Qed.

Lemma C59_Fraction_StatFloat_fits_proof :
  forall oc t D (h : history (statFloat (fracF oc t))), steady h ->
  Forall (reduced t) (gains h same same) -> Forall (reduced t) (factors h same) ->
  Forall (reduced t) (floors h same) -> Forall (reduced t) (ceilings h same) ->
  adds_over t D (gains h same same) -> D * room_frac (factors h same) <= imax t ->
  room (scaled D (gains h same same)) * room_frac (factors h same) <= imax t ->
  exists r, worth h = Done r /\ reduced t r /\
  (toQ r == qbounded t (floors h same) (ceilings h same) (qsum (gains h same same) * qproduct (factors h same)))%Q.
Proof.
  intros oc t D h St Fg Ff Fl Fc HA HD HR. pose proof (room_frac_pos t _ Ff) as HP. pose proof HA as ((HD0 & _) & _).
  destruct (float_fits oc t D h St Fg Ff HA) as (v & Hv & A & M); [nia|].
  destruct (float_bounds oc t h Fl Fc v Hv) as [L U].
  destruct (sum_size t D _ _ Fg HA A) as [S1 S2]. destruct (product_size t _ _ Ff M) as [T1 T2].
  destruct (mul_by_size oc t _ _ _ _ _ _ _ _ A M S1 S2 T1 T2 HR HD) as (z & Hz & Z1).
  unfold worth. rewrite Hv. cbn [obind sv_eval statFloat f_mul fracF]. rewrite Hz. cbn [obind].
  eexists. split; [reflexivity|]. apply is_frac_bound; assumption.
Qed.
Lemma C59_Fraction_StatFloatAdditive_fits_proof :
  forall oc t D D' (h : history (statFloatAdditive (fracF oc t))), steady h ->
  Forall (reduced t) (gains h same same) -> Forall (reduced t) (factors h same) ->
  Forall (reduced t) (floors h same) -> Forall (reduced t) (ceilings h same) ->
  adds_over t D (gains h same same) -> adds_over t D' (factors h same ++ [Frac 1 1]) -> D * D' <= imax t ->
  room (scaled D (gains h same same)) * room (scaled D' (factors h same ++ [Frac 1 1])) <= imax t ->
  exists r, worth h = Done r /\ reduced t r /\
  (toQ r == qbounded t (floors h same) (ceilings h same) (qsum (gains h same same) * (1 + qsum (factors h same))))%Q.
Proof.
  intros oc t D D' h St Fg Ff Fl Fc HA HB HD HR.
  assert (F1 : Forall (reduced t) (factors h same ++ [Frac 1 1])) by (apply Forall_app; split; [exact Ff|constructor; [apply one_reduced|constructor]]).
  destruct (additive_fits oc t D D' h St Fg Ff HA (proj1 (adds_over_app _ _ _ _ HB))) as (v & Hv & A & M).
  destruct (additive_bounds oc t h Fl Fc v Hv) as [L U].
  destruct (sums_fit oc t D' _ _ _ _ F1 HB M (is_frac_sum t (Frac 1 1) (one_reduced t))) as (m & Hm & M1).
  destruct (sum_size t D _ _ Fg HA A) as [S1 S2]. destruct (sum_size t D' _ _ F1 HB M1) as [T1 T2].
  destruct (mul_by_size oc t _ _ _ _ _ _ _ _ A M1 S1 S2 T1 T2 HR HD) as (z & Hz & Z1).
  unfold worth. rewrite Hv. cbn [obind sv_eval statFloatAdditive f_mul f_add f_one fracF]. unfold r_int. rewrite Hm. cbn [obind]. rewrite Hz. cbn [obind].
  eexists. split; [reflexivity|]. apply is_frac_bound; [assumption|assumption|].
  eapply is_frac_eq; [|exact Z1]. rewrite qsum_app, qsum_one, (Qplus_comm 1). reflexivity.
Qed.
Lemma C59_Fraction_StatMult_fits_proof :
  forall oc t (h : history (statMult (fracF oc t))), steady h ->
  Forall (reduced t) (scales h same same) ->
  Forall (reduced t) (floors h same) -> Forall (reduced t) (ceilings h same) ->
  room_frac (scales h same same) <= imax t ->
  exists r, worth h = Done r /\ reduced t r /\
  (toQ r == qbounded t (floors h same) (ceilings h same) (qproduct (scales h same same)))%Q.
Proof.
  intros oc t h St Ff Fl Fc HR. destruct (mult_fits oc t h St Ff HR) as (v & Hv & M).
  destruct (mult_bounds oc t h Fl Fc v Hv) as [L U].
  unfold worth. rewrite Hv. cbn [obind sv_eval statMult]. eexists. split; [reflexivity|]. apply is_frac_bound; assumption.
Qed.
