(** Floor division of machine integers, whatever the signs. *)
From Coq Require Import ZArith Bool Lia.
From Verif Require Import M_Outcome M_Ints M_Ratio M_RatioAlgo S_Ratio L_Outcome L_Ints L_Ratio L_RatioAlgo.
Local Open Scope Z_scope.

Lemma floor_by_quot a b : b <> 0 ->
  (a / b, a mod b) = if ((0 <? Z.rem a b) && (b <? 0)) || ((Z.rem a b <? 0) && (0 <? b)) then (Z.quot a b - 1, Z.rem a b + b) else (Z.quot a b, Z.rem a b).
Proof.
  intros B. pose proof (Z.quot_rem' a b) as E. pose proof (Z.rem_bound_abs a b B) as R.
  destruct (Z.ltb_spec 0 (Z.rem a b)); destruct (Z.ltb_spec b 0); destruct (Z.ltb_spec (Z.rem a b) 0); destruct (Z.ltb_spec 0 b); cbn [andb orb]; try lia;
  first [ f_equal; [symmetry; apply (Z.div_unique a b _ (Z.rem a b)); [lia|exact E] | symmetry; apply (Z.mod_unique a b (Z.quot a b)); [lia|exact E]]
        | f_equal; [symmetry; apply (Z.div_unique a b _ (Z.rem a b + b)); [lia|rewrite E at 1; ring] | symmetry; apply (Z.mod_unique a b (Z.quot a b - 1)); [lia|rewrite E at 1; ring]] ].
Qed.
Lemma quot_m1 a : Z.quot a (-1) = - a.
Proof. change (-1) with (- (1)). rewrite Z.quot_opp_r, Z.quot_1_r by lia. reflexivity. Qed.
Lemma div_in t a b : ity_ok t a -> ity_ok t b -> b <> 0 -> ~ (a = imin t /\ b = -1) -> ity_ok t (a / b) /\ ity_ok t (a mod b) /\ ity_ok t (Z.quot a b).
Proof.
  intros Ha Hb B N. pose proof (imin_le0 t) as I0. assert (I1 : imin t = 0 \/ imin t = - imax t - 1) by (destruct t; cbn; lia).
  assert (I2 : 0 < imax t) by (destruct t; cbn; lia). unfold ity_ok in *.
  pose proof (Z.div_mod a b B) as E. pose proof (Z.quot_rem' a b) as E'. pose proof (Z.rem_bound_abs a b B) as R.
  assert (M : ity_ok t (a mod b)) by (unfold ity_ok; destruct (Z.lt_ge_cases b 0); [pose proof (Z.mod_neg_bound a b ltac:(lia))|pose proof (Z.mod_pos_bound a b ltac:(lia))]; lia).
  unfold ity_ok in M. split; [|split; [exact M|]].
  - destruct (Z.eq_dec b (-1)) as [->|Bm]; [assert (V : - a = a / -1) by (apply (Z.div_unique a (-1) _ 0); lia); lia|].
    destruct (Z.lt_ge_cases b 0) as [L|L].
    + pose proof (Z.mod_neg_bound a b L). split; nia.
    + pose proof (Z.mod_pos_bound a b ltac:(lia)). split; nia.
  - destruct (Z.eq_dec b (-1)) as [->|Bm]; [rewrite quot_m1; lia|].
    destruct (Z.lt_ge_cases a 0); destruct (Z.lt_ge_cases b 0).
    + pose proof (Z.rem_nonpos a b B ltac:(lia)). split; nia.
    + pose proof (Z.rem_nonpos a b B ltac:(lia)). split; nia.
    + pose proof (Z.rem_nonneg a b B ltac:(lia)). split; nia.
    + pose proof (Z.rem_nonneg a b B ltac:(lia)). split; nia.
Qed.

Lemma C19_division_algorithm_proof :
  forall (oc : bool) (t : ity) (a b : Z), imin t <= a <= imax t -> imin t <= b <= imax t ->
  div_mod_floor oc t a b =
    if b =? 0 then Panics PDivZero
    else if signed t && (a =? imin t) && (b =? -1) then Panics POverflow
    else Done (a / b, a mod b).
Proof.
  intros oc t a b Ha Hb. unfold div_mod_floor, p_div, p_rem. destruct (Z.eqb_spec b 0) as [->|B]; [reflexivity|].
  destruct (signed t && (a =? imin t) && (b =? -1)) eqn:X.
  - apply andb_true_iff in X. destruct X as [X X3]. apply andb_true_iff in X. destruct X as [X1 X2]. apply Z.eqb_eq in X2, X3. subst a b.
    rewrite quot_m1.
    replace (in_range t (- imin t)) with false; [reflexivity|]. symmetry. destruct t; try discriminate X1; reflexivity.
  - assert (N : ~ (a = imin t /\ b = -1)).
    { intros [-> ->]. rewrite !Z.eqb_refl, !andb_true_r in X. destruct t; cbn in *; try discriminate; lia. }
    destruct (div_in t a b Ha Hb B N) as (D & M & T). apply in_range_iff in T. rewrite T. cbn [obind].
    pose proof (floor_by_quot a b B) as F. destruct ((0 <? Z.rem a b) && (b <? 0) || (Z.rem a b <? 0) && (0 <? b)); injection F as F1 F2; [|rewrite F1, F2; reflexivity].
    unfold p_sub, p_add. rewrite <- F1, <- F2, !chk_id by assumption. reflexivity.
Qed.
