From Coq Require Import ZArith QArith Bool List Permutation Lia.
From Flocq Require Import Core BinarySingleNaN.
From Verif Require Import M_Outcome M_Ints M_Ratio M_Float M_Value M_Types S_Ratio S_Types
  L_Ints L_Round L_RatioQ L_Types L_Types2 L_Types3.
Import ListNotations.
Local Open Scope Z_scope.

Lemma C09_signed_saturating_refuted_proof :
  let S := statInt false {| i_ty := I8; i_flav := FSaturating |} in
  exists l l' : list (step S), Permutation l l' /\ Forall unordered l /\
  (let! v := @run S (sv_default S) l in sv_eval S v) = Done 27 /\
  (let! v := @run S (sv_default S) l' in sv_eval S v) = Done 100.
Proof.
  intros S.
  exists [(sAdd S 100); (sAdd S 100); (sAdd S (-100))], [(sAdd S 100); (sAdd S (-100)); (sAdd S 100)].
  split; [apply perm_skip, perm_swap|]. split; [repeat constructor|]. split; reflexivity.
Qed.

Lemma C09_checked_panic_refuted_proof :
  let S := statInt true {| i_ty := I8; i_flav := FPrim |} in
  exists l l' : list (step S), Permutation l l' /\ Forall unordered l /\
  @run S (sv_default S) l = Panics POverflow /\
  (let! v := @run S (sv_default S) l' in sv_eval S v) = Done 127.
Proof.
  intros S.
  exists [(sAdd S 127); (sAdd S 1); (sAdd S (-1))], [(sAdd S 127); (sAdd S (-1)); (sAdd S 1)].
  split; [apply perm_skip, perm_swap|]. split; [repeat constructor|]. split; reflexivity.
Qed.

Lemma C09_release_fraction_refuted_proof :
  let S := statIntFraction false {| i_ty := I8; i_flav := FPrim |} Floor in
  exists l l' : list (step S), Permutation l l' /\ Forall unordered l /\
  (let! v := @run S (sv_from_base S 1) l in sv_eval S v) = Done 127 /\
  (let! v := @run S (sv_from_base S 1) l' in sv_eval S v) = Done 0.
Proof.
  intros S.
  exists [(sMul S (Frac 1 127)); (sMul S (Frac 1 127)); (sMul S (Frac 127 1))],
         [(sMul S (Frac 1 127)); (sMul S (Frac 127 1)); (sMul S (Frac 1 127))].
  split; [apply perm_skip, perm_swap|]. split; [repeat constructor|]. split; reflexivity.
Qed.

Lemma C09_f32_refuted_proof :
  let S := statFloat f32F in
  exists l l' : list (step S), Permutation l l' /\ Forall unordered l /\
  let ev := fun l => match (let! v := @run S (sv_default S) l in sv_eval S v) with
                     | Done x => b_to_int 24 128 I64 x | _ => -1 end in
  ev l = 16777216 /\ ev l' = 16777218.
Proof.
  intros S.
  pose (i := b_of_int 24 128 prec24 emax128).
  exists [(sAdd S (i 16777216)); (sAdd S (i 1)); (sAdd S (i 1))],
         [(sAdd S (i 1)); (sAdd S (i 1)); (sAdd S (i 16777216))].
  split; [|split; [repeat constructor|split; vm_compute; reflexivity]].
  apply (Permutation_trans (perm_swap _ _ _)). apply perm_skip, perm_swap.
Qed.

Lemma C09_Prioritized_refuted_proof :
  let S := prioritized Z 0 false in
  exists l l' : list (step S), Permutation l l' /\ Forall unordered l /\
  (let! v := @run S (sv_default S) l in sv_eval S v) = Done 20 /\
  (let! v := @run S (sv_default S) l' in sv_eval S v) = Done 10.
Proof.
  intros S. exists [sJoin S (Prio 10 1); sJoin S (Prio 20 2)],
         [sJoin S (Prio 20 2); sJoin S (Prio 10 1)].
  split; [apply perm_swap|]. split; [repeat constructor|]. split; reflexivity.
Qed.

Lemma C11_other_types_base_proof :
  (forall b, sv_eval boolV (sv_from_base boolV b) = Done b) /\
  (forall b, sv_eval statExists (sv_from_base statExists b) = Done b) /\
  (forall b, sv_eval (statFlags zflags) (sv_from_base (statFlags zflags) b) = Done b) /\
  (forall A b, sv_eval (statOnce A) (sv_from_base (statOnce A) b) = Done (Found b)) /\
  (forall A d last b, sv_eval (prioritized A d last) (sv_from_base (prioritized A d last) b) = Done (p_value b)).
Proof.
  repeat split. intros b. cbn. rewrite Z.land_0_r, Z.lxor_0_r. reflexivity.
Qed.

Lemma C11_StatIntPercentAdditive_refuted_proof :
  let S oc := statPctAdd oc {| i_ty := I32; i_flav := FPrim |} Truncate 100 in
  sv_eval (S true) (sv_from_base (S true) 30000000) = Panics POverflow /\
  sv_eval (S false) (sv_from_base (S false) 30000000) = Done (-12949672).
Proof. split; reflexivity. Qed.

Lemma C11_StatIntFraction_floor_min_refuted_proof :
  let S := statIntFraction true {| i_ty := I32; i_flav := FPrim |} Floor in
  z_ok {| i_ty := I32; i_flav := FPrim |} (-2147483648) /\
  sv_eval S (sv_from_base S (-2147483648)) = Panics POverflow.
Proof. split; [unfold z_ok; cbn; lia|reflexivity]. Qed.

Lemma C13_StatIntPercent_query_refuted_proof :
  exists oc T R scale b, z_ok T b /\
  (let! q := sv_join (statPct oc T R scale) (sv_default _) (sv_from_base (statPct oc T R scale) b) in
   sv_eval (statPct oc T R scale) q) = Done 12 /\ b = 5.
Proof.
  exists true, {| i_ty := I32; i_flav := FPrim |}, Truncate, 100, 5.
  split; [unfold z_ok; cbn; lia|]. split; reflexivity.
Qed.

Lemma C13_StatIntPercent_default_neutral_refuted_proof :
  exists v, quad_ok {| i_ty := I32; i_flav := FPrim |} (reduced I32) v /\
  sv_join (statPct true {| i_ty := I32; i_flav := FPrim |} Truncate 100) v
          (sv_default (statPct true {| i_ty := I32; i_flav := FPrim |} Truncate 100)) <> Done v.
Proof.
  exists (Quad 10 0 1000 (Frac 3 2)). split; [|discriminate].
  unfold quad_ok, z_ok, reduced, valid; cbn. repeat split; lia.
Qed.

Lemma C13_StatIntPercent_separate_multipliers_refuted_proof :
  let S := statPct true {| i_ty := I32; i_flav := FPrim |} Truncate 100 in
  let frac := (mult : val S -> ratio) in
  (let! v := into_stat (S := S) (OMul (S := S) 200) in let! w := into_stat (S := S) (OMul (S := S) 300) in
   let! j := sv_join S v w in Done (frac j)) = Done (Frac 5 1) /\
  (let! v := into_stat (S := S) (OMul (S := S) 200) in let! w := write_to (S := S) (OMul (S := S) 300) v in Done (frac w)) = Done (Frac 6 1).
Proof. split; reflexivity. Qed.

Lemma C14_Prioritized_takes_last_above_initial_proof :
  forall A d (last : bool) (v : prio A) l1 (x : prio A) l2,
  (if last then p_priority v <=? p_priority x else p_priority v <? p_priority x) = true ->
  (forall y : prio A, In y l2 -> (if last then p_priority v <=? p_priority y else p_priority v <? p_priority y) = false) ->
  let S := prioritized A d last in
  (let! w := ofold (sv_join S) (sv_from_base S v) (map (sv_from_base S) (l1 ++ x :: l2)) in sv_eval S w)
  = Done (p_value x).
Proof.
  intros A d last v l1 x l2 Hx H S. unfold S. cbn [prioritized sv_from_base]. rewrite map_id, prio_join_spec. cbn. f_equal.
  apply (taken_last last (p_priority v) (p_value v) l1 x l2 Hx H).
Qed.

Lemma C14_Prioritized_keeps_initial_proof :
  forall A d (last : bool) (v : prio A) l,
  (forall y : prio A, In y l -> (if last then p_priority v <=? p_priority y else p_priority v <? p_priority y) = false) ->
  let S := prioritized A d last in
  (let! w := ofold (sv_join S) (sv_from_base S v) (map (sv_from_base S) l) in sv_eval S w) = Done (p_value v).
Proof.
  intros A d last v l H S. unfold S. cbn [prioritized sv_from_base]. rewrite map_id, prio_join_spec. cbn. f_equal.
  apply (taken_none last (p_priority v) (p_value v) l H).
Qed.

Lemma C14_Prioritized_default_priority_proof :
  forall A d (last : bool), let S := prioritized A d last in
  sv_default S = sv_from_base S (Prio d 0).
Proof. reflexivity. Qed.

Lemma C14_Prioritized_documented_refuted_proof :
  forall last : bool,
  exists (l : list (prio Z)) (best : prio Z),
    is_best last (Prio 0 0 :: l) best /\ p_value best = 9 /\
    (let! w := ofold (sv_join (prioritized Z 0 last)) (Prio 0 0) l in sv_eval (prioritized Z 0 last) w) = Done 1.
Proof.
  intros last. exists [Prio 9 10; Prio 1 1], (Prio 9 10). split; [|split; [reflexivity|destruct last; reflexivity]].
  exists [Prio 0 0], [Prio 1 1]. split; [reflexivity|].
  split; intros y [<-|[]]; destruct last; cbn; lia.
Qed.

Lemma C15_StatOnce_try_set_proof :
  forall (A : Type) (t : tree A) (x : A),
  (let! v := tree_run (statOnce A) A (fun x => x) (fun x => x) t in Done (once_try_set v x)) =
  Done (match included t with [] => (Found x, true) | [y] => (Found y, false) | _ => (FoundMultiple, false) end).
Proof.
  intros A t x. rewrite once_tree. cbn. rewrite once_try_set_spec.
  destruct (included t) as [|y [|z l]]; reflexivity.
Qed.

Lemma C15_StatOnce_accessors_proof :
  forall (A : Type) (t : tree A) (d : A), exists v,
  tree_run (statOnce A) A (fun x => x) (fun x => x) t = Done v /\
  once_into_option v = match included t with [x] => Some x | _ => None end /\
  once_is_some v = (length (included t) =? 1)%nat /\ once_is_none v = negb (length (included t) =? 1)%nat /\
  once_unwrap_or v d = match included t with [x] => x | _ => d end /\
  once_unwrap v = match included t with [x] => Done x | _ => Panics PUnwrap end.
Proof.
  intros A t d. exists (once_spec (included t)). split; [apply once_tree|]. apply once_accessors.
Qed.

Lemma C17_StatExists_or_proof :
  forall t : tree bool,
  (let! v := tree_run statExists bool (fun x => x) (fun x => x) t in sv_eval statExists v)
  = Done (existsb (fun b => b) (included t)).
Proof. intros t. rewrite exists_tree. reflexivity. Qed.

Lemma C17_bool_join_proof :
  forall t : tree bool, no_or t ->
  (let! v := tree_run boolV bool (fun x => x) (fun x => x) t in sv_eval boolV v)
  = Done (existsb (fun b => b) (included t)).
Proof. intros t H. rewrite (bool_tree t H). reflexivity. Qed.

Lemma C17_bool_or_refuted_proof :
  exists t : tree bool, existsb (fun b => b) (included t) = true /\
  (let! v := tree_run boolV bool (fun x => x) (fun x => x) t in sv_eval boolV v) = Done false.
Proof. exists (TOr TDefault true). split; reflexivity. Qed.

Lemma C17_bool_operations_ignored_proof :
  forall (v : bool) (o : stat_op boolV), (forall b, o <> OBase b) -> write_to o v = Done v.
Proof. intros v o H. destruct o; try reflexivity. destruct (H x eq_refl). Qed.

Lemma C18_narrow_scale_refuted_proof :
  let T := {| i_ty := I8; i_flav := FPrim |} in
  let v := Quad 1 (-128) 127 (-128) in
  z_ok T (200 + mult v) /\ z_ok T (addend v * (200 + mult v)) /\
  sv_eval (statPctAdd true T Floor 200) v = Done (-1) /\
  pct_result Floor 200 v 0 /\ ~ pct_result Floor 200 v (-1).
Proof.
  cbv zeta. split; [unfold z_ok; cbn; lia|]. split; [unfold z_ok; cbn; lia|]. split; [reflexivity|]. split.
  - exists 0. split; [unfold rounds_to, is_floor; cbn; lia|reflexivity].
  - intros [y [H E]]. unfold rounds_to, is_floor in H. cbn in H, E. lia.
Qed.

Lemma C18_product_fits_refuted_proof :
  let T := {| i_ty := I8; i_flav := FPrim |} in
  (let v := Quad 0 (-128) 127 100 in
   z_ok T (addend v * (100 + mult v)) /\ sv_eval (statPctAdd true T Truncate 100) v = Panics POverflow) /\
  (let v := Quad (-1) (-128) 127 27 in
   z_ok T (addend v * (100 + mult v)) /\ sv_eval (statPctAdd true T Floor 100) v = Panics POverflow /\
   sv_eval (statPctAdd false T Floor 100) v = Done 0 /\ pct_result Floor 100 v (-2)).
Proof.
  cbv zeta. split; [split; [unfold z_ok; cbn; lia|reflexivity]|].
  split; [unfold z_ok; cbn; lia|]. split; [reflexivity|]. split; [reflexivity|].
  exists (-2). split; [unfold rounds_to, is_floor; cbn; lia|reflexivity].
Qed.

Lemma C18_scale_kept_proof :
  forall t scale, imax t <= imax I64 -> imin t <= scale <= imax t -> from_i64 t scale = Done scale.
Proof.
  intros t scale H R. rewrite from_i64_ok by (destruct t; try reflexivity; exfalso; apply H; reflexivity).
  f_equal. lia.
Qed.

Lemma C18_scale_zero_panics_proof :
  forall oc t R v, exists p, sv_eval (statPctAdd oc {| i_ty := t; i_flav := FPrim |} R 0) v = Panics p.
Proof.
  intros oc t R v. cbn. destruct (from_i64 t 0) as [s|p| |] eqn:E.
  - assert (s = 0) as ->.
    { destruct (fits_i64 t) eqn:F.
      - rewrite from_i64_ok in E by exact F. inversion E. pose proof (imin_le0 t). pose proof (imax_ge127 t). lia.
      - rewrite from_i64_panics in E by exact F. discriminate. }
    cbn [obind]. unfold i_add, i_mul, i_norm; cbn [i_flav i_ty].
    destruct (calm_chk oc t (mult v + 0)) as [[m ->]|[p ->]]; cbn [obind]; [|eauto].
    destruct (calm_chk oc t (addend v * m)) as [[n ->]|[p ->]]; cbn [obind]; [|eauto].
    cbn. eauto.
  - cbn. eauto.
  - exfalso. destruct (fits_i64 t) eqn:F; [rewrite from_i64_ok in E by exact F|rewrite from_i64_panics in E by exact F]; discriminate.
  - exfalso. destruct (fits_i64 t) eqn:F; [rewrite from_i64_ok in E by exact F|rewrite from_i64_panics in E by exact F]; discriminate.
Qed.

Lemma C18_wide_types_panic_proof :
  forall oc T R scale v, imax I64 < imax (i_ty T) ->
  sv_eval (statPctAdd oc T R scale) v = Panics PClamp.
Proof.
  intros oc T R scale v H. cbn. rewrite from_i64_panics; [reflexivity|].
  destruct (i_ty T); try reflexivity; discriminate H.
Qed.

Lemma C49_release_refuted_proof :
  exists v r, reduced I8 (mult v) /\ z_ok {| i_ty := I8; i_flav := FPrim |} (addend v) /\
  sv_eval (statIntFraction false {| i_ty := I8; i_flav := FPrim |} Floor) v = Done r /\ ~ frac_result Floor v r.
Proof.
  exists (Quad 100 (-128) 127 (Frac 3 1)), 44. split; [|split; [|split]].
  - unfold reduced, valid; cbn; split; [lia|reflexivity].
  - unfold z_ok; cbn; lia.
  - reflexivity.
  - intros [y [H1 H2]]. cbn in *. unfold is_floor in H1. lia.
Qed.
Lemma C12_StatInt_proof :
  forall oc T, default_neutral (statInt oc T) (quad_ok T (z_ok T)) /\
  splittable (statInt oc T) (quad_ok T (z_ok T)) (op_ok (S := statInt oc T) (z_ok T) (z_ok T) (z_ok T)).
Proof. exact (fun oc T => conj (statInt_neutral oc T) (statInt_split oc T)). Qed.

Lemma C12_StatIntPercentAdditive_proof :
  forall oc T R scale, default_neutral (statPctAdd oc T R scale) (quad_ok T (z_ok T)) /\
  splittable (statPctAdd oc T R scale) (quad_ok T (z_ok T))
    (op_ok (S := statPctAdd oc T R scale) (z_ok T) (z_ok T) (z_ok T)).
Proof. exact (fun oc T R s => conj (statPctAdd_neutral oc T R s) (statPctAdd_split oc T R s)). Qed.

Lemma C12_StatIntFraction_proof :
  forall oc T R, default_neutral (statIntFraction oc T R) (quad_ok T (reduced (i_ty T))) /\
  splittable (statIntFraction oc T R) (quad_ok T (reduced (i_ty T)))
    (op_ok (S := statIntFraction oc T R) (z_ok T) (reduced (i_ty T)) (z_ok T)).
Proof. exact (fun oc T R => conj (statIntFraction_neutral oc T R) (statIntFraction_split oc T R)). Qed.
