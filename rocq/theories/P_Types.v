(** C08-C18, C49: the provided value types. *)
From Coq Require Import ZArith QArith Bool List Permutation Lia.
From Flocq Require Import Core BinarySingleNaN.
From Verif Require Import M_Outcome M_Ints M_Ratio M_Float M_Value M_Types S_Ratio S_Types
  L_Ints L_Round L_RatioQ L_Types L_Types2 L_Types3 L_TypesProofs.
Import ListNotations.
Local Open Scope Z_scope.

(** ** C08: no ordering is needed on wrapping integers, flags, existence and once *)
Theorem C08_StatInt_order_free :
  forall (oc : bool) (T : intp),
  i_flav T = FWrapping \/ (i_flav T = FPrim /\ oc = false) ->
  order_free (statInt oc T) (fun _ => True) (fun _ => True).
Proof. exact statInt_order_free. Qed.
Print Assumptions C08_StatInt_order_free.
Theorem C08_StatIntPercentAdditive_order_free :
  forall (oc : bool) (T : intp) (R : rounding) (scale : Z),
  i_flav T = FWrapping \/ (i_flav T = FPrim /\ oc = false) ->
  order_free (statPctAdd oc T R scale) (fun _ => True) (fun _ => True).
Proof. exact statPctAdd_order_free. Qed.
Print Assumptions C08_StatIntPercentAdditive_order_free.
Theorem C08_StatFlags_order_free :
  forall G : FlagsT,
  (forall a b, g_or G a b = g_or G b a) ->
  (forall a b c, g_or G a (g_or G b c) = g_or G (g_or G a b) c) ->
  order_free (statFlags G) (fun _ => True) (fun _ => True).
Proof. exact statFlags_order_free. Qed.
Print Assumptions C08_StatFlags_order_free.
Theorem C08_StatFlags_int_order_free :
  order_free (statFlags zflags) (fun _ => True) (fun _ => True).
Proof. exact zflags_order_free. Qed.
Print Assumptions C08_StatFlags_int_order_free.
Theorem C08_StatExists_order_free : order_free statExists (fun _ => True) (fun _ => True).
Proof. exact statExists_order_free. Qed.
Print Assumptions C08_StatExists_order_free.
Theorem C08_bool_order_free : order_free boolV (fun _ => True) (fun _ => True).
Proof. exact bool_order_free. Qed.
Print Assumptions C08_bool_order_free.
Theorem C08_StatOnce_order_free : forall A : Type, order_free (statOnce A) (fun _ => True) (fun _ => True).
Proof. exact statOnce_order_free. Qed.
Print Assumptions C08_StatOnce_order_free.

Example C08_case :
  let T := {| i_ty := I8; i_flav := FWrapping |} in
  let S := statInt false T in let l := [(sAdd S 100); (sMul S 3); sJoin S (Quad 90 (-5) 120 2); (sMin S 7); (sAdd S 60)] in
  @run (statInt false T) (Quad 1 (-128) 127 1) l = Done (Quad (-5) 7 120 6) /\
  @run (statInt false T) (Quad 1 (-128) 127 1) (rev l) = Done (Quad (-5) 7 120 6).
Proof. split; reflexivity. Qed.

(** ** C09: every value type and numeric parameter *)
(** In checked builds all orders that do not panic agree. *)
Theorem C09_StatInt_checked_agree :
  forall t : ity,
  order_free_if_done (statInt true {| i_ty := t; i_flav := FPrim |}) (fun _ => True) (fun _ => True).
Proof. exact statInt_agree. Qed.
Print Assumptions C09_StatInt_checked_agree.
Theorem C09_StatIntPercentAdditive_checked_agree :
  forall (t : ity) (R : rounding) (scale : Z),
  order_free_if_done (statPctAdd true {| i_ty := t; i_flav := FPrim |} R scale) (fun _ => True) (fun _ => True).
Proof. exact statPctAdd_agree. Qed.
Print Assumptions C09_StatIntPercentAdditive_checked_agree.
Theorem C09_StatIntFraction_checked_agree :
  forall (t : ity) (R : rounding),
  let S := statIntFraction true {| i_ty := t; i_flav := FPrim |} R in
  order_free_if_done S (fun v => reduced t (mult v))
    (step_ok (S := S) (fun v => reduced t (mult v)) (op_ok (S := S) (fun _ => True) (reduced t) (fun _ => True))).
Proof. exact statIntFraction_agree. Qed.
Print Assumptions C09_StatIntFraction_checked_agree.
(** Unsigned saturating arithmetic needs no order. *)
Theorem C09_StatInt_unsigned_saturating_order_free :
  forall (oc : bool) (T : intp), i_flav T = FSaturating -> signed (i_ty T) = false ->
  let nonneg := fun v : quad Z Z => 0 <= addend v /\ 0 <= mult v in
  order_free (statInt oc T) nonneg
    (step_ok (S := statInt oc T) nonneg
       (op_ok (S := statInt oc T) (fun x => 0 <= x) (fun x => 0 <= x) (fun _ => True))).
Proof. exact statInt_sat_order_free. Qed.
Print Assumptions C09_StatInt_unsigned_saturating_order_free.

(** The README claim as stated is false for: signed saturating integers, *)
Theorem C09_signed_saturating_refuted :
  let S := statInt false {| i_ty := I8; i_flav := FSaturating |} in
  exists l l' : list (step S), Permutation l l' /\ Forall unordered l /\
  (let! v := @run S (sv_default S) l in sv_eval S v) = Done 27 /\
  (let! v := @run S (sv_default S) l' in sv_eval S v) = Done 100.
Proof. exact C09_signed_saturating_refuted_proof. Qed.
Print Assumptions C09_signed_saturating_refuted.
(** primitive integers with overflow checks (one order panics), *)
Theorem C09_checked_panic_refuted :
  let S := statInt true {| i_ty := I8; i_flav := FPrim |} in
  exists l l' : list (step S), Permutation l l' /\ Forall unordered l /\
  @run S (sv_default S) l = Panics POverflow /\
  (let! v := @run S (sv_default S) l' in sv_eval S v) = Done 127.
Proof. exact C09_checked_panic_refuted_proof. Qed.
Print Assumptions C09_checked_panic_refuted.
(** fraction multipliers without overflow checks, *)
Theorem C09_release_fraction_refuted :
  let S := statIntFraction false {| i_ty := I8; i_flav := FPrim |} Floor in
  exists l l' : list (step S), Permutation l l' /\ Forall unordered l /\
  (let! v := @run S (sv_from_base S 1) l in sv_eval S v) = Done 127 /\
  (let! v := @run S (sv_from_base S 1) l' in sv_eval S v) = Done 0.
Proof. exact C09_release_fraction_refuted_proof. Qed.
Print Assumptions C09_release_fraction_refuted.
(** f32 (2^24 + 1 + 1), *)
Theorem C09_f32_refuted :
  let S := statFloat f32F in
  exists l l' : list (step S), Permutation l l' /\ Forall unordered l /\
  let ev := fun l => match (let! v := @run S (sv_default S) l in sv_eval S v) with
                     | Done x => b_to_int 24 128 I64 x | _ => -1 end in
  ev l = 16777216 /\ ev l' = 16777218.
Proof. exact C09_f32_refuted_proof. Qed.
Print Assumptions C09_f32_refuted.
(** and Prioritized, even with distinct priorities. *)
Theorem C09_Prioritized_refuted :
  let S := prioritized Z 0 false in
  exists l l' : list (step S), Permutation l l' /\ Forall unordered l /\
  (let! v := @run S (sv_default S) l in sv_eval S v) = Done 20 /\
  (let! v := @run S (sv_default S) l' in sv_eval S v) = Done 10.
Proof. exact C09_Prioritized_refuted_proof. Qed.
Print Assumptions C09_Prioritized_refuted.

(** ** C10: bounds *)
Theorem C10_StatInt_eval_within_bounds :
  forall oc T, eval_bounded (statInt oc T) vmin vmax (fun x => x).
Proof. exact statInt_bounded. Qed.
Print Assumptions C10_StatInt_eval_within_bounds.
Theorem C10_StatIntFraction_eval_within_bounds :
  forall oc T R, eval_bounded (statIntFraction oc T R) vmin vmax (fun x => x).
Proof. exact statIntFraction_bounded. Qed.
Print Assumptions C10_StatIntFraction_eval_within_bounds.
Theorem C10_StatIntPercentAdditive_eval_within_bounds :
  forall oc T R scale, eval_bounded (statPctAdd oc T R scale) vmin vmax (fun x => x).
Proof. exact statPctAdd_bounded. Qed.
Print Assumptions C10_StatIntPercentAdditive_eval_within_bounds.
Theorem C10_StatIntPercent_eval_within_bounds :
  forall oc T R scale, eval_bounded (statPct oc T R scale) vmin vmax (fun x => x).
Proof. exact statPct_bounded. Qed.
Print Assumptions C10_StatIntPercent_eval_within_bounds.
Theorem C10_StatIntFloatMul_eval_within_bounds :
  forall prec emax Hp He oc t R, eval_bounded (statIntFloatMul prec emax Hp He oc t R) vmin vmax (fun x => x).
Proof. exact statIntFloatMul_bounded. Qed.
Print Assumptions C10_StatIntFloatMul_eval_within_bounds.

(** [min] only raises the lower bound and [max] only lowers the upper one, in any order. *)
Theorem C10_StatInt_bounds_accumulate :
  forall oc T, bounds_accumulate (statInt oc T) vmin vmax (fun x => x).
Proof. exact statInt_accumulate. Qed.
Print Assumptions C10_StatInt_bounds_accumulate.
Theorem C10_StatIntFraction_bounds_accumulate :
  forall oc T R, bounds_accumulate (statIntFraction oc T R) vmin vmax (fun x => x).
Proof. exact statIntFraction_accumulate. Qed.
Print Assumptions C10_StatIntFraction_bounds_accumulate.
Theorem C10_StatIntPercentAdditive_bounds_accumulate :
  forall oc T R scale, bounds_accumulate (statPctAdd oc T R scale) vmin vmax (fun x => x).
Proof. exact statPctAdd_accumulate. Qed.
Print Assumptions C10_StatIntPercentAdditive_bounds_accumulate.
Theorem C10_StatIntPercent_bounds_accumulate :
  forall oc T R scale, bounds_accumulate (statPct oc T R scale) vmin vmax (fun x => x).
Proof. exact statPct_accumulate. Qed.
Print Assumptions C10_StatIntPercent_bounds_accumulate.
Theorem C10_StatIntFloatMul_bounds_accumulate :
  forall prec emax Hp He oc t R, bounds_accumulate (statIntFloatMul prec emax Hp He oc t R) vmin vmax (fun x => x).
Proof. exact statIntFloatMul_accumulate. Qed.
Print Assumptions C10_StatIntFloatMul_bounds_accumulate.
(** Consequence, for any type with the two properties above: every lower bound ever contributed is
    respected, and so is every upper bound if no lower bound exceeds an upper bound. *)
Theorem C10_contributed_bounds_respected :
  forall (S : StatValue) lo hi out bnd,
  eval_bounded S lo hi out -> bounds_accumulate S lo hi bnd ->
  forall l v v' r, Forall unordered l -> run v l = Done v' -> sv_eval S v' = Done r ->
  (forall x, In x (flat_map (lower S lo bnd) l) -> x <= out r) /\
  ((forall x y, In x (lo v :: flat_map (lower S lo bnd) l) ->
                In y (hi v :: flat_map (upper S hi bnd) l) -> x <= y) ->
   forall y, In y (flat_map (upper S hi bnd) l) -> out r <= y).
Proof. exact bounds_respected. Qed.
Print Assumptions C10_contributed_bounds_respected.
Example C10_case :
  let S := statPctAdd true {| i_ty := I32; i_flav := FPrim |} Truncate 100 in
  let l := [(sAdd S 50); (sMax S 60); (sMul S 30); (sMin S 10); (sMax S 70)] in
  (let! v := @run S (sv_default S) l in sv_eval S v) = Done 60 /\ Forall unordered l /\
  sv_eval S (Quad 5 9 7 0) = Done 9.
Proof. split; [reflexivity|split; [repeat constructor|reflexivity]]. Qed.

(** ** C11: from_base then eval *)
Theorem C11_StatInt_base : forall oc T, base_returns (statInt oc T) (fun b => b) (z_ok T).
Proof. exact statInt_base. Qed.
Print Assumptions C11_StatInt_base.
(** [round_overflows R t b 1] holds only for [Floor] at [MIN] and [Ceil] at [MAX]. *)
Theorem C11_StatIntFraction_base :
  forall oc T R, base_returns (statIntFraction oc T R) (fun b => b)
    (fun b => z_ok T b /\ (oc = false \/ ~ round_overflows R (i_ty T) b 1)).
Proof. exact statIntFraction_base. Qed.
Print Assumptions C11_StatIntFraction_base.
Theorem C11_StatIntPercent_base :
  forall oc T R scale, base_returns (statPct oc T R scale) (fun b => b)
    (fun b => z_ok T b /\ (oc = false \/ ~ round_overflows R (i_ty T) b 1)).
Proof. exact statPct_base. Qed.
Print Assumptions C11_StatIntPercent_base.
Theorem C11_StatIntPercentAdditive_base :
  forall oc T R scale s, from_i64 (i_ty T) scale = Done s -> 0 < s ->
  base_returns (statPctAdd oc T R scale) (fun b => b)
    (fun b => z_ok T b /\ z_ok T (b * s) /\ (oc = false \/ ~ round_overflows R (i_ty T) b 1)).
Proof. exact statPctAdd_base. Qed.
Print Assumptions C11_StatIntPercentAdditive_base.
Theorem C11_other_types_base :
  (forall b, sv_eval boolV (sv_from_base boolV b) = Done b) /\
  (forall b, sv_eval statExists (sv_from_base statExists b) = Done b) /\
  (forall b, sv_eval (statFlags zflags) (sv_from_base (statFlags zflags) b) = Done b) /\
  (forall A b, sv_eval (statOnce A) (sv_from_base (statOnce A) b) = Done (Found b)) /\
  (forall A d last b, sv_eval (prioritized A d last) (sv_from_base (prioritized A d last) b) = Done (p_value b)).
Proof. exact C11_other_types_base_proof. Qed.
Print Assumptions C11_other_types_base.
(** The law fails for percentages as soon as [b * SCALE] overflows, *)
Theorem C11_StatIntPercentAdditive_refuted :
  let S oc := statPctAdd oc {| i_ty := I32; i_flav := FPrim |} Truncate 100 in
  sv_eval (S true) (sv_from_base (S true) 30000000) = Panics POverflow /\
  sv_eval (S false) (sv_from_base (S false) 30000000) = Done (-12949672).
Proof. exact C11_StatIntPercentAdditive_refuted_proof. Qed.
Print Assumptions C11_StatIntPercentAdditive_refuted.
(** and in checked builds for [Floor] at [MIN]. *)
Theorem C11_StatIntFraction_floor_min_refuted :
  let S := statIntFraction true {| i_ty := I32; i_flav := FPrim |} Floor in
  z_ok {| i_ty := I32; i_flav := FPrim |} (-2147483648) /\
  sv_eval S (sv_from_base S (-2147483648)) = Panics POverflow.
Proof. exact C11_StatIntFraction_floor_min_refuted_proof. Qed.
Print Assumptions C11_StatIntFraction_floor_min_refuted.
Example C11_case :
  let S := statPctAdd true {| i_ty := I32; i_flav := FPrim |} Round 100 in
  sv_eval S (sv_from_base S (-21474836)) = Done (-21474836) /\ from_i64 I32 100 = Done 100.
Proof. split; reflexivity. Qed.

(** ** C12: default is neutral, modifiers can be split off *)
Theorem C12_StatInt :
  forall oc T, default_neutral (statInt oc T) (quad_ok T (z_ok T)) /\
  splittable (statInt oc T) (quad_ok T (z_ok T)) (op_ok (S := statInt oc T) (z_ok T) (z_ok T) (z_ok T)).
Proof. exact C12_StatInt_proof. Qed.
Print Assumptions C12_StatInt.
Theorem C12_StatIntPercentAdditive :
  forall oc T R scale, default_neutral (statPctAdd oc T R scale) (quad_ok T (z_ok T)) /\
  splittable (statPctAdd oc T R scale) (quad_ok T (z_ok T))
    (op_ok (S := statPctAdd oc T R scale) (z_ok T) (z_ok T) (z_ok T)).
Proof. exact C12_StatIntPercentAdditive_proof. Qed.
Print Assumptions C12_StatIntPercentAdditive.
Theorem C12_StatIntFraction :
  forall oc T R, default_neutral (statIntFraction oc T R) (quad_ok T (reduced (i_ty T))) /\
  splittable (statIntFraction oc T R) (quad_ok T (reduced (i_ty T)))
    (op_ok (S := statIntFraction oc T R) (z_ok T) (reduced (i_ty T)) (z_ok T)).
Proof. exact C12_StatIntFraction_proof. Qed.
Print Assumptions C12_StatIntFraction.
Theorem C12_StatFlags :
  default_neutral (statFlags zflags) (fun _ => True) /\ splittable (statFlags zflags) (fun _ => True) (fun _ => True).
Proof. exact zflags_neutral. Qed.
Print Assumptions C12_StatFlags.
Theorem C12_StatExists :
  default_neutral statExists (fun _ => True) /\ splittable statExists (fun _ => True) (fun _ => True).
Proof. exact statExists_neutral. Qed.
Print Assumptions C12_StatExists.
Theorem C12_StatOnce :
  forall A, default_neutral (statOnce A) (fun _ => True) /\ splittable (statOnce A) (fun _ => True) (fun _ => True).
Proof. exact statOnce_neutral. Qed.
Print Assumptions C12_StatOnce.
Example C12_case :
  let T := {| i_ty := I8; i_flav := FPrim |} in
  quad_ok T (z_ok T) (Quad 100 (-3) 120 2) /\
  write_to (S := statInt true T) (OMul (S := statInt true T) 5) (Quad 100 (-3) 120 2) = Done (Quad 100 (-3) 120 10) /\
  (* panics coincide as well *)
  write_to (S := statInt true T) (OAdd (S := statInt true T) 28) (Quad 100 (-3) 120 2) = Panics POverflow /\
  (let! w := into_stat (S := statInt true T) (OAdd (S := statInt true T) 28) in sv_join (statInt true T) (Quad 100 (-3) 120 2) w) = Panics POverflow.
Proof. split; [unfold quad_ok, z_ok; cbn; lia|repeat split; reflexivity]. Qed.

(** ** C13: StatIntPercent does not aggregate like the others *)
(** Querying an entry inserted with [insert_base(b)] gives [2 * (b + 1)]. *)
Theorem C13_StatIntPercent_query_doubles :
  forall oc T R scale b, z_ok T b -> z_ok T (1 + b) -> z_ok T ((1 + b) * 2) ->
  oc = false \/ ~ round_overflows R (i_ty T) ((1 + b) * 2) 1 ->
  (let! q := sv_join (statPct oc T R scale) (sv_default _) (sv_from_base (statPct oc T R scale) b) in
   sv_eval (statPct oc T R scale) q) = Done ((1 + b) * 2).
Proof. exact statPct_query. Qed.
Print Assumptions C13_StatIntPercent_query_doubles.
Theorem C13_StatIntPercent_query_refuted :
  exists oc T R scale b, z_ok T b /\
  (let! q := sv_join (statPct oc T R scale) (sv_default _) (sv_from_base (statPct oc T R scale) b) in
   sv_eval (statPct oc T R scale) q) = Done 12 /\ b = 5.
Proof. exact C13_StatIntPercent_query_refuted_proof. Qed.
Print Assumptions C13_StatIntPercent_query_refuted.
Theorem C13_StatIntPercent_default_neutral_refuted :
  exists v, quad_ok {| i_ty := I32; i_flav := FPrim |} (reduced I32) v /\
  sv_join (statPct true {| i_ty := I32; i_flav := FPrim |} Truncate 100) v
          (sv_default (statPct true {| i_ty := I32; i_flav := FPrim |} Truncate 100)) <> Done v.
Proof. exact C13_StatIntPercent_default_neutral_refuted_proof. Qed.
Print Assumptions C13_StatIntPercent_default_neutral_refuted.
(** x2 (200%) and x3 (300%) in separate entries give x5 instead of x6. *)
Theorem C13_StatIntPercent_separate_multipliers_refuted :
  let S := statPct true {| i_ty := I32; i_flav := FPrim |} Truncate 100 in
  let frac := (mult : val S -> ratio) in
  (let! v := into_stat (S := S) (OMul (S := S) 200) in let! w := into_stat (S := S) (OMul (S := S) 300) in
   let! j := sv_join S v w in Done (frac j)) = Done (Frac 5 1) /\
  (let! v := into_stat (S := S) (OMul (S := S) 200) in let! w := write_to (S := S) (OMul (S := S) 300) v in Done (frac w)) = Done (Frac 6 1).
Proof. exact C13_StatIntPercent_separate_multipliers_refuted_proof. Qed.
Print Assumptions C13_StatIntPercent_separate_multipliers_refuted.

(** ** C14: Prioritized *)
(** What it computes: the last contribution beating the priority of the initial value. *)
Theorem C14_Prioritized_takes_last_above_initial :
  forall A d (last : bool) (v : prio A) l1 (x : prio A) l2,
  (if last then p_priority v <=? p_priority x else p_priority v <? p_priority x) = true ->
  (forall y : prio A, In y l2 -> (if last then p_priority v <=? p_priority y else p_priority v <? p_priority y) = false) ->
  let S := prioritized A d last in
  (let! w := ofold (sv_join S) (sv_from_base S v) (map (sv_from_base S) (l1 ++ x :: l2)) in sv_eval S w)
  = Done (p_value x).
Proof. exact C14_Prioritized_takes_last_above_initial_proof. Qed.
Print Assumptions C14_Prioritized_takes_last_above_initial.
Theorem C14_Prioritized_keeps_initial :
  forall A d (last : bool) (v : prio A) l,
  (forall y : prio A, In y l -> (if last then p_priority v <=? p_priority y else p_priority v <? p_priority y) = false) ->
  let S := prioritized A d last in
  (let! w := ofold (sv_join S) (sv_from_base S v) (map (sv_from_base S) l) in sv_eval S w) = Done (p_value v).
Proof. exact C14_Prioritized_keeps_initial_proof. Qed.
Print Assumptions C14_Prioritized_keeps_initial.
(** A stat without a base starts at priority 0. *)
Theorem C14_Prioritized_default_priority :
  forall A d (last : bool), let S := prioritized A d last in
  sv_default S = sv_from_base S (Prio d 0).
Proof. exact C14_Prioritized_default_priority_proof. Qed.
Print Assumptions C14_Prioritized_default_priority.
(** The documented result (first or last of the highest priority) is missed by both variants. *)
Theorem C14_Prioritized_documented_refuted :
  forall last : bool,
  exists (l : list (prio Z)) (best : prio Z),
    is_best last (Prio 0 0 :: l) best /\ p_value best = 9 /\
    (let! w := ofold (sv_join (prioritized Z 0 last)) (Prio 0 0) l in sv_eval (prioritized Z 0 last) w) = Done 1.
Proof. exact C14_Prioritized_documented_refuted_proof. Qed.
Print Assumptions C14_Prioritized_documented_refuted.
Example C14_case :
  (let! w := ofold (sv_join (prioritized Z 0 false)) (Prio 7 5) [Prio 1 9; Prio 2 6; Prio 3 5; Prio 4 1] in
   sv_eval (prioritized Z 0 false) w) = Done 2.
Proof. reflexivity. Qed.

(** ** C15: StatOnce *)
Theorem C15_StatOnce_counts :
  forall (A : Type) (t : tree A),
  tree_run (statOnce A) A (fun x => x) (fun x => x) t =
  Done (match included t with [] => NotFound | [x] => Found x | _ => FoundMultiple end).
Proof. exact once_tree. Qed.
Print Assumptions C15_StatOnce_counts.
Theorem C15_StatOnce_try_set :
  forall (A : Type) (t : tree A) (x : A),
  (let! v := tree_run (statOnce A) A (fun x => x) (fun x => x) t in Done (once_try_set v x)) =
  Done (match included t with [] => (Found x, true) | [y] => (Found y, false) | _ => (FoundMultiple, false) end).
Proof. exact C15_StatOnce_try_set_proof. Qed.
Print Assumptions C15_StatOnce_try_set.
Theorem C15_StatOnce_accessors :
  forall (A : Type) (t : tree A) (d : A), exists v,
  tree_run (statOnce A) A (fun x => x) (fun x => x) t = Done v /\
  once_into_option v = match included t with [x] => Some x | _ => None end /\
  once_is_some v = (length (included t) =? 1)%nat /\ once_is_none v = negb (length (included t) =? 1)%nat /\
  once_unwrap_or v d = match included t with [x] => x | _ => d end /\
  once_unwrap v = match included t with [x] => Done x | _ => Panics PUnwrap end.
Proof. exact C15_StatOnce_accessors_proof. Qed.
Print Assumptions C15_StatOnce_accessors.
Example C15_case :
  included (TJoin (TOr (TJoin TDefault TDefault) 4) (TNot TDefault 5)) = [4] /\
  tree_run (statOnce Z) Z (fun x => x) (fun x => x) (TJoin (TBase 1) (TOr TDefault 2)) = Done FoundMultiple.
Proof. split; reflexivity. Qed.

(** ** C16: StatFlags *)
Theorem C16_StatFlags_exclusion_wins :
  forall (G : FlagsT) (F : Type) (mem : gcar G -> F -> Prop), lawful_flags G F mem ->
  forall t : tree (gcar G), exists r,
    (let! v := tree_run (statFlags G) (gcar G) (fun x => x) (fun x => x) t in sv_eval (statFlags G) v) = Done r /\
    forall f, mem r f <->
      (exists b, In b (included t) /\ mem b f) /\ ~ (exists b, In b (excluded t) /\ mem b f).
Proof. exact flags_eval. Qed.
Print Assumptions C16_StatFlags_exclusion_wins.
Theorem C16_int_flags_lawful : lawful_flags zflags nat (fun z i => Z.testbit z (Z.of_nat i) = true).
Proof. exact zflags_lawful. Qed.
Print Assumptions C16_int_flags_lawful.
Theorem C16_bool_flags_lawful : lawful_flags boolflags unit (fun b _ => b = true).
Proof. exact boolflags_lawful. Qed.
Print Assumptions C16_bool_flags_lawful.
Example C16_case :
  (let! v := tree_run (statFlags zflags) Z (fun x => x) (fun x => x)
               (TJoin (TNot (TOr TDefault 12) 4) (TOr (TBase 3) 4)) in sv_eval (statFlags zflags) v) = Done 11.
Proof. reflexivity. Qed.

(** ** C17: booleans *)
Theorem C17_StatExists_or :
  forall t : tree bool,
  (let! v := tree_run statExists bool (fun x => x) (fun x => x) t in sv_eval statExists v)
  = Done (existsb (fun b => b) (included t)).
Proof. exact C17_StatExists_or_proof. Qed.
Print Assumptions C17_StatExists_or.
(** [bool] joins correctly ... *)
Theorem C17_bool_join :
  forall t : tree bool, no_or t ->
  (let! v := tree_run boolV bool (fun x => x) (fun x => x) t in sv_eval boolV v)
  = Done (existsb (fun b => b) (included t)).
Proof. exact C17_bool_join_proof. Qed.
Print Assumptions C17_bool_join.
(** ... but ignores [or]. *)
Theorem C17_bool_or_refuted :
  exists t : tree bool, existsb (fun b => b) (included t) = true /\
  (let! v := tree_run boolV bool (fun x => x) (fun x => x) t in sv_eval boolV v) = Done false.
Proof. exact C17_bool_or_refuted_proof. Qed.
Print Assumptions C17_bool_or_refuted.
Theorem C17_bool_operations_ignored :
  forall (v : bool) (o : stat_op boolV), (forall b, o <> OBase b) -> write_to o v = Done v.
Proof. exact C17_bool_operations_ignored_proof. Qed.
Print Assumptions C17_bool_operations_ignored.

(** ** C18: the percentage formula *)
Theorem C18_formula_total :
  forall oc T R scale s (v : quad Z Z), from_i64 (i_ty T) scale = Done s -> 0 < s ->
  z_ok T (s + mult v) -> z_ok T (addend v * (s + mult v)) ->
  ~ round_overflows R (i_ty T) (addend v * (s + mult v)) s ->
  exists r, sv_eval (statPctAdd oc T R scale) v = Done r /\ pct_result R s v r.
Proof. exact pct_total. Qed.
Print Assumptions C18_formula_total.
Theorem C18_checked_never_wrong :
  forall t R scale s (v : quad Z Z) r, from_i64 t scale = Done s -> 0 < s ->
  sv_eval (statPctAdd true {| i_ty := t; i_flav := FPrim |} R scale) v = Done r -> pct_result R s v r.
Proof. exact pct_exact. Qed.
Print Assumptions C18_checked_never_wrong.
(** The formula uses [from_i64(SCALE)], which is SCALE only if SCALE fits: with i8 and SCALE = 1000
    the scale silently becomes 127. *)
Theorem C18_narrow_scale_refuted :
  let T := {| i_ty := I8; i_flav := FPrim |} in
  let v := Quad 1 (-128) 127 (-128) in
  z_ok T (200 + mult v) /\ z_ok T (addend v * (200 + mult v)) /\
  sv_eval (statPctAdd true T Floor 200) v = Done (-1) /\
  pct_result Floor 200 v 0 /\ ~ pct_result Floor 200 v (-1).
Proof. exact C18_narrow_scale_refuted_proof. Qed.
Print Assumptions C18_narrow_scale_refuted.
(** The product alone fitting is not enough: the sum of the multipliers may overflow, or the
    rounding of num-rational. *)
Theorem C18_product_fits_refuted :
  let T := {| i_ty := I8; i_flav := FPrim |} in
  (let v := Quad 0 (-128) 127 100 in
   z_ok T (addend v * (100 + mult v)) /\ sv_eval (statPctAdd true T Truncate 100) v = Panics POverflow) /\
  (let v := Quad (-1) (-128) 127 27 in
   z_ok T (addend v * (100 + mult v)) /\ sv_eval (statPctAdd true T Floor 100) v = Panics POverflow /\
   sv_eval (statPctAdd false T Floor 100) v = Done 0 /\ pct_result Floor 100 v (-2)).
Proof. exact C18_product_fits_refuted_proof. Qed.
Print Assumptions C18_product_fits_refuted.
(** The scale used is the written one when it fits. *)
Theorem C18_scale_kept :
  forall t scale, imax t <= imax I64 -> imin t <= scale <= imax t -> from_i64 t scale = Done scale.
Proof. exact C18_scale_kept_proof. Qed.
Print Assumptions C18_scale_kept.
Theorem C18_scale_zero_panics :
  forall oc t R v, exists p, sv_eval (statPctAdd oc {| i_ty := t; i_flav := FPrim |} R 0) v = Panics p.
Proof. exact C18_scale_zero_panics_proof. Qed.
Print Assumptions C18_scale_zero_panics.
(** Wide types cannot evaluate at all. *)
Theorem C18_wide_types_panic :
  forall oc T R scale v, imax I64 < imax (i_ty T) ->
  sv_eval (statPctAdd oc T R scale) v = Panics PClamp.
Proof. exact C18_wide_types_panic_proof. Qed.
Print Assumptions C18_wide_types_panic.
Example C18_case :
  let S := statPctAdd true {| i_ty := I32; i_flav := FPrim |} Round 100 in
  sv_eval S (Quad 35 0 1000 30) = Done 46 /\ (* 35 * 1.3 = 45.5 *)
  from_i64 I32 100 = Done 100 /\ ~ round_overflows Round I32 (35 * (100 + 30)) 100.
Proof. repeat split. intros []. Qed.

(** ** C49: the fraction formula *)
Theorem C49_formula_total :
  forall oc T R (v : quad Z ratio) z, reduced (i_ty T) (mult v) -> z_ok T (addend v) ->
  reduced (i_ty T) z -> (toQ z == toQ (mult v) * inject_Z (addend v))%Q ->
  ~ round_overflows R (i_ty T) (numer z) (denom z) ->
  exists r, sv_eval (statIntFraction oc T R) v = Done r /\ frac_result R v r.
Proof. exact frac_total. Qed.
Print Assumptions C49_formula_total.
Theorem C49_checked_never_wrong :
  forall T R (v : quad Z ratio) r, reduced (i_ty T) (mult v) -> z_ok T (addend v) ->
  sv_eval (statIntFraction true T R) v = Done r -> frac_result R v r.
Proof. exact frac_exact. Qed.
Print Assumptions C49_checked_never_wrong.
(** Without overflow checks the result may be wrong: 64 * 3/2 in i8. *)
Theorem C49_release_refuted :
  exists v r, reduced I8 (mult v) /\ z_ok {| i_ty := I8; i_flav := FPrim |} (addend v) /\
  sv_eval (statIntFraction false {| i_ty := I8; i_flav := FPrim |} Floor) v = Done r /\ ~ frac_result Floor v r.
Proof. exact C49_release_refuted_proof. Qed.
Print Assumptions C49_release_refuted.
Example C49_case :
  sv_eval (statIntFraction true {| i_ty := I8; i_flav := FPrim |} Ceil) (Quad 45 (-128) 127 (Frac 7 6)) = Done 53 /\
  reduced I8 (Frac 7 6).
Proof. split; [reflexivity|]. unfold reduced, valid; cbn; split; [lia|reflexivity]. Qed.
