(** C41-C43, C55: stat instances, [match_stat!], and what safe code can do to a pair. *)
From Coq Require Import ZArith List Bool Lia.
From Verif Require Import M_Outcome M_Ints M_Value M_Types M_Stat M_Pair S_StatMap S_Pair S_Demo L_StatMap L_Demo L_PairProofs.
Import ListNotations.
Local Open Scope Z_scope.

(** ** C41 *)
Theorem C41_total_order :
  forall P : Prog, distinct_vtables P -> lawful_ord (inst_cmp (P := P)).
Proof. exact inst_ord. Qed.
Print Assumptions C41_total_order.
Theorem C41_equality :
  forall (P : Prog) (a b : inst P), distinct_vtables P ->
  (inst_eqb a b = true <-> si_ty a = si_ty b /\ si_index a = si_index b) /\
  (inst_eqb a b = true <-> inst_cmp a b = Eq) /\
  (inst_eqb a b = true <-> inst_hash a = inst_hash b).
Proof. exact C41_equality_proof. Qed.
Print Assumptions C41_equality.
Theorem C41_operators :
  forall (P : Prog) (a b : inst P),
  (inst_ltb a b = true <-> inst_cmp a b = Lt) /\
  (inst_leb a b = true <-> inst_cmp a b = Lt \/ inst_eqb a b = true) /\
  (inst_ltb a b = true <-> inst_leb b a = false).
Proof. exact C41_operators_proof. Qed.
Print Assumptions C41_operators.
Example C41_case : inst_cmp hp atk = Gt /\ inst_cmp atk alive = Lt /\ inst_eqb hp (@Inst demo Hp 0) = true /\
  inst_eqb hp (@Inst demo Hp 1) = false /\ distinct_vtables demo.
Proof. repeat split. exact demo_distinct. Qed.

(** ** C42 *)
Theorem C42_first_matching_arm :
  forall (P : Prog) (D : StatTypes P) (R : Type) (s : inst P) (v : val (VT P (vt_value P (si_ty s))))
         (pre : list (arm P R)) (a : arm P R) (post : list (arm P R)) (miss : R) (out : outcome (pair P * R)),
  distinct_vtables P ->
  Forall (arm_ok D) (pre ++ [a]) -> s_from_index D (si_ty s) (si_index s) = Done (si_index s) ->
  Forall (fun b => ~ arm_for s b) pre -> arm_runs s v a out ->
  match_stat D (Pair s (Buf _ v)) (pre ++ a :: post) miss = out.
Proof. exact C42_first_matching_arm_proof. Qed.
Print Assumptions C42_first_matching_arm.
Theorem C42_no_arm :
  forall (P : Prog) (D : StatTypes P) (R : Type) (s : inst P) (v : val (VT P (vt_value P (si_ty s))))
         (l : list (arm P R)) (miss : R),
  distinct_vtables P -> Forall (arm_ok D) l -> Forall (fun b => ~ arm_for s b) l ->
  match_stat D (Pair s (Buf _ v)) l miss = Done (Pair s (Buf _ v), miss).
Proof. exact C42_no_arm_proof. Qed.
Print Assumptions C42_no_arm.
Example C42_case :
  omap snd (match_stat demoT (hp_pair 7) demo_arms 0%nat) = Done 3%nat /\
  (let! r := match_stat demoT (hp_pair 7) demo_arms 0%nat in pair_num (fst r)) = Done (num 12) /\
  omap snd (match_stat demoT (atk_pair 7) demo_arms 0%nat) = Done 2%nat /\
  omap snd (match_stat demoT (Pair (@Inst demo Hp 3) (@Buf demo VNum (num 1))) demo_arms 0%nat) = Done 4%nat /\
  omap snd (match_stat demoT (Pair (@Inst demo Alive 3) (@Buf demo VBool true)) demo_arms 0%nat) = Done 0%nat /\
  Forall (arm_ok demoT) demo_arms.
Proof. repeat split. repeat constructor. Qed.

(** The casts validate the stat type instead of its value type: an arm naming a stat type of more
    than 24 bytes panics, although its value type is fine, and even if the arm does not apply. *)
Theorem C42_runs_first_matching_arm_refuted :
  exists (P : Prog) (D : StatTypes P) (s : inst P) (v : val (VT P (vt_value P (si_ty s)))) (a : arm P nat) (b : arm P nat),
  distinct_vtables P /\ (forall t i, s_from_index D t i = Done i) /\ (forall t, validate_ty P t = Done tt) /\
  ~ arm_for s a /\ arm_runs s v b (Done (Pair s (Buf _ v), 1%nat)) /\
  match_stat D (Pair s (Buf _ v)) [a; b] 0%nat = Panics PSize.
Proof. exact C42_runs_first_matching_arm_refuted_proof. Qed.
Print Assumptions C42_runs_first_matching_arm_refuted.

(** ** C43, on the pair itself *)
(** Safe code keeps a well typed pair well typed, without undefined behaviour. *)
Theorem C43_safe_code_keeps_pair_typed :
  forall (P : Prog) (D : StatTypes P) (l : list (pair_op P)) (p : pair P),
  distinct_vtables P -> index_sound D -> Forall (pair_op_sound D) l -> pair_ok p ->
  pair_steps D p l <> UB /\ forall p', pair_steps D p l = Done p' -> pair_ok p'.
Proof. exact C43_safe_code_keeps_pair_typed_proof. Qed.
Print Assumptions C43_safe_code_keeps_pair_typed.
(** If no step puts another pair in place, the value can be read at the queried stat's type. *)
Theorem C43_typed_result_if_stat_kept :
  forall (P : Prog) (D : StatTypes P) (l : list (pair_op P)) (s : inst P) (v : val (VT P (vt_value P (si_ty s)))) (p' : pair P),
  distinct_vtables P -> index_sound D -> Forall (pair_op_sound D) l -> Forall keeps_stat l ->
  pair_steps D (Pair s (Buf _ v)) l = Done p' ->
  exists w, p' = Pair s (Buf (vt_value P (si_ty s)) w).
Proof. exact C43_typed_result_if_stat_kept_proof. Qed.
Print Assumptions C43_typed_result_if_stat_kept.
(** Safe code may replace the pair, and then reading the result is undefined behaviour. *)
Theorem C43_typed_result_refuted :
  exists (P : Prog) (D : StatTypes P) (s : inst P) (p : pair P) (l : list (pair_op P)) (p' : pair P),
  distinct_vtables P /\ index_sound D /\ Forall (pair_op_sound D) l /\ pair_ok p /\ p_stat p = s /\
  pair_steps D p l = Done p' /\ buf_into P (vt_value P (si_ty s)) (p_buf p') = UB.
Proof. exact C43_typed_result_refuted_proof. Qed.
Print Assumptions C43_typed_result_refuted.
Example C43_case :
  (let! p := pair_steps demoT (hp_pair 7)
     [@OCast demo Hp (fun v => sv_add (VT demo VNum) v 2); @OCast demo Alive (fun b => Done (negb b));
      @OIs demo hp (fun v => sv_mul (VT demo VNum) v 3); @OIs demo atk (fun v => Panics PUser)] in
   pair_num p) = Done (Quad 9 (-1000) 1000 3).
Proof. reflexivity. Qed.

(** ** C55: tests and casts by stat *)
Theorem C55_is :
  forall (P : Prog), distinct_vtables P ->
  (forall (p : pair P) (s : inst P), pair_is p s = true <-> p_stat p = s) /\
  (forall a b : inst P, stat_is a b = true <-> a = b).
Proof. exact C55_is_proof. Qed.
Print Assumptions C55_is.
(** [is_then_cast] gives the value for exactly the stat of the pair. *)
Theorem C55_is_then_cast :
  forall (P : Prog) (D : StatTypes P) (s : inst P) (v : val (VT P (vt_value P (si_ty s)))) (o : inst P),
  distinct_vtables P ->
  (good_stat D (si_ty s) -> pair_is_then_cast D (Pair s (Buf _ v)) s = Done (Some v)) /\
  (good_stat D (si_ty o) -> s <> o -> pair_is_then_cast D (Pair s (Buf _ v)) o = Done None).
Proof. exact C55_is_then_cast_proof. Qed.
Print Assumptions C55_is_then_cast.
(** [cast] gives the index and the value for exactly the stat type of the pair, any index. *)
Theorem C55_cast :
  forall (P : Prog) (D : StatTypes P) (s : inst P) (v : val (VT P (vt_value P (si_ty s)))) (t : sty P),
  distinct_vtables P ->
  (good_stat D (si_ty s) -> s_from_index D (si_ty s) (si_index s) = Done (si_index s) ->
   pair_cast D (Pair s (Buf _ v)) (si_ty s) = Done (Some (si_index s, v))) /\
  (good_stat D t -> si_ty s <> t -> pair_cast D (Pair s (Buf _ v)) t = Done None).
Proof. exact C55_cast_proof. Qed.
Print Assumptions C55_cast.
Theorem C55_into_result :
  forall (P : Prog) (D : StatTypes P) (s : inst P) (v : val (VT P (vt_value P (si_ty s)))) (t : sty P),
  distinct_vtables P ->
  (good_stat D (si_ty s) -> validate_ty P (vt_value P (si_ty s)) = Done tt ->
   pair_into_result D (Pair s (Buf _ v)) (si_ty s) = Done (Some v)) /\
  (good_stat D t -> si_ty s <> t -> pair_into_result D (Pair s (Buf _ v)) t = Done None).
Proof. exact C55_into_result_proof. Qed.
Print Assumptions C55_into_result.
(** The casts on unerased values ([StatExt]) agree, without a check of sizes and without [from_index]. *)
Theorem C55_unerased :
  forall (P : Prog) (a : inst P) (v : val (VT P (vt_value P (si_ty a)))),
  distinct_vtables P ->
  ext_cast a v (si_ty a) = Some (si_index a, v) /\
  (forall t, si_ty a <> t -> ext_cast a v t = None) /\
  ext_is_then_cast a v a = Some v /\
  (forall o, a <> o -> ext_is_then_cast a v o = None).
Proof. exact C55_unerased_proof. Qed.
Print Assumptions C55_unerased.
(** [Hp] and [Atk] share their value type, and [Hp] has several indices. *)
Example C55_case :
  pair_is (hp_pair 7) hp = true /\ pair_is (hp_pair 7) atk = false /\ pair_is (hp_pair 7) (@Inst demo Hp 1) = false /\
  pair_is_then_cast demoT (hp_pair 7) (@Inst demo Hp 1) = Done None /\
  pair_cast demoT (hp_pair 7) Hp = Done (Some (0, num 7)) /\ pair_cast demoT (hp_pair 7) Atk = Done None /\
  pair_into_result demoT (hp_pair 7) Atk = Done None /\
  ext_is_then_cast hp (num 7) atk = None /\ ext_cast (@Inst demo Hp 3) (num 7) Hp = Some (3, num 7).
Proof. repeat split. Qed.
