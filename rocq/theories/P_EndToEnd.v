(** C65: from the calls that fill maps and register defaults to the answers of queries. *)
From Coq Require Import ZArith List Bool String Lia.
From Verif Require Import S_Types L_Ints.
From Verif Require Import M_Outcome M_Ints M_Ratio M_Float M_Value M_Types M_Qualifier M_Search M_Stat M_StatMap M_HashMap M_Pair M_Defaults M_Querier
  S_Ratio S_Search S_Pair S_StatMap S_Defaults S_Querier S_Totals S_EndToEnd S_Demo S_DemoDefaults S_DemoQuery S_DemoGame
  L_Search L_Demo L_DemoQuery L_EndToEnd L_EndToEnd2 L_DemoGame.
Import ListNotations.
Local Open Scope Z_scope.

(** For every program, every log of calls on every map and on the table of defaults, every
    arrangement of maps as global relations, components, relations and children's components, with
    or without a cache, after any past queries: a query of a marked entity is the starting value
    joined with the selected entries of the contributing maps, in order. *)
Theorem C65_query :
  forall (P : Prog) (Q : QFlag) (bs : list comparison -> bsres) (o_size o_align : vty P -> Z),
  bs_contract bs -> distinct_vtables P -> lawful_ord (q_cmp Q) -> flags_eq (Q := Q) ->
  forall (g : game P Q) e ch x s past, set_up bs o_size o_align g -> fits s -> w_entities (j_world (g_querier g)) e = Some ch ->
  exists sel, Forall2 (chosen s x) (logs_for g e (or_nil ch)) sel /\
  forall n,
    fst (run (client (g_querier g) (S n) (p_query e x s)) (after (g_querier g) past [])) =
      (let! v := value_of (together (stories g s sel)) in Done (Some v)) /\
    fst (run (client (g_querier g) (S n) (p_query_eval e x s)) (after (g_querier g) past [])) =
      (let! r := worth (together (stories g s sel)) in Done (Some r)).
Proof. exact C65_query_proof. Qed.
Print Assumptions C65_query.
(** Defaults 100; everywhere 7, burning 50 times 10; own 1 times 3; children 20 times 2 capped, 40, burning 6. *)
Example C65_query_case :
  (bs_contract bs_new /\ distinct_vtables demo /\ lawful_ord (q_cmp intQ) /\ flags_eq (Q := intQ) /\ set_up bs_new op_size op_align (demo_game true) /\
   fits hp /\ w_entities (j_world (g_querier (demo_game true))) 0%nat = Some (Some [1; 2; 3]%nat)) /\
  see_eval (game_querier true) 1 0%nat any = Done (Some ((100 + 7 + 1 + 20 + 40) * (3 * 2))) /\
  see_eval (game_querier true) 1 0%nat burning = Done (Some 5000) /\
  see_eval (game_querier true) 1 4%nat any = Done (Some (100 + 7)).
Proof.
  split; [|split; [vm_compute; reflexivity|split; vm_compute; reflexivity]].
  split; [exact bs_new_contract|]. split; [exact demo_distinct|]. split; [exact intQ_ord|]. split; [exact intQ_flags|]. split; [apply demo_set_up|].
  split; [reflexivity|]. reflexivity.
Qed.

(** Nothing else matters: the same starting value and the same entries under qualifiers that the
    query selects give the same answer, whatever else differs. *)
Theorem C65_depends_only :
  forall (P : Prog) (Q : QFlag) (bs : list comparison -> bsres) (o_size o_align : vty P -> Z),
  bs_contract bs -> distinct_vtables P -> lawful_ord (q_cmp Q) -> flags_eq (Q := Q) ->
  forall (g g' : game P Q) e e' ch ch' x s past past' n n',
  set_up bs o_size o_align g -> set_up bs o_size o_align g' -> fits s ->
  w_entities (j_world (g_querier g)) e = Some ch -> w_entities (j_world (g_querier g')) e' = Some ch' ->
  start (match g_defaults g with Some l => l | None => [] end) s = start (match g_defaults g' with Some l => l | None => [] end) s ->
  Forall2 (fun l l' => forall q, qualifies_as q x = true -> account l s q = account l' s q) (logs_for g e (or_nil ch)) (logs_for g' e' (or_nil ch')) ->
  fst (run (client (g_querier g) (S n) (p_query e x s)) (after (g_querier g) past [])) =
  fst (run (client (g_querier g') (S n') (p_query e' x s)) (after (g_querier g') past' [])).
Proof. exact C65_depends_only_proof. Qed.
Print Assumptions C65_depends_only.
Example C65_depends_only_case :
  see_eval (game_querier true) 1 0%nat any = see_eval (game_querier false) 2 0%nat any /\
  story_hp global_log none = story_hp [set_hp none 7] none /\ story_hp global_log fire <> story_hp [set_hp none 7] fire.
Proof. split; [vm_compute; reflexivity|]. split; [reflexivity|discriminate]. Qed.

(** ** Totals *)
(** [StatInt] with overflow checks: if a query evaluates, then to everything added anywhere times
    everything multiplied anywhere, between the bounds given anywhere. *)
Theorem C65_StatInt_checked :
  forall (P : Prog) (Q : QFlag) (bs : list comparison -> bsres) (o_size o_align : vty P -> Z),
  bs_contract bs -> distinct_vtables P -> lawful_ord (q_cmp Q) -> flags_eq (Q := Q) ->
  forall (g : game P Q) e ch x s past t (E : VT P (vt_value P (si_ty s)) = statInt true (prim t)),
  set_up bs o_size o_align g -> fits s -> w_entities (j_world (g_querier g)) e = Some ch ->
  exists sel, Forall2 (chosen s x) (logs_for g e (or_nil ch)) sel /\
  let all := map (seen_as E) (stories g s sel) in
  forall n r, fst (run (client (g_querier g) (S n) (p_query_eval e x s)) (after (g_querier g) past [])) = Done (Some r) ->
    result_as E r = bounded t (all_floors all same) (all_ceilings all same) (sum (all_gains all same same) * product (all_factors all same)).
Proof. exact C65_StatInt_checked_proof. Qed.
Print Assumptions C65_StatInt_checked.
(** The selected stories of the burning query, all of them. *)
Example C65_StatInt_checked_case :
  let of l q := match story_hp l q with Some h => [h] | None => [] end in
  let all := start_hp :: of global_log none ++ of global_log fire ++ of (snd (nth 0 own_logs (0%nat, []))) none ++
    of (snd (nth 0 child_logs (0%nat, []))) none ++ of (snd (nth 1 child_logs (0%nat, []))) none ++ of (snd (nth 1 child_logs (0%nat, []))) fire in
  VT demo VNum = statInt true (prim I32) /\
  all_gains all same same = [100; 7; 50; 1; 20; 40; 6] /\ all_factors all same = [10; 3; 2] /\ all_floors all same = [-5; 11] /\ all_ceilings all same = [5000] /\
  see_eval (game_querier false) 1 0%nat burning = Done (Some (bounded I32 [-5; 11] [5000] ((100 + 7 + 50 + 1 + 20 + 40 + 6) * (10 * 3 * 2)))).
Proof. split; [reflexivity|]. vm_compute. repeat split. Qed.
(** With room for all contributions it does evaluate, in every build and for every flavour. *)
Theorem C65_StatInt_fits :
  forall (P : Prog) (Q : QFlag) (bs : list comparison -> bsres) (o_size o_align : vty P -> Z),
  bs_contract bs -> distinct_vtables P -> lawful_ord (q_cmp Q) -> flags_eq (Q := Q) ->
  forall (g : game P Q) e ch x s past oc T (E : VT P (vt_value P (si_ty s)) = statInt oc T),
  set_up bs o_size o_align g -> fits s -> w_entities (j_world (g_querier g)) e = Some ch ->
  exists sel, Forall2 (chosen s x) (logs_for g e (or_nil ch)) sel /\
  let all := map (seen_as E) (stories g s sel) in
  Forall steady all -> Forall (z_ok T) (all_gains all same same) -> Forall (z_ok T) (all_factors all same) ->
  room (all_gains all same same) <= imax (i_ty T) -> room_mul (all_factors all same) <= imax (i_ty T) ->
  z_ok T (sum (all_gains all same same) * product (all_factors all same)) ->
  forall n, exists r, fst (run (client (g_querier g) (S n) (p_query_eval e x s)) (after (g_querier g) past [])) = Done (Some r) /\
    result_as E r = bounded (i_ty T) (all_floors all same) (all_ceilings all same) (sum (all_gains all same same) * product (all_factors all same)).
Proof. exact C65_StatInt_fits_proof. Qed.
Print Assumptions C65_StatInt_fits.
Example C65_StatInt_fits_case :
  room [100; 7; 50; 1; 20; 40; 6] <= imax I32 /\ room_mul [10; 3; 2] <= imax I32 /\ imin I32 <= (100 + 7 + 50 + 1 + 20 + 40 + 6) * 60 <= imax I32 /\
  see_eval (game_querier true) 1 0%nat burning = Done (Some 5000).
Proof. split; [cbn; lia|]. split; [cbn; lia|]. split; [cbn; lia|]. vm_compute. reflexivity. Qed.
(** [StatIntPercentAdditive]: the sum times 100 percent and all percentages, rounded once. *)
Theorem C65_StatIntPercentAdditive_checked :
  forall (P : Prog) (Q : QFlag) (bs : list comparison -> bsres) (o_size o_align : vty P -> Z),
  bs_contract bs -> distinct_vtables P -> lawful_ord (q_cmp Q) -> flags_eq (Q := Q) ->
  forall (g : game P Q) e ch x s past t R scale z (E : VT P (vt_value P (si_ty s)) = statPctAdd true (prim t) R scale),
  set_up bs o_size o_align g -> fits s -> w_entities (j_world (g_querier g)) e = Some ch -> from_i64 t scale = Done z -> 0 < z ->
  exists sel, Forall2 (chosen s x) (logs_for g e (or_nil ch)) sel /\
  let all := map (seen_as E) (stories g s sel) in
  forall n r, fst (run (client (g_querier g) (S n) (p_query_eval e x s)) (after (g_querier g) past [])) = Done (Some r) ->
    exists y, rounds_to R (sum (all_gains all same same) * (z + sum (all_factors all same))) z y /\
      result_as E r = bounded t (all_floors all same) (all_ceilings all same) y.
Proof. exact C65_StatIntPercentAdditive_checked_proof. Qed.
Print Assumptions C65_StatIntPercentAdditive_checked.
(** (35 + 10) * (100% + 30% - 5%) = 56.25 *)
Example C65_StatIntPercentAdditive_case :
  set_up bs_new (fun _ => 24) (fun _ => 8) (solo_game PA pa_logs) /\ solo_eval PA pa_logs = Done (Some 56).
Proof. split; [apply solo_set_up; [repeat constructor|vm_compute; reflexivity]|vm_compute; reflexivity]. Qed.
(** [StatIntFraction]: the sum times the product of all fractions, rounded once. *)
Theorem C65_StatIntFraction_checked :
  forall (P : Prog) (Q : QFlag) (bs : list comparison -> bsres) (o_size o_align : vty P -> Z),
  bs_contract bs -> distinct_vtables P -> lawful_ord (q_cmp Q) -> flags_eq (Q := Q) ->
  forall (g : game P Q) e ch x s past t R (E : VT P (vt_value P (si_ty s)) = statIntFraction true (prim t) R),
  set_up bs o_size o_align g -> fits s -> w_entities (j_world (g_querier g)) e = Some ch ->
  exists sel, Forall2 (chosen s x) (logs_for g e (or_nil ch)) sel /\
  let all := map (seen_as E) (stories g s sel) in
  Forall (ity_ok t) (all_gains all same same) -> Forall (reduced t) (all_factors all same) ->
  forall n r, fst (run (client (g_querier g) (S n) (p_query_eval e x s)) (after (g_querier g) past [])) = Done (Some r) ->
    exists y, rounds_to R (sum (all_gains all same same) * over (all_factors all same)) (under (all_factors all same)) y /\
      result_as E r = bounded t (all_floors all same) (all_ceilings all same) y.
Proof. exact C65_StatIntFraction_checked_proof. Qed.
Print Assumptions C65_StatIntFraction_checked.
(** (7 - 2) * (2/3 * 7/2) = 11 2/3 *)
Example C65_StatIntFraction_case :
  set_up bs_new (fun _ => 24) (fun _ => 8) (solo_game FR fr_logs) /\ solo_eval FR fr_logs = Done (Some 11).
Proof. split; [apply solo_set_up; [repeat constructor|vm_compute; reflexivity]|vm_compute; reflexivity]. Qed.
