(** C79: it does not matter where a modifier is granted. *)
From Coq Require Import ZArith List Bool Permutation.
From Verif Require Import S_Types.
From Verif Require Import M_Outcome M_Ints M_Float M_Value M_Types M_Qualifier M_Search M_Stat M_StatMap M_HashMap M_Pair M_Defaults M_Querier
  S_Search S_StatMap S_Pair S_Defaults S_Querier S_Totals S_FloatTotals S_EndToEnd S_Moved S_Demo S_DemoDefaults S_DemoQuery S_DemoGame S_DemoGame2 S_DemoMoved
  L_Search L_Demo L_DemoQuery L_DemoGame L_Moved L_DemoMoved.
Import ListNotations.
Local Open Scope Z_scope.

(** Value types that need no order (C08): two games that grant an entity the same entries, on whichever of its maps, of its
    children's or of the global ones, answer alike, or neither answers. *)
Theorem C79_moved :
  forall (P : Prog) (Q : QFlag) (bs : list comparison -> bsres) (o_size o_align : vty P -> Z),
  bs_contract bs -> distinct_vtables P -> lawful_ord (q_cmp Q) -> flags_eq (Q := Q) ->
  forall (g g' : game P Q) e e' x s past past' Pv Ev,
  set_up bs o_size o_align g -> set_up bs o_size o_align g' -> fits s -> moved g g' e e' x s ->
  order_free (VT P (vt_value P (si_ty s))) Pv Ev -> starts_in g s Pv -> grants_in g e x s Ev ->
  forall n, (forall a, asked g e x s past n = Done a <-> asked g' e' x s past' n = Done a) /\
    (forall r, asked_eval g e x s past n = Done r <-> asked_eval g' e' x s past' n = Done r).
Proof. exact C79_moved_proof. Qed.
Print Assumptions C79_moved.
(** Value types whose arithmetic may panic (C09): they answer alike if both do. *)
Theorem C79_agree :
  forall (P : Prog) (Q : QFlag) (bs : list comparison -> bsres) (o_size o_align : vty P -> Z),
  bs_contract bs -> distinct_vtables P -> lawful_ord (q_cmp Q) -> flags_eq (Q := Q) ->
  forall (g g' : game P Q) e e' x s past past' Pv Ev,
  set_up bs o_size o_align g -> set_up bs o_size o_align g' -> fits s -> moved g g' e e' x s ->
  order_free_if_done (VT P (vt_value P (si_ty s))) Pv Ev -> starts_in g s Pv -> grants_in g e x s Ev ->
  forall n, (forall a a', asked g e x s past n = Done a -> asked g' e' x s past' n = Done a' -> a = a') /\
    (forall r r', asked_eval g e x s past n = Done r -> asked_eval g' e' x s past' n = Done r' -> r = r').
Proof. exact C79_agree_proof. Qed.
Print Assumptions C79_agree.
(** Which provided types need no order. *)
Theorem C79_order_free_types :
  forall (P : Prog) (Q : QFlag) (bs : list comparison -> bsres) (o_size o_align : vty P -> Z),
  bs_contract bs -> distinct_vtables P -> lawful_ord (q_cmp Q) -> flags_eq (Q := Q) ->
  forall (g g' : game P Q) e e' x s past past',
  set_up bs o_size o_align g -> set_up bs o_size o_align g' -> fits s -> moved g g' e e' x s ->
  (exists oc T, (i_flav T = FWrapping \/ (i_flav T = FPrim /\ oc = false)) /\ (VT P (vt_value P (si_ty s)) = statInt oc T \/ exists R scale, VT P (vt_value P (si_ty s)) = statPctAdd oc T R scale)) \/
  VT P (vt_value P (si_ty s)) = statFlags zflags \/ VT P (vt_value P (si_ty s)) = statExists \/ VT P (vt_value P (si_ty s)) = boolV \/ (exists A, VT P (vt_value P (si_ty s)) = statOnce A) ->
  forall n, (forall a, asked g e x s past n = Done a <-> asked g' e' x s past' n = Done a) /\
    (forall r, asked_eval g e x s past n = Done r <-> asked_eval g' e' x s past' n = Done r).
Proof. exact C79_order_free_types_proof. Qed.
Print Assumptions C79_order_free_types.
(** 5, 77 and 90, wrapping around: 5 on the entity and the others on its child, or the other way round. *)
Example C79_order_free_types_case :
  let V := WI in
  set_up bs_new (fun _ => 24) (fun _ => 8) (solo_game V (here V 5 77 90)) /\ set_up bs_new (fun _ => 24) (fun _ => 8) (solo_game V (there V 5 77 90)) /\
  moved (solo_game V (here V 5 77 90)) (solo_game V (there V 5 77 90)) 0%nat 0%nat (@Aggregate intQ 1) (the_stat V) /\
  solo_burn V (here V 5 77 90) = Done (Some (-84)) /\ solo_burn V (there V 5 77 90) = Done (Some (-84)) /\ solo_eval V (here V 5 77 90) = Done (Some 82).
Proof.
  cbv zeta. split; [apply here_set_up; vm_compute; reflexivity|]. split; [apply there_set_up; vm_compute; reflexivity|]. split; [apply here_there|].
  repeat split; vm_compute; reflexivity.
Qed.
(** Which agree if both answer. *)
Theorem C79_checked_types :
  forall (P : Prog) (Q : QFlag) (bs : list comparison -> bsres) (o_size o_align : vty P -> Z),
  bs_contract bs -> distinct_vtables P -> lawful_ord (q_cmp Q) -> flags_eq (Q := Q) ->
  forall (g g' : game P Q) e e' x s past past',
  set_up bs o_size o_align g -> set_up bs o_size o_align g' -> fits s -> moved g g' e e' x s ->
  (exists t, VT P (vt_value P (si_ty s)) = statInt true (prim t) \/ exists R scale, VT P (vt_value P (si_ty s)) = statPctAdd true (prim t) R scale) ->
  forall n, (forall a a', asked g e x s past n = Done a -> asked g' e' x s past' n = Done a' -> a = a') /\
    (forall r r', asked_eval g e x s past n = Done r -> asked_eval g' e' x s past' n = Done r' -> r = r').
Proof. exact C79_checked_types_proof. Qed.
Print Assumptions C79_checked_types.
Example C79_checked_types_case :
  set_up bs_new (fun _ => 24) (fun _ => 8) (solo_game SI (here SI 5 7 9)) /\ set_up bs_new (fun _ => 24) (fun _ => 8) (solo_game SI (there SI 5 7 9)) /\
  moved (solo_game SI (here SI 5 7 9)) (solo_game SI (there SI 5 7 9)) 0%nat 0%nat (@Aggregate intQ 1) (the_stat SI) /\
  solo_burn SI (here SI 5 7 9) = Done (Some 21) /\ solo_burn SI (there SI 5 7 9) = Done (Some 21).
Proof.
  split; [apply here_set_up; vm_compute; reflexivity|]. split; [apply there_set_up; vm_compute; reflexivity|]. split; [apply here_there|].
  repeat split; vm_compute; reflexivity.
Qed.

(** It does matter for signed saturating integers, *)
Theorem C79_saturating_refuted :
  exists l l', set_up bs_new (fun _ => 24) (fun _ => 8) (solo_game SS l) /\ set_up bs_new (fun _ => 24) (fun _ => 8) (solo_game SS l') /\
  moved (solo_game SS l) (solo_game SS l') 0%nat 0%nat (@Aggregate intQ 1) (the_stat SS) /\
  solo_burn SS l = Done (Some 27) /\ solo_burn SS l' = Done (Some 100).
Proof. exact C79_saturating_refuted_proof. Qed.
Print Assumptions C79_saturating_refuted.
(** and for floats. *)
Theorem C79_float_refuted :
  exists l l', set_up bs_new (fun _ => 24) (fun _ => 8) (solo_game FL l) /\ set_up bs_new (fun _ => 24) (fun _ => 8) (solo_game FL l') /\
  moved (solo_game FL l) (solo_game FL l') 0%nat 0%nat (@Aggregate intQ 1) (the_stat FL) /\
  burn_int (solo_burn FL l) = Some 16777216 /\ burn_int (solo_burn FL l') = Some 16777218.
Proof. exact C79_float_refuted_proof. Qed.
Print Assumptions C79_float_refuted.
(** With overflow checks one may panic where the other answers. *)
Theorem C79_checked_panic_refuted :
  exists l l', set_up bs_new (fun _ => 24) (fun _ => 8) (solo_game S8 l) /\ set_up bs_new (fun _ => 24) (fun _ => 8) (solo_game S8 l') /\
  moved (solo_game S8 l) (solo_game S8 l') 0%nat 0%nat (@Aggregate intQ 1) (the_stat S8) /\
  solo_burn S8 l = Panics POverflow /\ solo_burn S8 l' = Done (Some 100).
Proof. exact C79_checked_panic_refuted_proof. Qed.
Print Assumptions C79_checked_panic_refuted.
(** [Prioritized] keeps the priority of the value it replaces, so even distinct priorities depend on the order. *)
Theorem C79_Prioritized_refuted :
  exists l l', set_up bs_new (fun _ => 24) (fun _ => 8) (solo_game PZ l) /\ set_up bs_new (fun _ => 24) (fun _ => 8) (solo_game PZ l') /\
  moved (solo_game PZ l) (solo_game PZ l') 0%nat 0%nat (@Aggregate intQ 1) (the_stat PZ) /\
  solo_burn PZ l = Done (Some 30) /\ solo_burn PZ l' = Done (Some 10).
Proof. exact C79_Prioritized_refuted_proof. Qed.
Print Assumptions C79_Prioritized_refuted.
