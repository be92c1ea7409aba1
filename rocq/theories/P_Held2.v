(** Registered bounds hold for every answer of the types of stats with integer bounds. *)
From Coq Require Import ZArith List Bool Lia.
From Verif Require Import M_Outcome M_Ints M_Value M_Types M_Qualifier M_Search M_Stat M_StatMap M_HashMap M_Pair M_Defaults M_Querier
  S_Search S_StatMap S_Pair S_Defaults S_Querier S_Totals S_EndToEnd S_Rules S_Ties S_Held S_Held2 S_Demo S_DemoDefaults S_DemoQuery S_DemoGame S_DemoHeld
  L_Held2 L_DemoHeld.
Import ListNotations.
Local Open Scope Z_scope.

(** C86_query for each of these types, with nothing assumed of how its values are evaluated. *)
Theorem C86_query_types :
  forall (P : Prog) (Q : QFlag), lawful_ord (q_cmp Q) -> forall bs : list comparison -> bsres, bs_contract bs -> distinct_vtables P ->
  forall (T : StatTypes P) (o_size o_align : vty P -> Z), flags_eq (Q := Q) ->
  forall (s : inst P) lo out bnd, bounded_by (VT P (vt_value P (si_ty s))) lo out bnd ->
  forall (g : game P Q) l e ch x past r, lawful_game T bs o_size o_align g l -> fits s -> w_entities (j_world (g_querier g)) e = Some ch ->
  (forall r, In (inr r) l -> adjusts s r) -> yields (ruled T bs g l) past (p_query_eval e x s) (Some r) ->
  (forall b, registered g s (OMin b) -> bnd b <= out r) /\
  (forall b, registered g s (OMax b) -> exists k v,
     leads (ruled T bs g l) e x s (starting g s) (causes g l e (or_nil ch)) k /\ value_of k = Done v /\ out r <= Z.max (bnd b) (lo v)).
Proof. exact @C86_query_types_proof. Qed.
Print Assumptions C86_query_types.
(** A child's minimum of 11 wins over nothing but smaller results; 700 holds for greater ones. *)
Example C86_query_types_case :
  bounded_by (VT demo (vt_value demo (si_ty hp))) vmin (fun r : Z => r) (fun b : Z => b) /\
  registered held_game hp (@OMin SI (-5)) /\ registered held_game hp (@OMax SI 700) /\
  see_eval (held 0) 1 0%nat any = Done (Some 700) /\ see_eval (held (-1000)) 1 0%nat any = Done (Some 11) /\ see_eval (held (-1000)) 1 4%nat any = Done (Some (-5)).
Proof. split; [apply by_StatInt|]. split; [exact held_min|]. split; [exact held_max|]. repeat split; vm_compute; reflexivity. Qed.

(** C86_relation likewise. *)
Theorem C86_relation_types :
  forall (P : Prog) (Q : QFlag), lawful_ord (q_cmp Q) -> forall bs : list comparison -> bsres, bs_contract bs -> distinct_vtables P ->
  forall (T : StatTypes P) (o_size o_align : vty P -> Z), flags_eq (Q := Q) ->
  forall (s : inst P) lo out bnd, bounded_by (VT P (vt_value P (si_ty s))) lo out bnd ->
  forall (g : game P Q) l ts e f ce cf x past r, lawful_game T bs o_size o_align g l -> tied_game T g ts -> fits s ->
  w_entities (j_world (g_querier g)) e = Some ce -> w_entities (j_world (g_querier g)) f = Some cf ->
  (forall r, In (inr r) l -> adjusts s r) -> (forall r, In r (ties g ts e f) -> adjusts s r) -> yields (ruled T bs g l) past (p_relation_eval e f x s) (Some r) ->
  (forall b, registered g s (OMin b) -> bnd b <= out r) /\
  (forall b, registered g s (OMax b) -> exists k v,
     leads (ruled T bs g l) (w_placeholder (j_world (g_querier g))) x s (starting g s) (rel_causes g l ts e f) k /\ value_of k = Done v /\ out r <= Z.max (bnd b) (lo v)).
Proof. exact @C86_relation_types_proof. Qed.
Print Assumptions C86_relation_types.
Example C86_relation_types_case :
  bounded_by (VT demo (vt_value demo (si_ty hp))) vmin (fun r : Z => r) (fun b : Z => b) /\ tied_game demoT held_game [] /\
  map (fun n => fst (run (client (held n) 1 (p_relation_eval 0%nat 4%nat any hp)) [])) [1000; -1000] = [Done (Some (700 : Z)); Done (Some (-5 : Z))].
Proof. split; [apply by_StatInt|]. split; [split; constructor|]. vm_compute. reflexivity. Qed.
