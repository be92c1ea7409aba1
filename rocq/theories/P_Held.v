(** Registered bounds hold for every answer. *)
From Coq Require Import ZArith List Bool Lia.
From Verif Require Import S_Types.
From Verif Require Import M_Outcome M_Ints M_Value M_Types M_Qualifier M_Search M_Stat M_StatMap M_HashMap M_Pair M_Defaults M_Querier
  S_Search S_StatMap S_Pair S_Defaults S_Querier S_Totals S_EndToEnd S_Rules S_Ties S_Held S_Demo S_DemoDefaults S_DemoQuery S_DemoGame S_DemoHeld
  L_Types2 L_Ties L_Held L_DemoHeld.
Import ListNotations.
Local Open Scope Z_scope.

(** A minimum that was registered for a stat, and not replaced, holds for every evaluated query,
    whatever maps and rules contribute, unless rules set the base; and so does a maximum unless a
    greater minimum was contributed: [k] is everything that contributed and [lo v] its greatest minimum.
    For any value type whose bounds accumulate and hold (C10). *)
Theorem C86_query :
  forall (P : Prog) (Q : QFlag), lawful_ord (q_cmp Q) -> forall bs : list comparison -> bsres, bs_contract bs -> distinct_vtables P ->
  forall (T : StatTypes P) (o_size o_align : vty P -> Z), flags_eq (Q := Q) ->
  forall (s : inst P) lo hi out bnd, eval_bounded (VT P (vt_value P (si_ty s))) lo hi out -> bounds_accumulate (VT P (vt_value P (si_ty s))) lo hi bnd ->
  forall (g : game P Q) l e ch x past r, lawful_game T bs o_size o_align g l -> fits s -> w_entities (j_world (g_querier g)) e = Some ch ->
  (forall r, In (inr r) l -> adjusts s r) -> yields (ruled T bs g l) past (p_query_eval e x s) (Some r) ->
  (forall b, registered g s (OMin b) -> bnd b <= out r) /\
  (forall b, registered g s (OMax b) -> exists k v,
     leads (ruled T bs g l) e x s (starting g s) (causes g l e (or_nil ch)) k /\ value_of k = Done v /\ out r <= Z.max (bnd b) (lo v)).
Proof. exact @C86_query_proof. Qed.
Print Assumptions C86_query.
(** Not burning, there are (168 + n) * 6: held between 11, given by a child, and 700; burning, 5000
    held at 700; alone, 107 + n, held at -5. *)
Example C86_query_case :
  (forall n, lawful_game demoT bs_new op_size op_align held_game (held_laws n) /\ forall r, In (inr r) (held_laws n) -> adjusts hp r) /\
  registered held_game hp (@OMin SI (-5)) /\ registered held_game hp (@OMax SI 700) /\
  eval_bounded (VT demo (vt_value demo (si_ty hp))) vmin vmax (fun x : Z => x) /\ bounds_accumulate (VT demo (vt_value demo (si_ty hp))) vmin vmax (fun x : Z => x) /\
  see_eval (held (-68)) 1 0%nat any = Done (Some 600) /\ see_eval (held 0) 1 0%nat any = Done (Some 700) /\ see_eval (held (-1000)) 1 0%nat any = Done (Some 11) /\
  see_eval (held (-1000)) 1 0%nat burning = Done (Some 700) /\ see_eval (held (-1000)) 1 4%nat any = Done (Some (-5)).
Proof.
  split; [intros n; split; [apply held_lawful|apply held_adjusts]|]. split; [exact held_min|]. split; [exact held_max|].
  split; [exact (statInt_bounded _ _)|]. split; [exact (statInt_accumulate _ _)|]. repeat split; vm_compute; reflexivity.
Qed.

(** The same for relation queries. *)
Theorem C86_relation :
  forall (P : Prog) (Q : QFlag), lawful_ord (q_cmp Q) -> forall bs : list comparison -> bsres, bs_contract bs -> distinct_vtables P ->
  forall (T : StatTypes P) (o_size o_align : vty P -> Z), flags_eq (Q := Q) ->
  forall (s : inst P) lo hi out bnd, eval_bounded (VT P (vt_value P (si_ty s))) lo hi out -> bounds_accumulate (VT P (vt_value P (si_ty s))) lo hi bnd ->
  forall (g : game P Q) l ts e f ce cf x past r, lawful_game T bs o_size o_align g l -> tied_game T g ts -> fits s ->
  w_entities (j_world (g_querier g)) e = Some ce -> w_entities (j_world (g_querier g)) f = Some cf ->
  (forall r, In (inr r) l -> adjusts s r) -> (forall r, In r (ties g ts e f) -> adjusts s r) -> yields (ruled T bs g l) past (p_relation_eval e f x s) (Some r) ->
  (forall b, registered g s (OMin b) -> bnd b <= out r) /\
  (forall b, registered g s (OMax b) -> exists k v,
     leads (ruled T bs g l) (w_placeholder (j_world (g_querier g))) x s (starting g s) (rel_causes g l ts e f) k /\ value_of k = Done v /\ out r <= Z.max (bnd b) (lo v)).
Proof. exact @C86_relation_proof. Qed.
Print Assumptions C86_relation.
Example C86_relation_case :
  tied_game demoT held_game [] /\
  map (fun n => fst (run (client (held n) 1 (p_relation_eval 0%nat 4%nat any hp)) [])) [0; 500; 1000; -1000] = [Done (Some (107 : Z)); Done (Some (607 : Z)); Done (Some (700 : Z)); Done (Some (-5 : Z))].
Proof. split; [split; constructor|]. vm_compute. reflexivity. Qed.
