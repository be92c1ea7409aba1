(** Proofs: registered bounds hold, for the types of stats with integer bounds. *)
From Coq Require Import ZArith List Bool.
From Verif Require Import S_Types.
From Verif Require Import M_Outcome M_Value M_Types M_Qualifier M_Search M_Stat M_StatMap M_HashMap M_Pair M_Defaults M_Querier
  S_Search S_Pair S_StatMap S_Defaults S_Querier S_Totals S_EndToEnd S_Rules S_Ties S_Held S_Held2 L_Types2 L_Held.
Local Open Scope Z_scope.

Lemma bounded_types V lo out bnd : bounded_by V lo out bnd -> exists hi, eval_bounded V lo hi out /\ bounds_accumulate V lo hi bnd.
Proof.
  intros H. destruct H; exists vmax; split.
  - apply statInt_bounded.
  - apply statInt_accumulate.
  - apply statPctAdd_bounded.
  - apply statPctAdd_accumulate.
  - apply statPct_bounded.
  - apply statPct_accumulate.
  - apply statIntFraction_bounded.
  - apply statIntFraction_accumulate.
  - apply statIntFloatMul_bounded.
  - apply statIntFloatMul_accumulate.
Qed.
Section H.
  Context {P : Prog} {Q : QFlag}.
  Lemma C86_query_types_proof : lawful_ord (q_cmp Q) -> forall bs : list comparison -> bsres, bs_contract bs -> distinct_vtables P ->
    forall (T : StatTypes P) (o_size o_align : vty P -> Z), flags_eq (Q := Q) ->
    forall (s : inst P) lo out bnd, bounded_by (VT P (vt_value P (si_ty s))) lo out bnd ->
    forall (g : game P Q) l e ch x past r, lawful_game T bs o_size o_align g l -> fits s -> w_entities (j_world (g_querier g)) e = Some ch ->
    (forall r, In (inr r) l -> adjusts s r) -> yields (ruled T bs g l) past (p_query_eval e x s) (Some r) ->
    (forall b, registered g s (OMin b) -> bnd b <= out r) /\
    (forall b, registered g s (OMax b) -> exists k v,
       leads (ruled T bs g l) e x s (starting g s) (causes g l e (or_nil ch)) k /\ value_of k = Done v /\ out r <= Z.max (bnd b) (lo v)).
  Proof. intros OQ bs C D T os oa Hq s lo out bnd Hb. destruct (bounded_types _ _ _ _ Hb) as (hi & H1 & H2). exact (C86_query_proof OQ bs C D T os oa Hq s lo hi out bnd H1 H2). Qed.
  Lemma C86_relation_types_proof : lawful_ord (q_cmp Q) -> forall bs : list comparison -> bsres, bs_contract bs -> distinct_vtables P ->
    forall (T : StatTypes P) (o_size o_align : vty P -> Z), flags_eq (Q := Q) ->
    forall (s : inst P) lo out bnd, bounded_by (VT P (vt_value P (si_ty s))) lo out bnd ->
    forall (g : game P Q) l ts e f ce cf x past r, lawful_game T bs o_size o_align g l -> tied_game T g ts -> fits s ->
    w_entities (j_world (g_querier g)) e = Some ce -> w_entities (j_world (g_querier g)) f = Some cf ->
    (forall r, In (inr r) l -> adjusts s r) -> (forall r, In r (ties g ts e f) -> adjusts s r) -> yields (ruled T bs g l) past (p_relation_eval e f x s) (Some r) ->
    (forall b, registered g s (OMin b) -> bnd b <= out r) /\
    (forall b, registered g s (OMax b) -> exists k v,
       leads (ruled T bs g l) (w_placeholder (j_world (g_querier g))) x s (starting g s) (rel_causes g l ts e f) k /\ value_of k = Done v /\ out r <= Z.max (bnd b) (lo v)).
  Proof. intros OQ bs C D T os oa Hq s lo out bnd Hb. destruct (bounded_types _ _ _ _ Hb) as (hi & H1 & H2). exact (C86_relation_proof OQ bs C D T os oa Hq s lo hi out bnd H1 H2). Qed.
End H.
