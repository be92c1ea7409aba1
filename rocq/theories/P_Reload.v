(** C77: saving and loading a map between calls. *)
From Coq Require Import String ZArith List Bool.
From Verif Require Import M_Outcome M_Ints M_Value M_Types M_Qualifier M_Search M_Stat M_StatMap M_HashMap M_Pair M_Registry M_Defaults M_Querier M_Serde M_Bytes M_ValueSerde M_ValueBytes
  S_Search S_StatMap S_Pair S_Defaults S_Defaults2 S_Querier S_Serde S_Bytes S_Totals S_ValueSerde S_ValueBytes S_EndToEnd S_Demo S_DemoDefaults S_DemoQuery S_DemoGame S_Reload S_DemoReload
  L_Search L_Demo L_ValueBytes L_ValueBytes2 L_DemoQuery L_Reload L_DemoGame L_DemoReload.
Import ListNotations.
Local Open Scope Z_scope.

(** Whatever happens to a map, in any order: if what it holds can be saved whenever it is saved,
    then it lives on, every document and all bytes are read again, exactly if the calls alone
    return; and what there is in the end is what the calls alone make. *)
Theorem C77_no_trace :
  forall (P : Prog) (Q : QFlag) (bs : list comparison -> bsres) (N : StatNames P) (C : Codec P Q) (B : BCodec P Q) (l : list (event P Q)) (m : map_t P Q),
  savable bs N C B l -> (lived bs N C B [] l m <-> mops_run bs [] (calls_of l) = Done m).
Proof. exact C77_no_trace_proof. Qed.
Print Assumptions C77_no_trace.
Example C77_no_trace_case :
  let l := [Call (put_hp none 3); Document demo_reg; Call (put_atk fire 4); Call (add_num none 6); Bytes demo_reg; Call (put_hp ice 5); Document demo_reg; Bytes demo_reg; Call (each_hp 1)] in
  savable bs_new saveN demoC demoB l /\ lived bs_new saveN demoC demoB [] l (demo_life l) /\
  get_hp (demo_life l) none = Done (Some (num 10)) /\ get_hp (demo_life l) ice = Done (Some (num 6)) /\ get_atk (demo_life l) fire = Done (Some (num 4)) /\ m_len (demo_life l) = 3%nat.
Proof.
  intros l. split; [|split; [apply survives_lived; vm_compute; reflexivity|repeat split; vm_compute; reflexivity]].
  apply fine_savable; [|vm_compute; reflexivity]. intros l1 x l2 E. assert (Hx : In x l) by (rewrite E; apply in_elt).
  repeat destruct Hx as [<-|Hx]; reflexivity || exact Logic.I || contradiction.
Qed.

(** What can be saved with derived implementations: values that come back, under flags and names
    that come back, if the calls keep the values so. *)
Theorem C77_derived :
  forall (P : Prog) (Q : QFlag) (bs : list comparison -> bsres) (N : StatNames P) named strict serial utf8
    (L : forall t, leaf (val (VT P t))) (LQ : leaf (qcar Q)) (BL : forall t, bleaf (val (VT P t))) (BLQ : bleaf (qcar Q)),
  bs_contract bs -> distinct_vtables P -> lawful_ord (q_cmp Q) ->
  let C := leaf_codec P Q named strict serial L LQ in
  let B := bleaf_codec P Q serial utf8 BL BLQ in
  forall l : list (event P Q),
  Forall sound_op (calls_of l) -> Forall (retains (fun t v => back (L t) v /\ bback (BL t) v)) (calls_of l) ->
  (forall l1 x l2 m, l = l1 ++ x :: l2 -> mops_run bs [] (calls_of l1) = Done m ->
     match x with Call _ => True | Document r => document_fits N serial LQ r m | Bytes r => bytes_fit N B serial BLQ r m end) ->
  savable bs N C B l.
Proof. exact C77_derived_proof. Qed.
Print Assumptions C77_derived.
Example C77_derived_case :
  let l := often demo_reg [put_atk none 4; put_alive none true; put_hp fire 3] in
  Forall sound_op (calls_of l) /\ Forall (@retains demo intQ (fun t v => back (demo_leaf t) v /\ bback (demo_bleaf t) v)) (calls_of l) /\
  (forall l1 x l2 m, l = l1 ++ x :: l2 -> mops_run bs_new [] (calls_of l1) = Done m ->
     match x with Call _ => True | Document r => @document_fits demo intQ saveN (fun _ => true) (leaf_int I32) r m | Bytes r => @bytes_fit demo intQ saveN derivedB (fun _ => true) (bleaf_int I32) r m end) /\
  savable bs_new saveN derivedC derivedB l.
Proof.
  intros l. assert (H1 : Forall sound_op (calls_of l)) by repeat constructor.
  assert (H2 : Forall (@retains demo intQ (fun t v => back (demo_leaf t) v /\ bback (demo_bleaf t) v)) (calls_of l)).
  { repeat (constructor; [split; [reflexivity|first [apply bback_quad; apply bback_int; reflexivity|apply bback_bool]]|]). constructor. }
  assert (H3 := often_fits [put_atk none 4; put_alive none true; put_hp fire 3] ltac:(vm_compute; reflexivity)).
  split; [exact H1|]. split; [exact H2|]. split; [exact H3|].
  exact (C77_derived demo intQ bs_new saveN true true (fun _ => true) (fun _ => true) demo_leaf (leaf_int I32) demo_bleaf (bleaf_int I32)
    bs_new_contract demo_distinct intQ_ord l H1 H2 H3).
Qed.

(** A game whose maps were saved and loaded between calls answers every query from the logs of
    the calls, as C65 says of games whose maps were not. *)
Theorem C77_query :
  forall (P : Prog) (Q : QFlag) (bs : list comparison -> bsres) (N : StatNames P) (C : Codec P Q) (B : BCodec P Q) (o_size o_align : vty P -> Z),
  bs_contract bs -> distinct_vtables P -> lawful_ord (q_cmp Q) -> flags_eq (Q := Q) ->
  forall (g : game P Q) e ch x s past, kept_up bs N C B o_size o_align g -> fits s -> w_entities (j_world (g_querier g)) e = Some ch ->
  exists sel, Forall2 (chosen s x) (logs_for g e (or_nil ch)) sel /\
  forall n,
    fst (run (client (g_querier g) (S n) (p_query e x s)) (after (g_querier g) past [])) =
      (let! v := value_of (together (stories g s sel)) in Done (Some v)) /\
    fst (run (client (g_querier g) (S n) (p_query_eval e x s)) (after (g_querier g) past [])) =
      (let! r := worth (together (stories g s sel)) in Done (Some r)).
Proof. exact C77_query_proof. Qed.
Print Assumptions C77_query.
(** So it answers as any game with the same logs that was never saved. *)
Theorem C77_same_answers :
  forall (P : Prog) (Q : QFlag) (bs : list comparison -> bsres) (N : StatNames P) (C : Codec P Q) (B : BCodec P Q) (o_size o_align : vty P -> Z),
  bs_contract bs -> distinct_vtables P -> lawful_ord (q_cmp Q) -> flags_eq (Q := Q) ->
  forall (g g' : game P Q) e ch x s past past' n n',
  kept_up bs N C B o_size o_align g -> set_up bs o_size o_align g' ->
  g_defaults g' = g_defaults g -> logs_for g' e (or_nil ch) = logs_for g e (or_nil ch) ->
  fits s -> w_entities (j_world (g_querier g)) e = Some ch -> w_entities (j_world (g_querier g')) e = Some ch ->
  fst (run (client (g_querier g) (S n) (p_query e x s)) (after (g_querier g) past [])) =
  fst (run (client (g_querier g') (S n') (p_query e x s)) (after (g_querier g') past' [])).
Proof. exact C77_same_answers_proof. Qed.
Print Assumptions C77_same_answers.
(** The demo game, every map saved and loaded in both ways after every call. *)
Example C77_query_case :
  kept_up bs_new saveN demoC demoB op_size op_align (demo_game true) /\ set_up bs_new op_size op_align (demo_game false) /\
  forallb (fun l => survives (often demo_reg (map method l))) all_logs = true /\
  see_eval (game_querier true) 1 0%nat any = Done (Some ((100 + 7 + 1 + 20 + 40) * (3 * 2))) /\
  see_eval (game_querier true) 1 0%nat any = see_eval (game_querier false) 1 0%nat any.
Proof. split; [apply demo_kept|]. split; [apply demo_set_up|]. repeat split; vm_compute; reflexivity. Qed.

(** False: a map lives on unchanged whatever the names mean where it is loaded. Where two stats have
    swapped names, one of the two entries is not found any more, though both are still held. *)
Theorem C77_other_names_refuted :
  exists (l : list (event demo intQ)) (m m' : map_t demo intQ),
  mops_run bs_new [] (calls_of l) = Done m /\ lived bs_new saveN demoC demoB [] l m' /\ m_len m' = m_len m /\
  get_hp m none = Done (Some (num 3)) /\ get_atk m none = Done (Some (num 4)) /\
  get_hp m' none = Done None /\ get_atk m' none = Done (Some (num 3)).
Proof. exact C77_other_names_refuted_proof. Qed.
Print Assumptions C77_other_names_refuted.
