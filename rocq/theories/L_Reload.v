(** Saving and loading between calls leaves no trace. *)
From Coq Require Import ZArith List Bool Lia.
From Verif Require Import M_Outcome M_Value M_Qualifier M_Search M_Stat M_StatMap M_HashMap M_Pair M_Registry M_Defaults M_Querier M_Serde M_Bytes M_ValueSerde M_ValueBytes
  S_Search S_StatMap S_Pair S_Defaults S_Defaults2 S_Querier S_Serde S_Bytes S_Totals S_ValueSerde S_ValueBytes S_EndToEnd S_Reload
  L_StatMap L_StatMap2 L_StatMap3 L_StatMap4 L_StatMap5 L_StatMapProofs L_Unwind L_Serde L_SerdeProofs L_Bytes L_Bytes2 L_Bytes3 L_ValueSerde3 L_EndToEnd L_EndToEnd2.
Import ListNotations.
Local Open Scope Z_scope.

Section L.
  Context {P : Prog} {Q : QFlag}.
  Variable bs : list comparison -> bsres.
  Variable N : StatNames P.
  Variable C : Codec P Q.
  Variable B : BCodec P Q.

  Lemma calls_app (l1 l2 : list (event P Q)) : calls_of (l1 ++ l2) = calls_of l1 ++ calls_of l2.
  Proof. unfold calls_of. apply flat_map_app. Qed.
  Lemma step_run (l0 : list (event P Q)) m o x :
    mops_run bs [] (calls_of l0) = Done m -> mop_run bs m o = Done x -> mops_run bs [] (calls_of (l0 ++ [Call o])) = Done (x_map x).
  Proof. intros H E. rewrite calls_app, mops_app, H. cbn [obind calls_of flat_map app mops_run]. rewrite E. reflexivity. Qed.

  Lemma lived_runs l : forall l0 m m', savable bs N C B (l0 ++ l) -> mops_run bs [] (calls_of l0) = Done m ->
    lived bs N C B m l m' -> mops_run bs m (calls_of l) = Done m'.
  Proof.
    induction l as [|x l IH]; intros l0 m m' HS H0 HL;
      inversion HL as [m1 | m1 o x1 l1 m1' E1 E2 | m1 r d m2 l1 m1' E1 E2 E3 | m1 r b m2 l1 m1' E1 E2 E3]; subst; [reflexivity| | |].
    - cbn [calls_of flat_map app mops_run]. rewrite E1. cbn [obind].
      apply (IH (l0 ++ [Call o]) (x_map x1) m'); [rewrite <- app_assoc; exact HS|apply (step_run _ m); assumption|assumption].
    - assert (Hx := HS l0 _ l m eq_refl H0). cbn beta iota in Hx.
      destruct (C38_same_process_proof P Q N C r m Hx) as (d' & D1 & D2).
      rewrite D1 in E1. injection E1 as <-. rewrite D2 in E2. injection E2 as <-.
      apply (IH (l0 ++ [Document r]) m m'); [rewrite <- app_assoc; exact HS|rewrite calls_app; cbn; rewrite app_nil_r; exact H0|assumption].
    - assert (Hx := HS l0 _ l m eq_refl H0). cbn beta iota in Hx. destruct Hx as [Hx Len].
      destruct (C70_round_trip_proof P Q N B r m Hx Len) as (d' & D1 & D2 & _). specialize (D2 []). rewrite app_nil_r in D2.
      rewrite D1 in E1. injection E1 as <-. rewrite D2 in E2. injection E2 as <-.
      apply (IH (l0 ++ [Bytes r]) m m'); [rewrite <- app_assoc; exact HS|rewrite calls_app; cbn; rewrite app_nil_r; exact H0|assumption].
  Qed.
  Lemma runs_lived l : forall l0 m m', savable bs N C B (l0 ++ l) -> mops_run bs [] (calls_of l0) = Done m ->
    mops_run bs m (calls_of l) = Done m' -> lived bs N C B m l m'.
  Proof.
    induction l as [|x l IH]; intros l0 m m' HS H0 HR; [injection HR as <-; constructor|]. destruct x as [o|r|r].
    - cbn [calls_of flat_map app mops_run] in HR. destruct (mop_run bs m o) as [x| | |] eqn:E; cbn [obind] in HR; try discriminate.
      apply (lived_call _ _ _ _ m o x); [exact E|].
      apply (IH (l0 ++ [Call o])); [rewrite <- app_assoc; exact HS|apply (step_run _ m); assumption|exact HR].
    - assert (Hx := HS l0 _ l m eq_refl H0). cbn beta iota in Hx.
      destruct (C38_same_process_proof P Q N C r m Hx) as (d' & D1 & D2).
      apply (lived_document _ _ _ _ m r d' m); [exact D1|exact D2|].
      apply (IH (l0 ++ [Document r])); [rewrite <- app_assoc; exact HS|rewrite calls_app; cbn; rewrite app_nil_r; exact H0|exact HR].
    - assert (Hx := HS l0 _ l m eq_refl H0). cbn beta iota in Hx. destruct Hx as [Hx Len].
      destruct (C70_round_trip_proof P Q N B r m Hx Len) as (d' & D1 & D2 & _). specialize (D2 []). rewrite app_nil_r in D2.
      apply (lived_bytes _ _ _ _ m r d' m); [exact D1|exact D2|].
      apply (IH (l0 ++ [Bytes r])); [rewrite <- app_assoc; exact HS|rewrite calls_app; cbn; rewrite app_nil_r; exact H0|exact HR].
  Qed.

  Lemma reloaded_logged m l : reloaded bs N C B m l -> logged bs m l.
  Proof.
    intros (H1 & H2 & lf & E & HS & HL). split; [exact H1|]. split; [exact H2|]. rewrite <- E.
    apply (lived_runs lf []); [exact HS|reflexivity|exact HL].
  Qed.
  Lemma reloads_faithful k : reloads bs N C B k -> faithful bs k.
  Proof. intros H d. specialize (H d). destruct (k_map k d), (k_log k d); try exact H. apply reloaded_logged, H. Qed.
  Lemma kept_set_up o_size o_align g : kept_up bs N C B o_size o_align g -> set_up bs o_size o_align g.
  Proof.
    intros [H1 H2 H3 H4 H5 H6 H7]. constructor; try assumption.
    - eapply Forall_impl; [|exact H3]. intros p. apply reloaded_logged.
    - eapply Forall_impl; [|exact H7]. exact reloads_faithful.
  Qed.
End L.

Lemma C77_no_trace_proof :
  forall (P : Prog) (Q : QFlag) (bs : list comparison -> bsres) (N : StatNames P) (C : Codec P Q) (B : BCodec P Q) (l : list (event P Q)) (m : map_t P Q),
  savable bs N C B l -> (lived bs N C B [] l m <-> mops_run bs [] (calls_of l) = Done m).
Proof.
  intros P Q bs N C B l m HS. split.
  - apply (lived_runs bs N C B l []); [exact HS|reflexivity].
  - apply (runs_lived bs N C B l []); [exact HS|reflexivity].
Qed.

Lemma C77_derived_proof :
  forall (P : Prog) (Q : QFlag) (bs : list comparison -> bsres) (N : StatNames P) named strict serial utf8
    (L : forall t, leaf (val (VT P t))) (LQ : leaf (qcar Q)) (BL : forall t, bleaf (val (VT P t))) (BLQ : bleaf (qcar Q)),
  bs_contract bs -> distinct_vtables P -> lawful_ord (q_cmp Q) ->
  let C := leaf_codec P Q named strict serial L LQ in
  let B := bleaf_codec P Q serial utf8 BL BLQ in
  forall l : list (event P Q),
  Forall sound_op (calls_of l) -> Forall (retains (fun t v => back (L t) v /\ bback (BL t) v)) (calls_of l) ->
  (forall l1 x l2 m, l = l1 ++ x :: l2 -> mops_run bs [] (calls_of l1) = Done m ->
     match x with Call _ => True | Document r => document_fits N serial LQ r m | Bytes r => bytes_fit N B serial BLQ r m end) ->
  savable bs N C B l.
Proof.
  intros P Q bs N named strict serial utf8 L LQ BL BLQ HB D OQ C B l HS HK HF l1 x l2 m E R.
  specialize (HF l1 x l2 m E R).
  assert (HS1 : Forall sound_op (calls_of l1)). { rewrite E, calls_app in HS. apply Forall_app in HS. apply HS. }
  assert (HK1 : Forall (retains (fun t v => back (L t) v /\ bback (BL t) v)) (calls_of l1)). { rewrite E, calls_app in HK. apply Forall_app in HK. apply HK. }
  destruct (proj2 (mops_safe bs HB D OQ _ [] sorted_nil typed_nil HS1) m R) as [_ T].
  assert (HM := kmops bs _ _ [] m HK1 (Forall_nil _) R). unfold kmap in HM. rewrite Forall_forall in HM.
  unfold typed in T. rewrite Forall_forall in T.
  destruct x as [o|r|r]; [exact Logic.I| |].
  - intros e He. destruct (HF e He) as (H1 & H2 & H3 & H4). split; [|exact H2].
    assert (F : forall x, back LQ x -> flag_back C x). { intros x Hx. exists (wr LQ x). split; [reflexivity|]. cbn. rewrite Hx. reflexivity. }
    split; [|split; apply F; assumption]. split; [exact H1|].
    specialize (HM e He). destruct (ok_buf_inv P _ _ (T e He)) as (v & Ev & Fi). rewrite Ev in HM. cbn in HM. destruct HM as [HM _].
    split; [exact Fi|]. exists v, (wr (L _) v). split; [exact Ev|]. split; [reflexivity|]. cbn. rewrite HM. reflexivity.
  - destruct HF as [Len HF]. split; [|exact Len]. intros e He. destruct (HF e He) as (G1 & G2 & G3 & G4).
    assert (F : forall x, bback BLQ x -> bflag_back B x). { intros x Hx. exists (bput BLQ x). split; [reflexivity|exact Hx]. }
    split; [|split; [apply F; exact G3|split; [apply F; exact G4|exact G2]]]. split; [exact G1|].
    specialize (HM e He). destruct (ok_buf_inv P _ _ (T e He)) as (v & Ev & Fi). rewrite Ev in HM. cbn in HM. destruct HM as [_ HM].
    split; [exact Fi|]. exists v. split; [exact Ev|]. exists (bput (BL _) v). split; [reflexivity|]. exact HM.
Qed.

Lemma C77_query_proof :
  forall (P : Prog) (Q : QFlag) (bs : list comparison -> bsres) (N : StatNames P) (C : Codec P Q) (B : BCodec P Q) (o_size o_align : vty P -> Z),
  bs_contract bs -> distinct_vtables P -> lawful_ord (q_cmp Q) -> flags_eq (Q := Q) ->
  forall (g : game P Q) e ch x s past, kept_up bs N C B o_size o_align g -> fits s -> w_entities (j_world (g_querier g)) e = Some ch ->
  exists sel, Forall2 (chosen s x) (logs_for g e (or_nil ch)) sel /\
  forall n,
    fst (run (client (g_querier g) (S n) (p_query e x s)) (after (g_querier g) past [])) =
      (let! v := value_of (together (stories g s sel)) in Done (Some v)) /\
    fst (run (client (g_querier g) (S n) (p_query_eval e x s)) (after (g_querier g) past [])) =
      (let! r := worth (together (stories g s sel)) in Done (Some r)).
Proof.
  intros P Q bs N C B o_size o_align HB D OQ F g e ch x s past K. apply (C65_query_proof P Q bs o_size o_align HB D OQ F).
  apply (kept_set_up bs N C B), K.
Qed.

Lemma C77_same_answers_proof :
  forall (P : Prog) (Q : QFlag) (bs : list comparison -> bsres) (N : StatNames P) (C : Codec P Q) (B : BCodec P Q) (o_size o_align : vty P -> Z),
  bs_contract bs -> distinct_vtables P -> lawful_ord (q_cmp Q) -> flags_eq (Q := Q) ->
  forall (g g' : game P Q) e ch x s past past' n n',
  kept_up bs N C B o_size o_align g -> set_up bs o_size o_align g' ->
  g_defaults g' = g_defaults g -> logs_for g' e (or_nil ch) = logs_for g e (or_nil ch) ->
  fits s -> w_entities (j_world (g_querier g)) e = Some ch -> w_entities (j_world (g_querier g')) e = Some ch ->
  fst (run (client (g_querier g) (S n) (p_query e x s)) (after (g_querier g) past [])) =
  fst (run (client (g_querier g') (S n') (p_query e x s)) (after (g_querier g') past' [])).
Proof.
  intros P Q bs N C B o_size o_align HB D OQ F g g' e ch x s past past' n n' K U E1 E2 Fi W W'.
  apply (C65_depends_only_proof P Q bs o_size o_align HB D OQ F g g' e e ch ch x s past past' n n');
    [apply (kept_set_up bs N C B), K|exact U|exact Fi|exact W|exact W'|rewrite E1; reflexivity|].
  rewrite E2. clear. induction (logs_for g e (or_nil ch)); constructor; [reflexivity|assumption].
Qed.
