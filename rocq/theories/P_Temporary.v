(** C78: modifiers that are granted and later removed. *)
From Coq Require Import ZArith List Bool Relations.
From Verif Require Import M_Outcome M_Ints M_Value M_Types M_Qualifier M_Search M_Stat M_StatMap M_HashMap M_Pair M_Registry M_Defaults M_Querier
  S_Search S_StatMap S_Pair S_Defaults S_Defaults2 S_Querier S_Totals S_EndToEnd S_Demo S_DemoGame S_Temporary
  L_Search L_Demo L_StatMap5 L_DemoGame L_Temporary L_Temporary2.
Import ListNotations.
Local Open Scope Z_scope.

(** A modifier granted under a key that is not in use and removed later, after whatever calls that
    do not make an entry under that key themselves: the map is the one it would have been. *)
Theorem C78_no_trace :
  forall (P : Prog) (Q : QFlag) (bs : list comparison -> bsres),
  bs_contract bs -> distinct_vtables P -> lawful_ord (q_cmp Q) ->
  forall (q : qualifier Q) (s : inst P) (l1 : list (mop P Q)) o l2 m1 m m',
  grants q s o -> Forall (fun o => ~ places q s o) l2 -> fresh_history empty_tmap (l1 ++ l2) ->
  mops_run bs [] l1 = Done m1 -> m_get bs m1 q s = Done None ->
  mops_run bs [] (l1 ++ l2) = Done m -> mops_run bs [] (l1 ++ o :: l2 ++ [MRemove q s]) = Done m' -> m' = m.
Proof. exact C78_no_trace_proof. Qed.
Print Assumptions C78_no_trace.
(** And it returns, if the code of the callers does. *)
Theorem C78_returns :
  forall (P : Prog) (Q : QFlag) (bs : list comparison -> bsres),
  bs_contract bs -> distinct_vtables P -> lawful_ord (q_cmp Q) ->
  forall (q : qualifier Q) (s : inst P) (l1 : list (mop P Q)) o l2 m1,
  grants q s o -> Forall (fun o => ~ places q s o) l2 -> fresh_history empty_tmap (l1 ++ l2) ->
  Forall total_mop (l1 ++ o :: l2) -> mops_run bs [] l1 = Done m1 -> m_get bs m1 q s = Done None ->
  exists m, mops_run bs [] (l1 ++ l2) = Done m /\ mops_run bs [] (l1 ++ o :: l2 ++ [MRemove q s]) = Done m.
Proof. exact C78_returns_proof. Qed.
Print Assumptions C78_returns.
(** While it lasts, only its own key differs; and if nothing else touches that key, the modifier stays
    as it was granted and is what [remove] hands back. *)
Theorem C78_while_it_lasts :
  forall (P : Prog) (Q : QFlag) (bs : list comparison -> bsres),
  bs_contract bs -> distinct_vtables P -> lawful_ord (q_cmp Q) ->
  forall (q : qualifier Q) (s : inst P) (l1 : list (mop P Q)) o l2 m1 m2 m m',
  grants q s o -> Forall (fun o => ~ places q s o) l2 -> fresh_history empty_tmap (l1 ++ l2) ->
  mops_run bs [] l1 = Done m1 -> m_get bs m1 q s = Done None ->
  mops_run bs [] (l1 ++ [o]) = Done m2 -> mops_run bs [] (l1 ++ l2) = Done m -> mops_run bs [] (l1 ++ o :: l2) = Done m' ->
  (forall q' s', (q', s') <> (q, s) -> m_get bs m' q' s' = m_get bs m q' s') /\
  m_get bs m q s = Done None /\
  (Forall (fun o => ~ touches q s o) l2 -> m_get bs m' q s = m_get bs m2 q s /\ m_removed bs m' q s = m_get bs m2 q s).
Proof. exact C78_while_it_lasts_proof. Qed.
Print Assumptions C78_while_it_lasts.
Example C78_no_trace_case :
  let l1 := [put_hp none 3; put_atk fire 4] in
  let l2 := [put_hp none 5; extend_hp [(ice, 0, num 6)]; put_alive fire true] in
  grants fire hp (put_hp fire 100) /\ Forall (fun o => ~ places fire hp o) l2 /\ Forall (fun o => ~ touches fire hp o) l2 /\
  get_hp (demo_run l1) fire = Done None /\
  get_hp (demo_run (l1 ++ put_hp fire 100 :: l2)) fire = Done (Some (num 100)) /\ iter_hp (demo_run (l1 ++ put_hp fire 100 :: l2)) = Done [(0, 0, 5); (0, 1, 100); (0, 2, 6)] /\
  iter_hp (demo_run (l1 ++ put_hp fire 100 :: l2 ++ [MRemove fire hp])) = Done [(0, 0, 5); (0, 2, 6)] /\
  iter_hp (demo_run (l1 ++ l2)) = Done [(0, 0, 5); (0, 2, 6)].
Proof.
  intros l1 l2. split; [split; reflexivity|].
  assert (NT : Forall (fun o => ~ touches fire hp o) l2).
  { repeat constructor; unfold touches, places; cbn; intros H; repeat destruct H as [H|H]; try contradiction; try (destruct H as [H1 H2]; discriminate).
    destruct H as (i & v & H1 & H2). destruct H1 as [H1|[]]. discriminate. }
  split; [eapply Forall_impl; [|exact NT]; intros o N K; apply N; left; exact K|]. split; [exact NT|]. vm_compute. repeat split.
Qed.

(** A game with any number of temporary modifiers in its past, one after another or at the same
    time, anywhere, answers every query as without them. *)
Theorem C78_same_answers :
  forall (P : Prog) (Q : QFlag) (bs : list comparison -> bsres) (o_size o_align : vty P -> Z),
  bs_contract bs -> distinct_vtables P -> lawful_ord (q_cmp Q) -> flags_eq (Q := Q) ->
  forall (g g' : game P Q) e ch x s past past' n n',
  set_up bs o_size o_align g -> set_up bs o_size o_align g' -> g_defaults g' = g_defaults g ->
  Forall2 with_temporaries (logs_for g e (or_nil ch)) (logs_for g' e (or_nil ch)) ->
  fits s -> w_entities (j_world (g_querier g)) e = Some ch -> w_entities (j_world (g_querier g')) e = Some ch ->
  fst (run (client (g_querier g') (S n') (p_query e x s)) (after (g_querier g') past' [])) =
  fst (run (client (g_querier g) (S n) (p_query e x s)) (after (g_querier g) past [])).
Proof. exact C78_same_answers_proof. Qed.
Print Assumptions C78_same_answers.
Example C78_same_answers_case :
  let boon (x : Z) := grant SI x in
  let steady := @EBase (solo SI) intQ fire (the_stat SI) 1 in
  let over := @ERemove (solo SI) intQ none (the_stat SI) in
  let l := [[steady]; [boon 3]] in
  let l' := [[boon 40; steady; over]; [boon 3]] in
  set_up bs_new (fun _ => 24) (fun _ => 8) (solo_game SI l) /\ set_up bs_new (fun _ => 24) (fun _ => 8) (solo_game SI l') /\
  Forall2 with_temporaries (logs_for (solo_game SI l) 0%nat [1%nat]) (logs_for (solo_game SI l') 0%nat [1%nat]) /\
  solo_eval SI l = Done (Some 3) /\ solo_eval SI l' = Done (Some 3) /\ solo_eval SI [[boon 40; steady]; [boon 3]] = Done (Some 43).
Proof.
  intros boon steady over l l'. split; [apply solo_set_up; [repeat constructor|vm_compute; reflexivity]|].
  split; [apply solo_set_up; [repeat constructor|vm_compute; reflexivity]|]. split; [|vm_compute; repeat split].
  cbn [logs_for solo_game g_global g_comp g_rel g_child map flat_map app log_on solo_keeper k_log nth_error l l'].
  constructor; [|constructor; [apply rt_refl|constructor]]. apply rt_step. exists none, (the_stat SI), (boon 40), [], [steady], [].
  repeat (split; [reflexivity|]). split; [split; reflexivity|]. split; [reflexivity|]. repeat constructor. intros [K|K]; cbn in K; [destruct K as [K _]; discriminate|contradiction].
Qed.

(** False: removing a modifier takes back only what it granted. If something else is added under the
    same key meanwhile, it is removed too. *)
Theorem C78_shared_key_refuted :
  exists (o : mop demo intQ) l2, grants fire hp o /\ runs (o :: l2 ++ [MRemove fire hp]) = true /\ runs l2 = true /\
  eval_hp (demo_run (o :: l2)) (@Aggregate intQ 1) = Done 8 /\
  eval_hp (demo_run (o :: l2 ++ [MRemove fire hp])) (@Aggregate intQ 1) = Done 0 /\ eval_hp (demo_run l2) (@Aggregate intQ 1) = Done 3.
Proof. exact C78_shared_key_refuted_proof. Qed.
Print Assumptions C78_shared_key_refuted.
