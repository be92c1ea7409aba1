From Coq Require Import ZArith List Bool String Lia PeanoNat Permutation Relations Wf_nat Wellfounded.
From Verif Require S_Types.
From Verif Require Import M_Outcome M_Value M_Types M_Qualifier M_Search M_Stat M_StatMap M_HashMap M_Pair M_Defaults M_Querier
  S_Pair S_StatMap S_Querier S_Demo S_DemoDefaults S_DemoQuery L_StatMap3 L_HashMap L_Demo L_Defaults L_Querier L_Querier2 L_Querier3 L_Querier4 L_Query L_DemoQuery L_DemoQuery2.
Import ListNotations.
Local Open Scope Z_scope.

Lemma C31_unmarked_proof : forall (P : Prog) (Q : QFlag) (j : joined P Q) n e x s c,
  w_entities (j_world j) e = None -> fits s ->
  run (client j (S n) (p_query e x s)) c = (Done None, c) /\
  run (client j (S n) (p_query_eval e x s)) c = (Done None, c).
Proof.
  intros P Q j n e x s c He Hf. unfold fits in Hf.
  assert (H : run (client j (S n) (p_query e x s)) c = (Done None, c)).
  { rewrite run_query, Hf. cbn [level erased]. unfold query_stat_erased. rewrite He. reflexivity. }
  split; [exact H|]. rewrite run_query_eval, H. reflexivity.
Qed.

Lemma C31_unmarked_relation_proof : forall (P : Prog) (Q : QFlag) (j : joined P Q) n f t x s c,
  w_entities (j_world j) f = None \/ w_entities (j_world j) t = None -> fits s ->
  run (client j (S n) (p_relation f t x s)) c = (Done None, c) /\
  run (client j (S n) (p_relation_eval f t x s)) c = (Done None, c).
Proof.
  intros P Q j n f t x s c He Hf. unfold fits in Hf.
  assert (H : run (client j (S n) (p_relation f t x s)) c = (Done None, c)).
  { rewrite run_query_rel, Hf. cbn [level erased]. unfold query_relation_erased.
    destruct He as [He|He]; [rewrite He; reflexivity|]. destruct (w_entities (j_world j) f); [rewrite He|]; reflexivity. }
  split; [exact H|]. rewrite run_relation_eval, H. reflexivity.
Qed.

Lemma C31_marked_proof : forall (P : Prog) (Q : QFlag) (j : joined P Q) n e x s c o c',
  w_entities (j_world j) e <> None ->
  (run (client j n (p_query e x s)) c = (Done o, c') -> o <> None) /\
  (forall o', run (client j n (p_query_eval e x s)) c = (Done o', c') -> o' <> None).
Proof.
  intros P Q j n e x s c o c' He.
  assert (H : forall o c', run (client j n (p_query e x s)) c = (Done o, c') -> o <> None).
  { clear o c'. intros o c'. destruct n as [|n].
    { unfold client, p_query. cbn. destruct (validate_ty P _); discriminate. }
    rewrite run_query. destruct (validate_ty P _); try discriminate. pose proof (fun c' => marked_stat j (S n) e x s c c' He) as Hm.
    destruct (run (level j (S n) (RStat e x s)) c) as [[[b|]| | |] c1]; try discriminate; [|contradiction (Hm c1); reflexivity].
    destruct (cast_val P _ b); cbn; try discriminate. intros E. injection E as <- <-. discriminate. }
  split; [apply H|]. intros o'. rewrite run_query_eval. destruct (run (client j n (p_query e x s)) c) as [[[v|]| | |] c1] eqn:E; cbn; try discriminate.
  - destruct (sv_eval _ v); cbn; try discriminate. intros E'. injection E' as <- <-. discriminate.
  - contradiction (H None c1 eq_refl eq_refl).
Qed.

Lemma C31_marked_relation_proof : forall (P : Prog) (Q : QFlag) (j : joined P Q) n f t x s c o c',
  w_entities (j_world j) f <> None -> w_entities (j_world j) t <> None ->
  (run (client j n (p_relation f t x s)) c = (Done o, c') -> o <> None) /\
  (forall o', run (client j n (p_relation_eval f t x s)) c = (Done o', c') -> o' <> None).
Proof.
  intros P Q j n f t x s c o c' Hf Ht.
  assert (H : forall o c', run (client j n (p_relation f t x s)) c = (Done o, c') -> o <> None).
  { clear o c'. intros o c'. destruct n as [|n].
    { unfold client, p_relation. cbn. destruct (validate_ty P _); discriminate. }
    rewrite run_query_rel. destruct (validate_ty P _); try discriminate. pose proof (fun c' => marked_rel j (S n) f t x s c c' Hf Ht) as Hm.
    destruct (run (level j (S n) (RRel f t x s)) c) as [[[b|]| | |] c1]; try discriminate; [|contradiction (Hm c1); reflexivity].
    destruct (cast_val P _ b); cbn; try discriminate. intros E. injection E as <- <-. discriminate. }
  split; [apply H|]. intros o'. rewrite run_relation_eval. destruct (run (client j n (p_relation f t x s)) c) as [[[v|]| | |] c1] eqn:E; cbn; try discriminate.
  - destruct (sv_eval _ v); cbn; try discriminate. intros E'. injection E' as <- <-. discriminate.
  - contradiction (H None c1 eq_refl eq_refl).
Qed.

Lemma C32_sources_proof : forall (P : Prog) (Q : QFlag) (j : joined P Q) n e x s ch,
  w_entities (j_world j) e = Some ch ->
  fst (run (level (uncached j) (S n) (RStat e x s)) []) =
    let! b := initial (j_world j) s in
    let! p := collect (fun r => fst (run (level (uncached j) n r) [])) (Pair s b) (stat_sources j e ch x) in
    Done (Some (p_buf p)).
Proof.
  intros P Q j n e x s ch He.
  cbn [level]. rewrite (erased_uncached (uncached j) (level (uncached j) n) (fun r => fst (run (level (uncached j) n r) [])) (RStat e x s) []); [|reflexivity|].
  - cbn [fst answer1]. cbn [j_world uncached]. rewrite He. reflexivity.
  - intros r c. rewrite !(level_uncached (uncached j) n) by reflexivity. reflexivity.
Qed.

Lemma C32_attached_proof : forall (P : Prog) (Q : QFlag) (w : world P Q) (b : bool) (j : joined P Q) (c : cstream P Q),
  (leaves (j_comp (with_component j c)) = leaves (j_comp j) ++ [c] /\ leaves (j_child (with_component j c)) = leaves (j_child j) /\ leaves (j_rel (with_component j c)) = leaves (j_rel j)) /\
  (leaves (j_comp (with_children j c)) = leaves (j_comp j) /\ leaves (j_child (with_children j c)) = leaves (j_child j) ++ [c] /\ leaves (j_rel (with_children j c)) = leaves (j_rel j)) /\
  (leaves (j_comp (with_relation j c)) = leaves (j_comp j) /\ leaves (j_child (with_relation j c)) = leaves (j_child j) /\ leaves (j_rel (with_relation j c)) = leaves (j_rel j) ++ [c]) /\
  (forall f, In f [sq_with_component w b c; sq_with_children w b c; sq_with_relation w b c] -> j_world f = w /\ j_cached f = b /\ leaves (j_comp f) ++ leaves (j_child f) ++ leaves (j_rel f) = [c]) /\
  (forall f, In f [with_component j c; with_children j c; with_relation j c] -> j_world f = j_world j /\ j_cached f = j_cached j).
Proof. intros P Q w b j c. cbn. intuition; subst; reflexivity. Qed.

Lemma C32_appends_proof : forall (P : Prog) (Q : QFlag) (j : joined P Q) (c : cstream P Q) e ch x,
  exists l1 l2 l3,
    stat_sources j e ch x = l1 ++ l2 ++ l3 /\
    stat_sources (with_component j c) e ch x = l1 ++ on c e e x ++ l2 ++ l3 /\
    stat_sources (with_relation j c) e ch x = l1 ++ l2 ++ on c e e x ++ l3 /\
    stat_sources (with_children j c) e ch x = l1 ++ l2 ++ l3 ++ flat_map (fun d => on c e d x) (or_nil ch).
Proof.
  intros P Q j c e ch x.
  exists (map (fun g => g e x) (or_nil (w_relations (j_world j))) ++ flat_map (fun c => on c e e x) (leaves (j_comp j))),
    (flat_map (fun c => on c e e x) (leaves (j_rel j))), (flat_map (fun c => flat_map (fun d => on c e d x) (or_nil ch)) (leaves (j_child j))).
  unfold stat_sources. cbn. rewrite !flat_map_app. cbn. rewrite !app_nil_r, <- !app_assoc. auto.
Qed.

Lemma C32_only_own_and_children_proof : forall (P : Prog) (Q : QFlag) (keep : entity -> bool) (j : joined P Q) e ch x,
  keep e = true -> (forall d, In d (or_nil ch) -> keep d = true) ->
  stat_sources (limited keep j) e ch x = stat_sources j e ch x.
Proof.
  intros P Q keep j e ch x He Hch. unfold stat_sources. cbn [limited j_world j_comp j_rel j_child].
  assert (Hl : forall t : qstream P Q, leaves (limit_tree keep t) = map (limit keep) (leaves t)).
  { induction t as [|a IHa b IHb|c]; cbn; [reflexivity|rewrite IHa, IHb, map_app; reflexivity|reflexivity]. }
  assert (Hon : forall (c : cstream P Q) d, keep d = true -> on (limit keep c) e d x = on c e d x) by (intros c d Hk; unfold on; cbn; rewrite Hk; reflexivity).
  rewrite !Hl. rewrite !flat_map_concat_map, !map_map.
  f_equal. f_equal; [f_equal; apply map_ext; intros c; apply Hon, He|]. f_equal; [f_equal; apply map_ext; intros c; apply Hon, He|].
  f_equal. apply map_ext. intros c. revert Hch. generalize (or_nil ch). intros l Hch. induction l as [|d l IH]; cbn; [reflexivity|].
  rewrite Hon by (apply Hch; left; reflexivity). rewrite IH; [reflexivity|]. intros d' Hd. apply Hch. right. exact Hd.
Qed.

Lemma C33_order_free_proof : forall (P : Prog) (Q : QFlag) (Pv : forall t, val (VT P t) -> Prop) (E : forall t, S_Types.step (VT P t) -> Prop) (j j' : joined P Q),
  contributing E j -> rearranged j j' ->
  (forall s v, initial (j_world j) s = Done (Buf (vt_value P (si_ty s)) v) -> Pv _ v) ->
  (forall t, S_Types.order_free (VT P t) (Pv t) (E t)) ->
  forall n r a, fst (run (level (uncached j) n r) []) = Done a <-> fst (run (level (uncached j') n r) []) = Done a.
Proof.
  intros P Q Pv E j j' J R Hi Hof n r a. rewrite !(level_uncached (uncached _) n) by reflexivity. rewrite !answer_uncached. cbn [fst]. split.
  - apply (reorder Pv E j j' J R Hi Hof n r a).
  - apply (reorder Pv E j' j (contributing_sym E j j' R J) (rearranged_sym j j' R)); [|exact Hof].
    intros s v Hs. apply Hi. rewrite <- Hs. symmetry. apply (reorder_initial j j' R).
Qed.

Lemma C33_order_free_if_done_proof : forall (P : Prog) (Q : QFlag) (Pv : forall t, val (VT P t) -> Prop) (E : forall t, S_Types.step (VT P t) -> Prop) (j j' : joined P Q),
  contributing E j -> rearranged j j' ->
  (forall s v, initial (j_world j) s = Done (Buf (vt_value P (si_ty s)) v) -> Pv _ v) ->
  (forall t, S_Types.order_free_if_done (VT P t) (Pv t) (E t)) ->
  forall n r a a', fst (run (level (uncached j) n r) []) = Done a -> fst (run (level (uncached j') n r) []) = Done a' -> a = a'.
Proof.
  intros P Q Pv E j j' J R Hi Hof n r a a'. rewrite !(level_uncached (uncached _) n) by reflexivity. rewrite !answer_uncached. cbn [fst].
  apply (reorder_agree Pv E j j' J R Hi Hof n r).
Qed.

Lemma C34_terminates_iff_proof : forall (P : Prog) (Q : QFlag) (j : joined P Q) (r : request P Q),
  all_code (fun A p => stops (fun o => o <> NoFuel) p) j ->
  ((exists n, fst (run (level (uncached j) n r) []) <> NoFuel) <-> Acc (depends j) r).
Proof.
  intros P Q j r Hs. setoid_rewrite (level_uncached (uncached j)); [|reflexivity]. setoid_rewrite answer_uncached. cbn [fst]. split.
  - intros [n Hn]. apply (terminates_acc j n r Hn).
  - intros H. apply (acc_terminates j Hs r H).
Qed.

Lemma C34_rank_proof : forall (P : Prog) (Q : QFlag) (j : joined P Q) (R : request P Q -> request P Q -> Prop),
  well_founded R -> all_code (fun A p => stops (fun o => o <> NoFuel) p) j ->
  (forall r, only_asks (fun r' => R r' r) (body j r)) ->
  (forall r, exists n, forall m, (n <= m)%nat -> fst (run (level (uncached j) m r) []) <> NoFuel) /\
  (distinct_vtables P -> flags_eq (Q := Q) -> j_cached j = true -> stats_kept j ->
   forall l (r : request P Q), exists n, forall m, (n <= m)%nat -> fst (run (client j m (Ask r Ret)) (after j l [])) <> NoFuel).
Proof.
  intros P Q j R Hwf Hs Hr.
  assert (Hacc : forall r, Acc (depends j) r).
  { intros r. induction (Hwf r) as [r _ IH]. constructor. intros r' Hd. apply IH. apply (only_asks_asked j _ _ _ Hd (Hr r)). }
  assert (Ht : forall r, exists n, forall m, (n <= m)%nat -> answer j m r <> NoFuel).
  { intros r. destruct (acc_terminates j Hs r (Hacc r)) as [n Hn]. exists n. intros m Hm. rewrite (ole_stop _ _ (answer_le j n m r Hm) Hn). exact Hn. }
  split.
  - intros r. destruct (Ht r) as [n Hn]. exists n. intros m Hm. rewrite (level_uncached (uncached j)) by reflexivity. rewrite answer_uncached. apply Hn, Hm.
  - intros Hd Hq Hc Hk l r. destruct (Ht r) as [n Hn]. exists n. intros m Hm.
    destruct (good_run Hd Hq (right j) (client j m (Ask r Ret)) _ (after j l []) (client_good j m (Ask r Ret) Hc Hk) (after_valid Hd Hq j Hc Hk l [] (valid_nil _))) as [[_ H2] _].
    assert (Ha : ask j m (Ask r Ret) <> NoFuel).
    { unfold ask. cbn [oeval]. specialize (Hn m Hm). destruct (check_cases r) as [Ec|[p Ec]]; rewrite Ec; cbn [obind]; [|discriminate].
      destruct (answer j m r) as [o| | |]; cbn [obind]; try congruence. pose proof (typed_fuel r o Ec) as Htf. destruct (typed r o); cbn [obind]; congruence. }
    rewrite (H2 Ha). exact Ha.
Qed.

Lemma C34_cycle_proof : forall (P : Prog) (Q : QFlag) (j : joined P Q) (r : request P Q),
  clos_trans _ (depends j) r r ->
  (forall n, fst (run (level (uncached j) n r) []) = NoFuel) /\
  (distinct_vtables P -> flags_eq (Q := Q) -> j_cached j = true -> stats_kept j -> check r = Done tt ->
   forall l n, fst (run (client j n (Ask r Ret)) (after j l [])) = NoFuel).
Proof.
  intros P Q j r Hcyc.
  assert (Hn : forall n, answer j n r = NoFuel).
  { assert (Hnacc : forall r, Acc (depends j) r -> clos_trans _ (depends j) r r -> False).
    { intros r0 Ha. apply Acc_clos_trans in Ha. induction Ha as [r0 _ IH]. intros Hr. apply (IH r0 Hr Hr). }
    intros n. destruct (answer j n r) eqn:E; try reflexivity; exfalso;
      apply (Hnacc r); try exact Hcyc; apply (terminates_acc j n); rewrite E; discriminate. }
  split.
  - intros n. rewrite (level_uncached (uncached j)) by reflexivity. rewrite answer_uncached. apply Hn.
  - intros Hd Hq Hc Hk Hf l n.
    destruct (good_run Hd Hq (right j) (client j n (Ask r Ret)) _ (after j l []) (client_good j n (Ask r Ret) Hc Hk) (after_valid Hd Hq j Hc Hk l [] (valid_nil _))) as [[H1 _] _].
    destruct (fst (run (client j n (Ask r Ret)) (after j l []))) eqn:E; try reflexivity; exfalso; (destruct H1 as [m Em]; [discriminate|]);
      unfold ask in Em; cbn [oeval] in Em; rewrite Hf in Em; cbn [obind] in Em; rewrite Hn in Em; discriminate Em.
Qed.

Lemma C35_sources_proof : forall (P : Prog) (Q : QFlag) (j : joined P Q) n f t x s cf ct,
  w_entities (j_world j) f = Some cf -> w_entities (j_world j) t = Some ct ->
  fst (run (level (uncached j) (S n) (RRel f t x s)) []) =
    let! b := initial (j_world j) s in
    let! p := collect (fun r => fst (run (level (uncached j) n r) [])) (Pair s b)
      (map (fun g => g (w_placeholder (j_world j)) x) (or_nil (w_relations (j_world j))) ++ flat_map (fun c => between c f t x) (leaves (j_rel j))) in
    Done (Some (p_buf p)).
Proof.
  intros P Q j n f t x s cf ct Hf Ht.
  cbn [level]. rewrite (erased_uncached (uncached j) (level (uncached j) n) (fun r => fst (run (level (uncached j) n r) [])) (RRel f t x s) []); [|reflexivity|].
  - cbn [fst answer1]. cbn [j_world uncached]. rewrite Hf, Ht. reflexivity.
  - intros r c. rewrite !(level_uncached (uncached j) n) by reflexivity. reflexivity.
Qed.

Lemma C35_not_cached_proof : forall (P : Prog) (Q : QFlag) (j : joined P Q) (ha : forall r : request P Q, act P Q (raw r)) (h : forall r : request P Q, outcome (raw r)) f t x s c,
  all_code (fun A p => no_wipe p) j -> (forall r c, run (ha r) c = (h r, c)) ->
  run (erased j ha (RRel f t x s)) c = (fst (run (erased j ha (RRel f t x s)) []), c).
Proof. intros P Q j ha h f t x s c Hw H. rewrite !(relation_leaves j ha h f t x s _ H Hw). reflexivity. Qed.

Lemma C36_sources_proof : forall (P : Prog) (Q : QFlag) (j : joined P Q) n e a,
  fst (run (level (uncached j) (S n) (RAttr e a)) []) = any_true (fun r => fst (run (level (uncached j) n r) [])) (attr_sources j e a).
Proof.
  intros P Q j n e a.
  cbn [level]. rewrite (erased_uncached (uncached j) (level (uncached j) n) (fun r => fst (run (level (uncached j) n r) [])) (RAttr e a) []); [|reflexivity|].
  - reflexivity.
  - intros r c. rewrite !(level_uncached (uncached j) n) by reflexivity. reflexivity.
Qed.

Lemma C36_disjunction_proof : forall (P : Prog) (Q : QFlag) (j : joined P Q) n e a,
  let h := fun r => fst (run (level (uncached j) n r) []) in
  (forall p, In p (attr_sources j e a) -> exists b, oeval h p = Done b) ->
  exists b, fst (run (level (uncached j) (S n) (RAttr e a)) []) = Done b /\
    (b = true <-> exists p, In p (attr_sources j e a) /\ oeval h p = Done true).
Proof.
  intros P Q j n e a h Hall.
  assert (E : fst (run (level (uncached j) (S n) (RAttr e a)) []) = any_true h (attr_sources j e a)).
  { cbn [level]. rewrite (erased_uncached (uncached j) (level (uncached j) n) h (RAttr e a) []); [reflexivity|reflexivity|].
    intros r c. unfold h. rewrite !(level_uncached (uncached j) n) by reflexivity. reflexivity. }
  rewrite E. clear E. revert Hall. generalize (attr_sources j e a). intros l Hall. induction l as [|p l IH]; cbn.
  - exists false. split; [reflexivity|]. split; [discriminate|]. intros (p & [] & _).
  - destruct (Hall p (or_introl eq_refl)) as [b Hb]. rewrite Hb. cbn. destruct b.
    + exists true. split; [reflexivity|]. split; [|reflexivity]. intros _. exists p. auto.
    + destruct IH as (b & Eb & Hiff); [intros q Hq; apply Hall; right; exact Hq|]. exists b. split; [exact Eb|]. rewrite Hiff. split.
      * intros (q & Hq & Eq). exists q. auto.
      * intros (q & [<- |Hq] & Eq); [congruence|]. exists q. auto.
Qed.

Lemma C36_gated_refuted_proof :
  exists (P : Prog) (Q : QFlag) (j : joined P Q) n e a,
    w_entities (j_world j) e = None /\ fst (run (client j n (Ask (RAttr e a) Ret)) []) = Done true.
Proof.
  exists demo, intQ, (demo_joined true), 2%nat, 5%nat, "strong"%string. split; [reflexivity|].
  change (see_attr (demo_joined true) 2 5%nat "strong"%string = Done true). vm_compute. reflexivity.
Qed.

Lemma C36_unmarked_no_children_proof : forall (P : Prog) (Q : QFlag) (j : joined P Q) e a,
  w_entities (j_world j) e = None ->
  attr_sources j e a = flat_map (fun c => attr_on c e e a) (leaves (j_comp j)) ++ flat_map (fun c => attr_on c e e a) (leaves (j_rel j)).
Proof.
  intros P Q j e a He. unfold attr_sources. rewrite He. cbn. f_equal.
  replace (flat_map (fun _ : cstream P Q => []) (leaves (j_child j))) with (@nil (prog P Q bool)); [apply app_nil_r|].
  induction (leaves (j_child j)); cbn; [reflexivity|assumption].
Qed.

Lemma C43_queries_sound_proof : forall (P : Prog) (Q : QFlag) (j : joined P Q) (l : list (nat * prog P Q unit)) n (A : Type) (p : prog P Q A),
  distinct_vtables P -> flags_eq (Q := Q) -> stats_kept j -> relations_kept j -> defaults_typed (j_world j) ->
  code_sound j -> stops (fun o => o <> UB) p ->
  fst (run (client j n p) (after j l [])) <> UB.
Proof.
  intros P Q j l n A p Hd Hq Hs Hr Hdt Hc Hp.
  assert (Hask : forall n, ask j n p <> UB) by (intros m; apply ask_sound; assumption).
  destruct (j_cached j) eqn:Ej.
  - destruct (good_run Hd Hq (right j) (client j n p) _ (after j l []) (client_good j n p Ej Hs) (after_valid Hd Hq j Ej Hs l [] (valid_nil _))) as [[H1 _] _].
    intros E. destruct H1 as [m Em]; [rewrite E; discriminate|]. apply (Hask m). congruence.
  - rewrite (client_uncached j n p _ Ej). apply Hask.
Qed.

Lemma C43_queries_refuted_proof :
  exists (P : Prog) (Q : QFlag) (j : joined P Q) n e x s,
    distinct_vtables P /\ flags_eq (Q := Q) /\ defaults_typed (j_world j) /\ code_sound j /\
    fst (run (client j n (p_query e x s)) []) = UB.
Proof.
  exists demo, intQ, (swapping alive_pair true), 2%nat, 0%nat, any, hp.
  split; [exact demo_distinct|]. split; [exact intQ_flags|]. split; [exact I|]. split; [apply swapping_sound|].
  change (see_hp (swapping alive_pair true) 2 0%nat any = UB). vm_compute. reflexivity.
Qed.

Lemma C44_noop_proof : forall (P : Prog) (Q : QFlag) (b : bool) e f t x s a c,
  fits s ->
  run (interp b noop (p_query (P := P) (Q := Q) e x s)) c = (Done None, c) /\
  run (interp b noop (p_query_eval (P := P) (Q := Q) e x s)) c = (Done None, c) /\
  run (interp b noop (p_relation (P := P) (Q := Q) f t x s)) c = (Done None, c) /\
  run (interp b noop (p_relation_eval (P := P) (Q := Q) f t x s)) c = (Done None, c) /\
  run (interp b noop (Ask (RAttr e a) Ret)) c = (Done false, c).
Proof.
  intros P Q b e f t x s a c Hf. unfold fits in Hf. unfold p_query_eval, p_relation_eval, p_query, p_relation.
  cbn [interp check]. rewrite Hf. cbn [of_outcome pbind interp a_outcome abind noop]. cbn [check]. rewrite Hf. cbn. auto.
Qed.
Lemma C44_eval_proof : forall (P : Prog) (Q : QFlag) (j : joined P Q) n e x s c,
  run (client j n (p_query_eval e x s)) c =
    let (o, c') := run (client j n (p_query e x s)) c in
    (let! v := o in match v with None => Done None | Some v => let! r := sv_eval _ v in Done (Some r) end, c').
Proof. exact (fun P Q j n e x s c => run_query_eval j n e x s c). Qed.

Lemma C44_relation_eval_proof : forall (P : Prog) (Q : QFlag) (j : joined P Q) n f t x s c,
  run (client j n (p_relation_eval f t x s)) c =
    let (o, c') := run (client j n (p_relation f t x s)) c in
    (let! v := o in match v with None => Done None | Some v => let! r := sv_eval _ v in Done (Some r) end, c').
Proof. exact (fun P Q j n f t x s c => run_relation_eval j n f t x s c). Qed.
