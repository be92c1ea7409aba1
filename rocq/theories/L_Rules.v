(** Queries over games with rules. *)
From Coq Require Import ZArith List Bool Sorted Eqdep_dec Lia.
From Verif Require Import M_Outcome M_Value M_Qualifier M_Search M_Stat M_StatMap M_HashMap M_Pair M_Defaults M_Querier
  S_Search S_Pair S_StatMap S_Defaults S_Defaults2 S_Querier S_Totals S_EndToEnd S_Rules
  L_Outcome L_StatMap L_StatMap3 L_StatMap4 L_Querier L_Querier2 L_DemoQuery L_Query L_QueryProofs L_CacheProofs L_EndToEnd L_EndToEnd2.
Import ListNotations.

Section L.
  Context {P : Prog} {Q : QFlag}.
  Notation VS s := (VT P (vt_value P (si_ty s))).
  Notation story s := (history (VS s)).
  Notation at_ s v := (Pair s (Buf (vt_value P (si_ty s)) v)).
  Hypothesis OQ : lawful_ord (q_cmp Q).
  Variable bs : list comparison -> bsres.
  Hypothesis C : bs_contract bs.
  Hypothesis D : distinct_vtables P.
  Variable T : StatTypes P.
  Variables o_size o_align : vty P -> Z.

  Lemma returns_any {A} (p : prog P Q A) : returns (fun _ => True) p.
  Proof. induction p as [a|o|r k IH|k IH]; cbn [returns]; auto. Qed.
  Lemma applied_values s (l : list (stat_op (VS s))) : forall (h : story s) v, value_of h = Done v ->
    value_of (fold_left Applied l h) = ofold (fun v o => write_to o v) v l.
  Proof.
    induction l as [|o l IH]; intros h v E; [exact E|]. cbn [fold_left ofold].
    assert (A : value_of (Applied h o) = write_to o v) by (cbn [value_of]; rewrite E; reflexivity).
    destruct (write_to o v) as [v1|p| |] eqn:Ew; cbn [obind]; [apply (IH _ _ A)|..];
      clear - A; revert A; generalize (Applied h o); induction l as [|o' l IH]; intros k A; cbn [fold_left]; auto; apply IH; cbn [value_of]; rewrite A; reflexivity.
  Qed.
  Lemma applied_before {S : StatValue} (l : list (stat_op S)) : forall (h : history S) v, value_of (fold_left Applied l h) = Done v -> exists w, value_of h = Done w.
  Proof.
    induction l as [|o l IH]; intros h v E; [eauto|]. cbn [fold_left] in E. destruct (IH _ _ E) as [w Ew]. cbn [value_of] in Ew.
    destruct (value_of h); try discriminate. eauto.
  Qed.
  Lemma joined_before {S : StatValue} (l : list (history S)) (h : history S) v : value_of (fold_left Joined l h) = Done v -> exists w, value_of h = Done w.
  Proof. intros E. pose proof (stuck_joined l h) as G. destruct (value_of h); [eauto|congruence..]. Qed.
  Lemma leads_before (j : joined P Q) e x (s : inst P) (h : story s) c k : leads j e x s h c k -> forall v, value_of k = Done v -> exists w, value_of h = Done w.
  Proof.
    induction 1 as [h|h l hs c k Hc _ IH|h r E ops c k Hy _ IH|h r c k N _ IH]; intros v Ev; [eauto|..]; destruct (IH _ Ev) as [w Ew]; [eapply joined_before|eapply applied_before|]; eauto.
  Qed.

  (** ** The stream of a rule *)
  Lemma rule_other h (r : rule P Q) e x s v : validate_stat T (si_ty (r_to r)) = Done tt -> r_to r <> s -> oeval h (rule_stream T r e x (at_ s v)) = Done (at_ s v).
  Proof.
    intros Hv N. unfold rule_stream. rewrite oeval_pbind, oeval_of_outcome. unfold pair_is_then_cast. rewrite Hv. cbn [obind p_stat].
    destruct (inst_eqb s (r_to r)) eqn:E; [|reflexivity]. apply (inst_eqb_iff D) in E. congruence.
  Qed.
  Lemma rule_same h (r : rule P Q) e x v : validate_stat T (si_ty (r_to r)) = Done tt ->
    oeval h (rule_stream T r e x (at_ (r_to r) v)) =
    let! l := oeval h (r_code r e x) in let! v' := ofold (fun v o => write_to o v) v l in Done (at_ (r_to r) v').
  Proof.
    intros Hv. unfold rule_stream. rewrite oeval_pbind, oeval_of_outcome. unfold pair_is_then_cast. rewrite Hv. cbn [obind p_stat p_buf].
    rewrite (proj2 (inst_eqb_iff D (r_to r) (r_to r)) eq_refl), cast_val_same. cbn [obind]. rewrite oeval_pbind. apply obind_ext. intros l.
    rewrite oeval_pbind, oeval_of_outcome. reflexivity.
  Qed.
  Lemma rule_keeps (r : rule P Q) e x : keeps (rule_stream T r e x).
  Proof.
    intros p Hp. unfold rule_stream. apply (returns_pbind (fun c => c <> None -> p_stat p = r_to r)).
    - apply returns_outcome. intros c Ec N. unfold pair_is_then_cast in Ec. destruct (validate_stat T (si_ty (r_to r))); cbn [obind] in Ec; try discriminate.
      destruct (inst_eqb (p_stat p) (r_to r)) eqn:E; [apply (inst_eqb_iff D); exact E|congruence].
    - intros [v|] Hc; [|cbn [returns]; auto]. apply (returns_pbind (fun _ => True)); [apply returns_any|]. intros l _.
      apply (returns_pbind (fun _ => True)); [apply returns_any|]. intros v' _. cbn [returns]. split; [reflexivity|].
      unfold pair_ok. cbn [pair_write p_buf p_stat b_ty]. rewrite Hc by discriminate. reflexivity.
  Qed.

  (** ** All sources *)
  Definition cause_of (y : law P Q) : cause P Q := match y with inl p => inl (snd p) | inr r => inr r end.
  Definition good_law (y : law P Q) : Prop :=
    match y with inl p => logged bs (fst p) (snd p) | inr r => validate_stat T (si_ty (r_to r)) = Done tt end.
  Definition laws_for (g : game P Q) (l : list (law P Q)) e ch : list (law P Q) :=
    l ++ map inl (flat_map (maps_on e) (g_comp g) ++ flat_map (maps_on e) (g_rel g) ++ flat_map (fun k => flat_map (fun d => maps_on d k) ch) (g_child g)).
  Lemma ruled_sources (g : game P Q) l e ch x : lawful_game T bs o_size o_align g l ->
    stat_sources (ruled T bs g l) e ch x = map (fun y => law_stream T bs y e x) (laws_for g l e (or_nil ch)) /\
    causes g l e (or_nil ch) = map cause_of (laws_for g l e (or_nil ch)) /\
    Forall good_law (laws_for g l e (or_nil ch)).
  Proof.
    intros (U & Eg & Hr). pose proof (u_logs _ _ _ _ U) as Hl. apply Forall_app in Hl as [H1 H23]. apply Forall_app in H23 as [H2 H3].
    pose proof (u_global_logs _ _ _ _ U) as Hg. rewrite Eg in Hg.
    unfold stat_sources, causes, laws_for, ruled. cbn [with_rules j_world j_comp j_rel j_child w_relations or_nil].
    rewrite (u_comp _ _ _ _ U), (u_rel _ _ _ _ U), (u_child _ _ _ _ U).
    destruct (row_on bs _ e e x H1) as (A1 & A2 & A3). destruct (row_on bs _ e e x H2) as (B1 & B2 & B3). destruct (row_on_children bs _ e x (or_nil ch) H3) as (C1 & C2 & C3).
    rewrite A1, A2, B1, B2, C1, C2, !map_app, !map_map. repeat split.
    rewrite !Forall_app. repeat split; rewrite ?Forall_map; auto. clear - Hg Hr. induction l as [|y l IH]; constructor.
    - destruct y as [p|r]; cbn [maps_in rules_in flat_map app good_law] in *; [inversion Hg|inversion Hr]; subst; tauto.
    - apply IH.
      + destruct y; cbn [rules_in flat_map app] in Hr; [exact Hr|inversion Hr; assumption].
      + destruct y; cbn [maps_in flat_map app] in Hg; [inversion Hg; assumption|exact Hg].
  Qed.
  Lemma ruled_kept (g : game P Q) l : lawful_game T bs o_size o_align g l -> stats_kept (ruled T bs g l).
  Proof.
    intros U e ch x f Hf. destruct (ruled_sources g l e ch x U) as (E & _). rewrite E in Hf. apply in_map_iff in Hf as (y & <- & _).
    destruct y as [p|r]; [|apply rule_keeps]. intros pr Hp. apply returns_outcome. intros p' Ep. apply (map_stream_keeps _ _ _ _ _ Hp Ep).
  Qed.

  (** ** Code run through the cache and not *)
  Lemma yields_ask (j : joined P Q) past {A} (p : prog P Q A) a : flags_eq (Q := Q) -> stats_kept j -> (yields j past p a <-> exists n, ask j n p = Done a).
  Proof.
    intros Hq Hk. assert (Eu : forall n, fst (run (client (uncached j) n p) []) = ask j n p) by (intros n; rewrite client_uncached by reflexivity; apply ask_uncached).
    unfold yields. destruct (j_cached j) eqn:Hc.
    - split; intros [n En]; destruct (C27_transparent_proof P Q j past n _ p D Hq Hc Hk) as [H1 H2]; rewrite Eu in H2.
      + rewrite En in H1. destruct H1 as [m Em]; [discriminate|]. rewrite Eu in Em. eauto.
      + exists n. rewrite H2; [exact En|rewrite En; discriminate].
    - rewrite after_same by exact Hc. split; intros [n En]; exists n; [|]; rewrite client_uncached in * by exact Hc; exact En.
  Qed.

  Section J.
    Variable j : joined P Q.
    Hypothesis Hq : flags_eq (Q := Q).
    Hypothesis Hk : stats_kept j.
    Lemma leads_sound n e x s : fits s -> forall ls, Forall good_law ls -> forall (h : story s) v p',
      value_of h = Done v -> collect (answer j n) (at_ s v) (map (fun y => law_stream T bs y e x) ls) = Done p' ->
      exists k v', leads j e x s h (map cause_of ls) k /\ value_of k = Done v' /\ p' = at_ s v'.
    Proof.
      intros F ls Hl. induction Hl as [|y ls Hy Hl IH]; intros h v p' Ev Ec.
      - cbn in Ec. injection Ec as <-. exists h, v. split; [constructor|]. split; [exact Ev|reflexivity].
      - unfold collect in Ec. cbn [map ofold] in Ec. apply obind_inv in Ec as (p1 & E1 & Ec). cbn [map].
        destruct y as [p|r]; cbn [law_stream good_law cause_of] in *.
        + destruct (logged_stream OQ bs C D (fst p) (snd p) x s Hy F) as (hs & Hc & Hst). unfold everywhere in E1. rewrite oeval_of_outcome, (Hst h v Ev) in E1.
          apply obind_inv in E1 as (v1 & Ev1 & E1). injection E1 as <-. destruct (IH _ _ _ Ev1 Ec) as (k & v' & Hk' & Hv' & Hp'). exists k, v'.
          split; [|split; assumption]. econstructor; eassumption.
        + destruct (stat_dec (r_to r) s) as [E|N].
          * subst s. rewrite rule_same in E1 by exact Hy. apply obind_inv in E1 as (ops & Eo & E1). apply obind_inv in E1 as (v1 & Ev1 & E1). injection E1 as <-.
            rewrite <- (applied_values _ ops h v Ev) in Ev1. destruct (IH _ _ _ Ev1 Ec) as (k & v' & Hk' & Hv' & Hp'). exists k, v'.
            split; [|split; assumption]. refine (ld_rule j e x (r_to r) h r eq_refl ops _ k _ Hk'). apply yields_ask; [exact Hq|exact Hk|]. exists n. exact Eo.
          * rewrite rule_other in E1 by assumption. injection E1 as <-. destruct (IH _ _ _ Ev Ec) as (k & v' & Hk' & Hv' & Hp'). exists k, v'.
            split; [|split; assumption]. apply ld_other; assumption.
    Qed.
    Lemma collect_le n m p p' l : n <= m -> collect (answer j n) p l = Done p' -> collect (answer j m) p l = Done p'.
    Proof.
      intros L E. rewrite <- E. apply ole_stop; [|rewrite E; discriminate]. apply collect_mono. intros r. apply answer_le, L.
    Qed.
    Lemma leads_complete e x s : fits s -> forall ls, Forall good_law ls -> forall (h k : story s) v v',
      leads j e x s h (map cause_of ls) k -> value_of h = Done v -> value_of k = Done v' ->
      exists n, collect (answer j n) (at_ s v) (map (fun y => law_stream T bs y e x) ls) = Done (at_ s v').
    Proof.
      intros F ls Hl. induction Hl as [|y ls Hy Hl IH]; intros h k v v' L Ev Ek; cbn [map] in L.
      - inversion L; subst. exists 0. cbn. rewrite Ev in Ek. injection Ek as <-. reflexivity.
      - destruct y as [p|r]; cbn [cause_of good_law] in *.
        + inversion L as [|? ? hs ? ? Hc L'| |]; subst. destruct (leads_before _ _ _ _ _ _ _ L' _ Ek) as [v1 Ev1].
          destruct (IH _ _ _ _ L' Ev1 Ek) as [n En]. exists n. unfold collect. cbn [map ofold].
          destruct (logged_stream OQ bs C D (fst p) (snd p) x s Hy F) as (hs' & Hc' & Hst).
          assert (hs' = hs) by (eapply (chosen_unique OQ); [reflexivity|exact Hc'|exact Hc]). subst hs'.
          cbn [law_stream]. unfold everywhere. rewrite oeval_of_outcome, (Hst h v Ev), Ev1. cbn [obind]. exact En.
        + inversion L as [| |? ? E ops ? ? Hy' L'|? ? ? ? N L']; subst.
          * cbn [eq_rect] in L'. destruct (leads_before _ _ _ _ _ _ _ L' _ Ek) as [v1 Ev1]. destruct (IH _ _ _ _ L' Ev1 Ek) as [n En].
            apply yields_ask in Hy' as [m Em]; [|exact Hq|exact Hk]. exists (Nat.max n m). unfold collect. cbn [map ofold law_stream].
            rewrite rule_same by exact Hy. unfold ask in Em.
            assert (Em' : oeval (answer j (Nat.max n m)) (r_code r e x) = Done ops).
            { rewrite <- Em. apply ole_stop; [|rewrite Em; discriminate]. apply oeval_mono. intros q. apply answer_le. lia. }
            rewrite Em'. cbn [obind]. rewrite <- (applied_values _ ops h v Ev), Ev1. cbn [obind].
            apply (collect_le n); [lia|exact En].
          * destruct (IH _ _ _ _ L' Ev Ek) as [n En]. exists n. unfold collect. cbn [map ofold law_stream]. rewrite rule_other by assumption. exact En.
    Qed.
  End J.

  Lemma ruled_initial (g : game P Q) l s : set_up bs o_size o_align g -> fits s ->
    exists v, value_of (start (dlog g) s) = Done v /\ initial (j_world (ruled T bs g l)) s = Done (Buf (vt_value P (si_ty s)) v).
  Proof.
    intros U F. exact (initial_story bs D o_size o_align g s U F).
  Qed.
  Lemma ask_query (j : joined P Q) n e x s : fits s -> ask j (S n) (p_query e x s) =
    let! o := answer j (S n) (RStat e x s) in match o with None => Done None | Some b => let! v := cast_val P (vt_value P (si_ty s)) b in Done (Some v) end.
  Proof.
    intros F. unfold ask, p_query. cbn [oeval check]. unfold fits in F. rewrite F. cbn [obind]. apply obind_ext. intros [b|]; [|reflexivity].
    cbn [M_Querier.typed]. unfold buf_into, buf_ref. rewrite F. cbn [obind]. destruct (cast_val _ _ b); reflexivity.
  Qed.
  Lemma C80_query_proof (g : game P Q) l e ch x s past v : flags_eq (Q := Q) -> lawful_game T bs o_size o_align g l -> fits s ->
    w_entities (j_world (g_querier g)) e = Some ch ->
    (yields (ruled T bs g l) past (p_query e x s) (Some v) <->
     exists k, leads (ruled T bs g l) e x s (starting g s) (causes g l e (or_nil ch)) k /\ value_of k = Done v).
  Proof.
    intros Hq U F He. pose proof (ruled_kept g l U) as Hk. rewrite yields_ask by assumption.
    destruct (ruled_sources g l e ch x U) as (Es & Ec & Hg). destruct (ruled_initial g l s (proj1 U) F) as (v0 & Ev0 & Ei). rewrite Ec.
    split.
    - intros [[|n] En]; [unfold ask, p_query in En; cbn [oeval answer] in En; destruct (check _); discriminate En|].
      rewrite ask_query in En by exact F. cbn [answer answer1] in En.
      change (w_entities (j_world (ruled T bs g l)) e) with (w_entities (j_world (g_querier g)) e) in En. rewrite He, Ei in En. cbn [obind] in En.
      rewrite Es in En. apply obind_inv in En as (o & Eo & En). apply obind_inv in Eo as (p & Ep & Eo). injection Eo as <-.
      destruct (leads_sound _ Hq Hk n e x s F _ Hg _ _ _ Ev0 Ep) as (k & v' & Hl & Hv & ->). exists k. split; [exact Hl|].
      cbn [p_buf] in En. rewrite cast_val_same in En. cbn [obind] in En. congruence.
    - intros (k & Hl & Hv). destruct (leads_complete _ Hq Hk e x s F _ Hg _ _ _ _ Hl Ev0 Hv) as [n En].
      exists (S n). rewrite ask_query by exact F. cbn [answer answer1].
      change (w_entities (j_world (ruled T bs g l)) e) with (w_entities (j_world (g_querier g)) e). rewrite He, Ei. cbn [obind].
      rewrite Es, En. cbn [obind p_buf]. rewrite cast_val_same. reflexivity.
  Qed.
  Lemma C80_eval_proof (g : game P Q) l e ch x s past r : flags_eq (Q := Q) -> lawful_game T bs o_size o_align g l -> fits s ->
    w_entities (j_world (g_querier g)) e = Some ch ->
    (yields (ruled T bs g l) past (p_query_eval e x s) (Some r) <->
     exists k, leads (ruled T bs g l) e x s (starting g s) (causes g l e (or_nil ch)) k /\ worth k = Done r).
  Proof.
    intros Hq U F He. split.
    - intros [n En]. rewrite C44_eval_proof in En. destruct (run (client (ruled T bs g l) n (p_query e x s)) (after (ruled T bs g l) past [])) as [o c'] eqn:Er.
      cbn [fst] in En. apply obind_inv in En as ([v|] & -> & En); [|discriminate]. apply obind_inv in En as (r' & Ev & En). injection En as <-.
      destruct (proj1 (C80_query_proof g l e ch x s past v Hq U F He)) as (k & Hl & Hv); [exists n; rewrite Er; reflexivity|].
      exists k. split; [exact Hl|]. unfold worth. rewrite Hv. exact Ev.
    - intros (k & Hl & Hw). unfold worth in Hw. apply obind_inv in Hw as (v & Hv & Hw).
      destruct (proj2 (C80_query_proof g l e ch x s past v Hq U F He)) as (n & En); [eauto|]. exists n. rewrite C44_eval_proof.
      destruct (run (client (ruled T bs g l) n (p_query e x s)) (after (ruled T bs g l) past [])) as [o c'] eqn:Er. cbn [fst] in *. subst o. cbn [obind]. rewrite Hw. reflexivity.
  Qed.

  (** ** Rules that settle *)
  Lemma asked_checked (j : joined P Q) {A} (p : prog P Q A) r' : asked j p r' -> check r' = Done tt.
  Proof. induction 1; assumption. Qed.
  Lemma query_fuel (j : joined P Q) (rank : inst P -> nat) : (forall s (h : story s), value_of h <> NoFuel) ->
    forall e x s, fits s -> (forall e' x' s', rank s' < rank s -> fits s' -> terminates j (RStat e' x' s')) ->
    forall ls, Forall good_law ls -> (forall r, In (inr r) ls -> descends rank r) -> forall (h : story s) v, value_of h = Done v ->
    exists n, collect (answer j n) (at_ s v) (map (fun y => law_stream T bs y e x) ls) <> NoFuel.
  Proof.
    intros Hn e x s F Ht ls Hl. induction Hl as [|y ls Hy Hl IH]; intros Hd h v Ev; [exists 0; discriminate|].
    assert (Hd' : forall r, In (inr r) ls -> descends rank r) by (intros r Hr; apply Hd; right; exact Hr). specialize (IH Hd'). unfold collect. cbn [map ofold].
    destruct y as [p|r]; cbn [law_stream good_law] in *.
    - destruct (logged_stream OQ bs C D (fst p) (snd p) x s Hy F) as (hs & _ & Hst). specialize (Hst h v Ev). unfold everywhere.
      pose proof (Hn s (fold_left Joined (map snd hs) h)) as N. destruct (value_of (fold_left Joined (map snd hs) h)) as [v1| | |] eqn:E1; [|..|congruence];
        [|exists 0; rewrite oeval_of_outcome, Hst; discriminate..].
      destruct (IH _ _ E1) as [n Hn']. exists n. rewrite oeval_of_outcome, Hst. cbn [obind]. exact Hn'.
    - destruct (stat_dec (r_to r) s) as [E|N]; [|destruct (IH _ _ Ev) as [n Hn']; exists n; rewrite rule_other by assumption; exact Hn'].
      subst s. destruct (Hd r (or_introl eq_refl) e x) as [Ha Hs].
      destruct (asked_terminate j (r_code r e x) Hs) as [m Hm].
      { intros r' Hr. pose proof (asked_checked _ _ _ Hr) as Hc. destruct (only_asks_asked j _ _ _ Hr Ha) as (e' & x' & s' & -> & L). apply Ht; [exact L|exact Hc]. }
      destruct (oeval (answer j m) (r_code r e x)) as [ops| | |] eqn:Eo; [|..|congruence]; [|exists m; rewrite rule_same, Eo by assumption; discriminate..].
      pose proof (Hn _ (fold_left Applied ops h)) as N. destruct (value_of (fold_left Applied ops h)) as [v1| | |] eqn:E1; [|..|congruence];
        pose proof (applied_values _ ops h v Ev) as A; rewrite E1 in A; [|exists m; rewrite rule_same, Eo by assumption; cbn [obind]; rewrite <- A; discriminate..].
      destruct (IH _ _ E1) as [n Hn']. exists (Nat.max n m). rewrite rule_same by assumption.
      assert (Em : oeval (answer j (Nat.max n m)) (r_code r e x) = Done ops).
      { rewrite <- Eo. apply ole_stop; [|rewrite Eo; discriminate]. apply oeval_mono. intros q. apply answer_le. lia. }
      rewrite Em. cbn [obind]. rewrite <- A. cbn [obind].
      assert (L : ole (collect (answer j n) (at_ (r_to r) v1) (map (fun y => law_stream T bs y e x) ls)) (collect (answer j (Nat.max n m)) (at_ (r_to r) v1) (map (fun y => law_stream T bs y e x) ls)))
        by (apply collect_mono; intros q; apply answer_le; lia).
      unfold collect in L, Hn'. rewrite (ole_stop _ _ L Hn'). exact Hn'.
  Qed.
  Lemma C80_settles_proof (g : game P Q) l (rank : inst P -> nat) : flags_eq (Q := Q) -> lawful_game T bs o_size o_align g l ->
    (forall s (h : story s), value_of h <> NoFuel) -> (forall r, In (inr r) l -> descends rank r) ->
    forall e x s past, exists n, fst (run (client (ruled T bs g l) n (p_query e x s)) (after (ruled T bs g l) past [])) <> NoFuel.
  Proof.
    intros Hq U Hn Hd. set (j := ruled T bs g l).
    assert (K : forall k e x s, rank s < k -> fits s -> terminates j (RStat e x s)).
    { induction k as [|k IH]; intros e x s L F; [lia|].
      destruct (w_entities (j_world j) e) as [ch|] eqn:He; [|exists 1; cbn [answer answer1]; rewrite He; discriminate].
      destruct (ruled_sources g l e ch x U) as (Es & _ & Hg). destruct (ruled_initial g l s (proj1 U) F) as (v0 & Ev0 & Ei).
      destruct (query_fuel j rank Hn e x s F) with (ls := laws_for g l e (or_nil ch)) (h := start (dlog g) s) (v := v0) as [n Hn']; [|exact Hg| |exact Ev0|].
      - intros e' x' s' L' F'. apply IH; [lia|exact F'].
      - intros r Hr. apply in_app_or in Hr as [Hr|Hr]; [apply Hd, Hr|]. apply in_map_iff in Hr as (p & E & _). discriminate.
      - exists (S n). cbn [answer answer1]. rewrite He. unfold j. rewrite Ei. cbn [obind]. rewrite Es. fold j. intros Q0. apply Hn'.
        destruct (collect _ _ _); [discriminate|discriminate|discriminate|reflexivity]. }
    intros e x s past. pose proof (ruled_kept g l U) as Hk. fold j in Hk.
    assert (A : exists n, ask j n (p_query e x s) <> NoFuel).
    { destruct (check_cases (Q := Q) (RStat e x s)) as [F|[p F]]; [|exists 0; unfold ask, p_query; cbn [oeval]; rewrite F; discriminate].
      destruct (K _ e x s (Nat.lt_succ_diag_r _) F) as [[|n] Hn']; [contradiction Hn'; reflexivity|]. exists (S n). rewrite ask_query by exact F.
      destruct (answer j (S n) (RStat e x s)) as [[b|]| | |]; cbn [obind]; try discriminate; [|congruence].
      pose proof (cast_fuel (vt_value P (si_ty s)) b). destruct (cast_val _ _ b); cbn [obind]; congruence. }
    destruct A as [n Hn']. exists n. destruct (j_cached j) eqn:Hc.
    - destruct (C27_transparent_proof P Q j past n _ (p_query e x s) D Hq Hc Hk) as [_ H2]. rewrite client_uncached in H2 by reflexivity. rewrite ask_uncached in H2.
      rewrite H2; exact Hn'.
    - rewrite client_uncached by exact Hc. exact Hn'.
  Qed.

  (** A stat that follows another. *)
  Lemma C80_follows_proof (g : game P Q) l past e x to from at_ f ops : flags_eq (Q := Q) -> lawful_game T bs o_size o_align g l ->
    (yields (ruled T bs g l) past (r_code (follows to from at_ f) e x) ops <->
     exists o, yields (ruled T bs g l) past (p_query_eval (fst (at_ e x)) (snd (at_ e x)) from) o /\ ops = match o with Some r => f r | None => [] end).
  Proof.
    intros Hq U. pose proof (ruled_kept g l U) as Hk. rewrite yields_ask by assumption. split.
    - intros [n En]. cbn [follows r_code] in En. unfold ask in En. rewrite oeval_pbind in En. apply obind_inv in En as (o & Eo & En). exists o. split; [|injection En as <-; reflexivity].
      apply yields_ask; [assumption|assumption|]. exists n. exact Eo.
    - intros (o & Eo & ->). apply yields_ask in Eo as [n Eo]; [|assumption|assumption]. exists n. cbn [follows r_code]. unfold ask in *. rewrite oeval_pbind, Eo. reflexivity.
  Qed.
End L.

(** The value of a [StatInt] stat with rules. *)
From Verif Require Import M_Ints M_Types L_Totals.
Lemma C80_StatInt_checked_proof : forall (P : Prog) (Q : QFlag) (bs : list comparison -> bsres) (T : StatTypes P) (o_size o_align : vty P -> Z),
  bs_contract bs -> distinct_vtables P -> lawful_ord (q_cmp Q) -> flags_eq (Q := Q) ->
  forall (g : game P Q) l e ch x s past t (E : VT P (vt_value P (si_ty s)) = statInt true (prim t)) r,
  lawful_game T bs o_size o_align g l -> fits s -> w_entities (j_world (g_querier g)) e = Some ch ->
  yields (ruled T bs g l) past (p_query_eval e x s) (Some r) ->
  exists k, leads (ruled T bs g l) e x s (starting g s) (causes g l e (or_nil ch)) k /\
  let all := seen_as E k in
  result_as E r = bounded t (floors all same) (ceilings all same) (sum (gains all same same) * product (factors all same))%Z.
Proof.
  intros P Q bs T o_size o_align C D OQ Hq g l e ch x s past t E r U F He Hy.
  destruct (proj1 (C80_eval_proof OQ bs C D T o_size o_align g l e ch x s past r Hq U F He) Hy) as (k & Hl & Hw). exists k. split; [exact Hl|]. intros all.
  apply C58_StatInt_checked_proof. unfold all. rewrite worth_as, Hw. reflexivity.
Qed.
