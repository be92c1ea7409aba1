(** Proofs: the answers are the only solution of the rules. *)
From Coq Require Import ZArith List Bool Lia.
From Verif Require Import M_Outcome M_Value M_Qualifier M_Search M_Stat M_StatMap M_HashMap M_Pair M_Defaults M_Querier
  S_Search S_Pair S_StatMap S_Defaults S_Defaults2 S_Querier S_Totals S_EndToEnd S_Rules S_Equations
  L_Outcome L_StatMap L_StatMap3 L_Querier L_Querier2 L_QueryProofs L_CacheProofs L_EndToEnd L_EndToEnd2 L_MonoQuery L_Rules L_Depth L_Unaffected.
Import ListNotations.

Section L.
  Context {P : Prog} {Q : QFlag}.
  Notation VS s := (VT P (vt_value P (si_ty s))).
  Notation story s := (history (VS s)).
  Notation at_ s v := (Pair s (Buf (vt_value P (si_ty s)) v)).
  Hypothesis OQ : lawful_ord (q_cmp Q).
  Variable bs : list comparison -> bsres.
  Hypothesis C : bs_contract bs.
  Hypothesis D : distinct_vtables P.
  Variable T : StatTypes P.
  Variables o_size o_align : vty P -> Z.
  Hypothesis Hq : flags_eq (Q := Q).

  Lemma collect_below (h h' : forall r : request P Q, outcome (raw r)) (rank : entity -> qquery Q -> inst P -> nat) e x s : fits s ->
    (forall e' x' s', rank e' x' s' < rank e x s -> fits s' -> h (RStat e' x' s') = h' (RStat e' x' s')) ->
    forall ls, Forall (good_law bs T) ls -> (forall r, In (inr r) ls -> grounded rank r) -> forall (k : story s) v, value_of k = Done v ->
    collect h (at_ s v) (map (fun y => law_stream T bs y e x) ls) = collect h' (at_ s v) (map (fun y => law_stream T bs y e x) ls).
  Proof.
    intros F Ht ls Hl. induction Hl as [|y ls Hy Hl IH]; intros Hd k v Ev; [reflexivity|].
    assert (Hd' : forall r, In (inr r) ls -> grounded rank r) by (intros r Hr; apply Hd; right; exact Hr). specialize (IH Hd'). cbn [map]. rewrite !collect_step.
    destruct y as [p|r]; cbn [law_stream good_law] in *.
    - destruct (logged_stream OQ bs C D (fst p) (snd p) x s Hy F) as (hs & _ & Hst). specialize (Hst k v Ev). unfold everywhere. rewrite !oeval_of_outcome, Hst.
      destruct (value_of (fold_left Joined (map snd hs) k)) as [v1| | |] eqn:E1; cbn [obind]; try reflexivity. exact (IH _ _ E1).
    - destruct (stat_dec (r_to r) s) as [E|N]; [|rewrite !(rule_other D) by assumption; exact (IH _ _ Ev)].
      subst s. destruct (Hd r (or_introl eq_refl) e x) as [Ha _]. rewrite !(rule_same D) by assumption.
      assert (Eo : oeval h (r_code r e x) = oeval h' (r_code r e x)).
      { apply (oeval_same h h' _) with (2 := Ha). intros q (e' & x' & s' & -> & L) Ec. apply Ht; [exact L|exact Ec]. }
      rewrite Eo. destruct (oeval h' (r_code r e x)) as [ops| | |]; cbn [obind]; try reflexivity. rewrite <- (applied_values _ ops k v Ev).
        destruct (value_of (fold_left Applied ops k)) as [v1| | |] eqn:E1; cbn [obind]; try reflexivity. exact (IH _ _ E1).
  Qed.
  Lemma collect_ends (h : forall r : request P Q, outcome (raw r)) (rank : entity -> qquery Q -> inst P -> nat) : (forall s (k : story s), value_of k <> NoFuel) ->
    forall e x s, fits s -> (forall e' x' s', rank e' x' s' < rank e x s -> fits s' -> h (RStat e' x' s') <> NoFuel) ->
    forall ls, Forall (good_law bs T) ls -> (forall r, In (inr r) ls -> grounded rank r) -> forall (k : story s) v, value_of k = Done v ->
    collect h (at_ s v) (map (fun y => law_stream T bs y e x) ls) <> NoFuel.
  Proof.
    intros Hn e x s F Ht ls Hl. induction Hl as [|y ls Hy Hl IH]; intros Hd k v Ev; [discriminate|].
    assert (Hd' : forall r, In (inr r) ls -> grounded rank r) by (intros r Hr; apply Hd; right; exact Hr). specialize (IH Hd'). unfold collect in *. cbn [map ofold].
    destruct y as [p|r]; cbn [law_stream good_law] in *.
    - destruct (logged_stream OQ bs C D (fst p) (snd p) x s Hy F) as (hs & _ & Hst). specialize (Hst k v Ev). unfold everywhere. rewrite oeval_of_outcome, Hst.
      pose proof (Hn s (fold_left Joined (map snd hs) k)) as N. destruct (value_of (fold_left Joined (map snd hs) k)) as [v1| | |] eqn:E1; cbn [obind]; try congruence; try discriminate.
      exact (IH _ _ E1).
    - destruct (stat_dec (r_to r) s) as [E|N]; [|rewrite (rule_other D) by assumption; exact (IH _ _ Ev)].
      subst s. destruct (Hd r (or_introl eq_refl) e x) as [Ha Hs]. rewrite (rule_same D) by assumption.
      assert (N : oeval h (r_code r e x) <> NoFuel).
      { apply oeval_fuel with (2 := Ha); [|exact Hs]. intros q (e' & x' & s' & -> & L) Ec. apply Ht; [exact L|exact Ec]. }
      destruct (oeval h (r_code r e x)) as [ops| | |]; cbn [obind]; try congruence; try discriminate.
      rewrite <- (applied_values _ ops k v Ev). pose proof (Hn _ (fold_left Applied ops k)) as N'.
      destruct (value_of (fold_left Applied ops k)) as [v1| | |] eqn:E1; cbn [obind]; try congruence; try discriminate. exact (IH _ _ E1).
  Qed.
  Lemma answers_end (g : game P Q) l (rank : entity -> qquery Q -> inst P -> nat) : lawful_game T bs o_size o_align g l -> (forall s (h : story s), value_of h <> NoFuel) ->
    (forall r, In (inr r) l -> grounded rank r) -> forall n e x s, rank e x s < n -> fits s -> answer (ruled T bs g l) n (RStat e x s) <> NoFuel.
  Proof.
    intros U Hn Hd. induction n as [|n IH]; intros e x s L F; [lia|]. cbn [answer answer1].
    destruct (w_entities (j_world (ruled T bs g l)) e) as [ch|] eqn:He; [|discriminate].
    destruct (ruled_sources bs T o_size o_align g l e ch x U) as (Es & _ & Hg). destruct (ruled_initial bs D T o_size o_align g l s (proj1 U) F) as (v0 & Ev0 & Ei).
    rewrite Ei. cbn [obind]. rewrite Es.
    pose proof (collect_ends (answer (ruled T bs g l) n) rank Hn e x s F) as K.
    specialize (K ltac:(intros e' x' s' L' F'; apply IH; [lia|exact F']) (laws_for g l e (or_nil ch)) Hg).
    specialize (K ltac:(intros r Hr; apply in_app_or in Hr as [Hr|Hr]; [apply Hd, Hr|apply in_map_iff in Hr as (p & E & _); discriminate]) _ _ Ev0).
    destruct (collect _ _ _); cbn [obind]; try discriminate. congruence.
  Qed.
  Lemma C84_grounded_proof (g : game P Q) l (rank : entity -> qquery Q -> inst P -> nat) : lawful_game T bs o_size o_align g l -> (forall s (h : story s), value_of h <> NoFuel) ->
    (forall r, In (inr r) l -> grounded rank r) ->
    forall n A (p : prog P Q A) past, only_asks (fun q => exists e x s, q = RStat e x s /\ rank e x s < n) p -> stops (fun o => o <> NoFuel) p ->
    fst (run (client (ruled T bs g l) n p) (after (ruled T bs g l) past [])) <> NoFuel /\
    forall m past', n <= m -> fst (run (client (ruled T bs g l) m p) (after (ruled T bs g l) past' [])) = fst (run (client (ruled T bs g l) n p) (after (ruled T bs g l) past [])).
  Proof.
    intros U Hn Hd n A p past Ha Hs. set (j := ruled T bs g l). pose proof (ruled_kept bs D T o_size o_align g l U) as Hk. fold j in Hk.
    assert (N : ask j n p <> NoFuel).
    { unfold ask. apply oeval_fuel with (2 := Ha); [|exact Hs]. intros q (e & x & s & -> & L) Ec. apply (answers_end g l rank U Hn Hd); [exact L|exact Ec]. }
    assert (E : forall m past', n <= m -> fst (run (client j m p) (after j past' [])) = ask j n p).
    { intros m past' L. assert (Em : ask j m p = ask j n p).
      { apply ole_stop; [|exact N]. apply oeval_mono. intros q. apply answer_le, L. }
      rewrite <- Em in N |- *. destruct (j_cached j) eqn:Hc.
      - destruct (C27_transparent_proof P Q j past' m _ p D Hq Hc Hk) as [_ H2]. rewrite client_uncached in H2 by reflexivity. rewrite ask_uncached in H2.
        apply H2, N.
      - rewrite client_uncached by exact Hc. reflexivity. }
    rewrite (E n past (le_n _)). split; [exact N|]. intros m past' L. exact (E m past' L).
  Qed.
  Section G.
    Variables (g : game P Q) (l : list (law P Q)) (rank : entity -> qquery Q -> inst P -> nat).
    Hypothesis U : lawful_game T bs o_size o_align g l.
    Hypothesis Hd : forall r, In (inr r) l -> grounded rank r.
    Lemma laws_descend e ch r : In (inr r) (laws_for g l e ch) -> grounded rank r.
    Proof. intros Hr. apply Hd, (laws_rule g l e ch r Hr). Qed.
    (** One step of answering depends on the answers of lower rank only. *)
    Lemma step_below (h h' : forall r : request P Q, outcome (raw r)) e x s : fits s ->
      (forall e' x' s', rank e' x' s' < rank e x s -> fits s' -> h (RStat e' x' s') = h' (RStat e' x' s')) ->
      answer1 (ruled T bs g l) h (RStat e x s) = answer1 (ruled T bs g l) h' (RStat e x s).
    Proof.
      intros F Hh. cbn [answer1]. destruct (w_entities (j_world (ruled T bs g l)) e) as [ch|]; [|reflexivity].
      destruct (ruled_sources bs T o_size o_align g l e ch x U) as (Es & _ & Hg). destruct (ruled_initial bs D T o_size o_align g l s (proj1 U) F) as (v0 & Ev0 & Ei).
      rewrite Ei. cbn [obind]. rewrite Es, (collect_below h h' rank e x s F Hh _ Hg (laws_descend e (or_nil ch)) _ _ Ev0). reflexivity.
    Qed.
    Lemma joined_bad {S : StatValue} (hs : list (history S)) : forall h, (forall v, value_of h <> Done v) -> value_of (fold_left Joined hs h) = value_of h.
    Proof.
      induction hs as [|k hs IH]; intros h Hb; [reflexivity|]. cbn [fold_left].
      assert (E : value_of (Joined h k) = value_of h) by (cbn [value_of]; destruct (value_of h) as [v| | |]; [destruct (Hb v eq_refl)|reflexivity..]).
      rewrite IH; rewrite E; [reflexivity|exact Hb].
    Qed.
    Lemma applied_bad {S : StatValue} (ops : list (stat_op S)) : forall h, (forall v, value_of h <> Done v) -> value_of (fold_left Applied ops h) = value_of h.
    Proof.
      induction ops as [|k ops IH]; intros h Hb; [reflexivity|]. cbn [fold_left].
      assert (E : value_of (Applied h k) = value_of h) by (cbn [value_of]; destruct (value_of h) as [v| | |]; [destruct (Hb v eq_refl)|reflexivity..]).
      rewrite IH; rewrite E; [reflexivity|exact Hb].
    Qed.
    Lemma foretold_bad (F : book P Q) e x s (h : story s) c o : foretold F e x s h c o -> (forall v, value_of h <> Done v) -> o = value_of h.
    Proof.
      induction 1 as [h|h ll hs c o Hc _ IH|h r E ops c o Ho _ IH|h r c E Ho|h r c o N _ IH]; intros Hb; [reflexivity|..].
      - rewrite IH; [apply joined_bad, Hb|]. intros v Ev. destruct (joined_before _ _ _ Ev) as [w Ew]. exact (Hb w Ew).
      - rewrite IH; [apply applied_bad, Hb|]. intros v Ev. destruct (applied_before _ _ _ Ev) as [w Ew]. exact (Hb w Ew).
      - destruct (value_of h) as [v| | |]; [destruct (Hb v eq_refl)|reflexivity..].
      - apply IH, Hb.
    Qed.
    Lemma foretold_collect (F : book P Q) e x s : fits s -> forall ls, Forall (good_law bs T) ls -> forall (h : story s) v o,
      foretold F e x s h (map cause_of ls) o -> value_of h = Done v ->
      collect (by_book F) (at_ s v) (map (fun y => law_stream T bs y e x) ls) = let! v' := o in Done (at_ s v').
    Proof.
      intros Fs ls Hl. induction Hl as [|y ls Hy Hl IH]; intros h v o L Ev; cbn [map] in L.
      - inversion L; subst. rewrite Ev. reflexivity.
      - cbn [map]. rewrite collect_step. destruct y as [p|r]; cbn [cause_of good_law law_stream] in *.
        + inversion L as [|? ? hs ? ? Hc L'| | |]; subst. destruct (logged_stream OQ bs C D (fst p) (snd p) x s Hy Fs) as (hs' & Hc' & Hst).
          assert (hs' = hs) by (eapply (chosen_unique OQ); [reflexivity|exact Hc'|exact Hc]). subst hs'.
          unfold everywhere. rewrite oeval_of_outcome, (Hst h v Ev).
          destruct (value_of (fold_left Joined (map snd hs) h)) as [v1| | |] eqn:E1; cbn [obind]; [exact (IH _ _ _ L' E1)|..];
            rewrite (foretold_bad _ _ _ _ _ _ _ L'), E1; try reflexivity; rewrite E1; discriminate.
        + inversion L as [| |? ? E ops ? ? Ho L'|? ? ? E Ho|? ? ? ? N L']; subst.
          * cbn [eq_rect] in L'. rewrite (rule_same D) by exact Hy. rewrite Ho. cbn [obind]. rewrite <- (applied_values _ ops h v Ev).
            destruct (value_of (fold_left Applied ops h)) as [v1| | |] eqn:E1; cbn [obind]; [exact (IH _ _ _ L' E1)|..];
              rewrite (foretold_bad _ _ _ _ _ _ _ L'), E1; try reflexivity; rewrite E1; discriminate.
          * rewrite (rule_same D) by exact Hy. rewrite Ev. destruct (oeval (by_book F) (r_code r e x)) as [ops| | |]; [destruct (Ho ops eq_refl)|reflexivity..].
          * rewrite (rule_other D) by assumption. exact (IH _ _ _ L' Ev).
    Qed.
    Lemma foretold_some (F : book P Q) e x s : fits s -> forall ls, Forall (good_law bs T) ls -> forall h : story s, exists o, foretold F e x s h (map cause_of ls) o.
    Proof.
      intros Fs ls Hl. induction Hl as [|y ls Hy Hl IH]; intros h; cbn [map]; [eexists; constructor|]. destruct y as [p|r]; cbn [cause_of good_law] in *.
      - destruct (logged_stream OQ bs C D (fst p) (snd p) x s Hy Fs) as (hs & Hc & _). destruct (IH (fold_left Joined (map snd hs) h)) as [o Ho]. exists o. econstructor; eassumption.
      - destruct (stat_dec (r_to r) s) as [E|N]; [|destruct (IH h) as [o Ho]; exists o; apply ft_other; assumption].
        destruct (oeval (by_book F) (r_code r e x)) as [ops| | |] eqn:Eo.
        + destruct (IH (fold_left Applied (eq_rect (r_to r) (fun s => list (stat_op (VS s))) ops s E) h)) as [o Ho]. exists o. eapply ft_rule; eassumption.
        + eexists. apply ft_panic; [exact E|rewrite Eo; discriminate].
        + eexists. apply ft_panic; [exact E|rewrite Eo; discriminate].
        + eexists. apply ft_panic; [exact E|rewrite Eo; discriminate].
    Qed.
    Lemma step_told (F : book P Q) e x s : fits s ->
      match w_entities (j_world (g_querier g)) e with
      | None => answer1 (ruled T bs g l) (by_book F) (RStat e x s) = Done None
      | Some ch => exists o, foretold F e x s (starting g s) (causes g l e (or_nil ch)) o /\
                   answer1 (ruled T bs g l) (by_book F) (RStat e x s) = let! v := o in Done (Some (Buf (vt_value P (si_ty s)) v))
      end.
    Proof.
      intros Fs. cbn [answer1]. change (w_entities (j_world (ruled T bs g l)) e) with (w_entities (j_world (g_querier g)) e).
      destruct (w_entities (j_world (g_querier g)) e) as [ch|]; [|reflexivity].
      destruct (ruled_sources bs T o_size o_align g l e ch x U) as (Es & Ec & Hg). destruct (ruled_initial bs D T o_size o_align g l s (proj1 U) Fs) as (v0 & Ev0 & Ei).
      destruct (foretold_some F e x s Fs _ Hg (starting g s)) as [o Ho]. exists o. split; [rewrite Ec; exact Ho|].
      rewrite Ei. cbn [obind]. rewrite Es, (foretold_collect F e x s Fs _ Hg _ _ _ Ho Ev0). destruct o; reflexivity.
    Qed.
    Lemma foretold_unique (F : book P Q) e ch x s o o' : fits s -> foretold F e x s (starting g s) (causes g l e (or_nil ch)) o ->
      foretold F e x s (starting g s) (causes g l e (or_nil ch)) o' -> (let! v := o in Done (Buf (vt_value P (si_ty s)) v)) = let! v := o' in Done (Buf (vt_value P (si_ty s)) v).
    Proof.
      intros Fs H H'. destruct (ruled_sources bs T o_size o_align g l e ch x U) as (Es & Ec & Hg). destruct (ruled_initial bs D T o_size o_align g l s (proj1 U) Fs) as (v0 & Ev0 & _).
      rewrite Ec in H, H'. pose proof (foretold_collect F e x s Fs _ Hg _ _ _ H Ev0) as K. rewrite (foretold_collect F e x s Fs _ Hg _ _ _ H' Ev0) in K.
      destruct o, o'; cbn [obind] in *; congruence.
    Qed.
    (** A book solves the equations where one step of answering gives back the same. *)
    Lemma solves_told (F : book P Q) : solves g l F -> forall e x s, fits s -> by_book F (RStat e x s) = answer1 (ruled T bs g l) (by_book F) (RStat e x s).
    Proof.
      intros HF e x s Fs. specialize (HF e x s Fs). pose proof (step_told F e x s Fs) as K. cbn [by_book].
      destruct (w_entities (j_world (g_querier g)) e) as [ch|] eqn:He; [|rewrite HF, K; reflexivity].
      destruct HF as (o & Ho & ->), K as (o' & Ho' & ->). pose proof (foretold_unique F e ch x s o o' Fs Ho Ho') as E.
      destruct o, o'; cbn [obind option_map] in *; congruence.
    Qed.
    Lemma solved_below (F : book P Q) : solves g l F -> forall n e x s, rank e x s < n -> fits s -> answer (ruled T bs g l) n (RStat e x s) = by_book F (RStat e x s).
    Proof.
      intros HF. induction n as [|n IH]; intros e x s L Fs; [lia|]. rewrite (solves_told F HF e x s Fs). cbn [answer]. apply step_below; [exact Fs|].
      intros e' x' s' L' F'. apply IH; [lia|exact F'].
    Qed.
    Lemma told_ask (F : book P Q) e x s : fits s -> oeval (by_book F) (p_query e x s) = F e x s.
    Proof.
      intros Fs. unfold p_query. cbn [oeval check by_book]. unfold fits in Fs. rewrite Fs. cbn [obind]. destruct (F e x s) as [[v|]| | |]; cbn [obind option_map typed]; try reflexivity.
      unfold buf_into, buf_ref. rewrite Fs. cbn [obind]. rewrite cast_val_same. reflexivity.
    Qed.
    Lemma C87_unique_proof (F G : book P Q) : solves g l F -> solves g l G -> forall e x s, fits s -> F e x s = G e x s.
    Proof.
      intros HF HG e x s Fs. rewrite <- (told_ask F e x s Fs), <- (told_ask G e x s Fs). apply (oeval_same _ _ (fun q => q = RStat e x s)).
      - intros q -> _. rewrite <- (solved_below F HF (S (rank e x s))), <- (solved_below G HG (S (rank e x s))) by (try lia; exact Fs). reflexivity.
      - split; [reflexivity|intros v; exact Logic.I].
    Qed.
    Section N.
      Hypothesis Hn : forall s (h : story s), value_of h <> NoFuel.
      Lemma solved_ends (F : book P Q) : solves g l F -> forall e x s, fits s -> by_book F (RStat e x s) <> NoFuel.
      Proof. intros HF e x s Fs. rewrite <- (solved_below F HF (S (rank e x s)) e x s) by (try lia; exact Fs). apply (answers_end g l rank U Hn Hd); [lia|exact Fs]. Qed.
      Lemma C87_answers_proof (F : book P Q) : solves g l F ->
        forall n A (p : prog P Q A) past, only_asks (fun q => exists e x s, q = RStat e x s /\ rank e x s < n) p -> stops (fun o => o <> NoFuel) p ->
        fst (run (client (ruled T bs g l) n p) (after (ruled T bs g l) past [])) = oeval (by_book F) p.
      Proof.
        intros HF n A p past Ha Hs. set (j := ruled T bs g l). pose proof (ruled_kept bs D T o_size o_align g l U) as Hk. fold j in Hk.
        assert (E : ask j n p = oeval (by_book F) p).
        { unfold ask. apply (oeval_same _ _ (fun q => exists e x s, q = RStat e x s /\ rank e x s < n)); [|exact Ha]. intros q (e & x & s & -> & L) Ec.
          apply solved_below; [exact HF|exact L|exact Ec]. }
        assert (N : ask j n p <> NoFuel).
        { rewrite E. apply (oeval_fuel (by_book F) (fun q => exists e x s, q = RStat e x s /\ rank e x s < n)); [|exact Ha|exact Hs]. intros q (e & x & s & -> & L) Ec. apply solved_ends; [exact HF|exact Ec]. }
        rewrite <- E. destruct (j_cached j) eqn:Hc.
        - destruct (C27_transparent_proof P Q j past n _ p D Hq Hc Hk) as [_ H2]. rewrite client_uncached in H2 by reflexivity. rewrite ask_uncached in H2. apply H2, N.
        - rewrite client_uncached by exact Hc. reflexivity.
      Qed.
      (** The answers at the depth of their rank solve the equations. *)
      Let F0 : book P Q := fun e x s => ask (ruled T bs g l) (S (rank e x s)) (p_query e x s).
      Lemma own_told e x s : fits s -> by_book F0 (RStat e x s) = answer (ruled T bs g l) (S (rank e x s)) (RStat e x s).
      Proof.
        intros Fs. unfold F0. cbn [by_book]. rewrite ask_query by exact Fs. cbn [answer answer1].
        change (w_entities (j_world (ruled T bs g l)) e) with (w_entities (j_world (g_querier g)) e). destruct (w_entities (j_world (g_querier g)) e) as [ch|]; [|reflexivity].
        destruct (ruled_sources bs T o_size o_align g l e ch x U) as (Es & _ & Hg). destruct (ruled_initial bs D T o_size o_align g l s (proj1 U) Fs) as (v0 & Ev0 & Ei).
        rewrite Ei. cbn [obind]. rewrite Es. pose proof (ruled_kept bs D T o_size o_align g l U) as Hk.
        destruct (collect (answer (ruled T bs g l) (rank e x s)) (at_ s v0) (map (fun y => law_stream T bs y e x) (laws_for g l e (or_nil ch)))) as [p| | |] eqn:Ep; try reflexivity.
        destruct (leads_sound OQ bs C D T _ Hq Hk (rank e x s) e x s Fs _ Hg _ _ _ Ev0 Ep) as (k & v' & _ & _ & ->). cbn [obind p_buf]. rewrite cast_val_same. reflexivity.
      Qed.
      Lemma C87_exists_proof : exists F : book P Q, solves g l F.
      Proof.
        exists F0. intros e x s Fs. set (j := ruled T bs g l).
        assert (E : by_book F0 (RStat e x s) = answer1 j (by_book F0) (RStat e x s)).
        { rewrite own_told by exact Fs. cbn [answer]. apply step_below; [exact Fs|]. intros e' x' s' L F'. rewrite own_told by exact F'. apply ole_stop; [apply answer_le; lia|].
          apply (answers_end g l rank U Hn Hd); [lia|exact F']. }
        pose proof (step_told F0 e x s Fs) as K. cbn [by_book] in E.
        destruct (w_entities (j_world (g_querier g)) e) as [ch|] eqn:He.
        - destruct K as (o & Ho & K). exists o. split; [exact Ho|]. rewrite <- (told_ask F0 e x s Fs). unfold p_query. cbn [oeval check by_book]. pose proof Fs as Fs'. unfold fits in Fs'. rewrite Fs'. cbn [obind].
          rewrite E. fold j in K. rewrite K. destruct o as [v| | |]; cbn [obind typed]; try reflexivity. unfold buf_into, buf_ref. rewrite Fs'. cbn [obind]. rewrite cast_val_same. reflexivity.
        - fold j in K. rewrite K in E. destruct (F0 e x s) as [[v|]| | |]; cbn [obind option_map] in E; congruence.
      Qed.
    End N.
  End G.
End L.
