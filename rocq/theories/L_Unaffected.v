(** Proofs: maps and rules that have nothing to do with some questions. *)
From Coq Require Import ZArith List Bool Sorted Eqdep_dec Lia.
From Verif Require Import M_Outcome M_Value M_Qualifier M_Search M_Stat M_StatMap M_HashMap M_Pair M_Defaults M_Querier
  S_Search S_Pair S_StatMap S_Defaults S_Defaults2 S_Querier S_Totals S_EndToEnd S_Rules S_Unaffected
  L_Outcome L_StatMap L_Querier L_Querier2 L_QueryProofs L_CacheProofs L_EndToEnd L_EndToEnd2 L_MonoQuery L_Rules.
Import ListNotations.

Section L.
  Context {P : Prog} {Q : QFlag}.
  Notation VS s := (VT P (vt_value P (si_ty s))).
  Notation story s := (history (VS s)).
  Notation at_ s v := (Pair s (Buf (vt_value P (si_ty s)) v)).
  Hypothesis OQ : lawful_ord (q_cmp Q).
  Variable bs : list comparison -> bsres.
  Hypothesis C : bs_contract bs.
  Hypothesis D : distinct_vtables P.
  Variable T : StatTypes P.
  Variables o_size o_align : vty P -> Z.
  Hypothesis Hq : flags_eq (Q := Q).
  Variable among : entity -> qquery Q -> inst P -> Prop.

  Lemma oeval_same (h h' : forall r : request P Q, outcome (raw r)) (R : request P Q -> Prop) :
    (forall q, R q -> check q = Done tt -> h q = h' q) -> forall A (p : prog P Q A), only_asks R p -> oeval h p = oeval h' p.
  Proof.
    intros H A p. induction p as [b|o|q k IH|k IH]; cbn [only_asks oeval]; intros Ho; try reflexivity.
    - destruct Ho as [Hr Ho]. destruct (check q) as [[]| | |] eqn:Ec; try reflexivity. cbn [obind]. rewrite (H q Hr Ec).
      apply obind_ext. intros o. apply obind_ext. intros v. apply IH, Ho.
    - apply IH, Ho.
  Qed.
  Lemma collect_step h p f l : collect (P := P) (Q := Q) h p (f :: l) = let! p' := oeval h (f p) in collect h p' l.
  Proof. reflexivity. Qed.
  Lemma none_chosen (s : inst P) (x : qquery Q) m hs : (forall q, qualifies_as q x = true -> account m s q = None) -> chosen s x m hs -> hs = [].
  Proof.
    intros H Hc. eapply (chosen_unique OQ); [|exact Hc|apply nothing_chosen]. intros q Eq. rewrite (H q Eq). reflexivity.
  Qed.
  Lemma collect_alike h h' e x s : (forall q, looked_at among q -> check q = Done tt -> h q = h' q) -> among e x s -> fits s ->
    forall c c', alike_for x s c c' -> forall ls ls', c = map (cause_of (P := P) (Q := Q)) ls -> c' = map cause_of ls' ->
    Forall (good_law bs T) ls -> Forall (good_law bs T) ls' -> (forall r, In (inr r) ls \/ In (inr r) ls' -> self_contained among r) ->
    forall (k : story s) v, value_of k = Done v ->
    collect h (at_ s v) (map (fun y => law_stream T bs y e x) ls) = collect h' (at_ s v) (map (fun y => law_stream T bs y e x) ls').
  Proof.
    intros Hh Hs F c c' A.
    assert (M : forall h m lg hs (k : story s) v, logged bs m lg -> chosen s x lg hs -> value_of k = Done v ->
      oeval h (everywhere bs m e x (at_ s v)) = let! v1 := value_of (fold_left Joined (map snd hs) k) in Done (at_ s v1)).
    { intros h0 m lg hs k v Hl Hc Ev. destruct (logged_stream OQ bs C D m lg x s Hl F) as (hs' & Hc' & Hst). unfold everywhere. rewrite oeval_of_outcome, (Hst k v Ev).
      assert (hs' = hs) by (eapply (chosen_unique OQ); [reflexivity|exact Hc'|exact Hc]). subst hs'. reflexivity. }
    induction A as [|m m' c c' E A IH|r c c' A IH|m c c' E A IH|m c c' E A IH|r c c' N A IH|r c c' N A IH]; intros ls ls' El El' Hl Hl' Hr k v Ev.
    - destruct ls; [|discriminate El]. destruct ls'; [|discriminate El']. reflexivity.
    - destruct ls as [|[p|] ls]; try discriminate El. destruct ls' as [|[p'|] ls']; try discriminate El'. cbn [map cause_of] in El, El'. injection El as -> ->. injection El' as -> ->.
      inversion Hl as [|? ? Hy Hl1]; subst. inversion Hl' as [|? ? Hy' Hl1']; subst. cbn [good_law] in Hy, Hy'. cbn [map law_stream]. rewrite !collect_step.
      destruct (logged_stream OQ bs C D (fst p) (snd p) x s Hy F) as (hs & Hc & _). destruct (logged_stream OQ bs C D (fst p') (snd p') x s Hy' F) as (hs' & Hc' & _).
      assert (hs' = hs) by (eapply (chosen_unique OQ); [|exact Hc'|exact Hc]; intros q Eq; symmetry; apply E, Eq). subst hs'.
      rewrite (M h _ _ _ _ _ Hy Hc Ev), (M h' _ _ _ _ _ Hy' Hc' Ev). destruct (value_of (fold_left Joined (map snd hs) k)) as [v1| | |] eqn:E1; try reflexivity.
      cbn [obind]. refine (IH ls ls' eq_refl eq_refl Hl1 Hl1' _ _ v1 E1). intros r [Hi|Hi]; apply Hr; [left|right]; right; exact Hi.
    - destruct ls as [|[|r1] ls]; try discriminate El. destruct ls' as [|[|r2] ls']; try discriminate El'. cbn [map cause_of] in El, El'. injection El as -> ->. injection El' as -> ->.
      inversion Hl as [|? ? Hy Hl1]; subst. inversion Hl' as [|? ? Hy' Hl1']; subst. cbn [good_law] in Hy, Hy'. cbn [map law_stream]. rewrite !collect_step.
      assert (Hr1 : forall r, In (inr r) ls \/ In (inr r) ls' -> self_contained among r) by (intros r [Hi|Hi]; apply Hr; [left|right]; right; exact Hi).
      destruct (stat_dec (r_to r2) s) as [Es|Ns].
      + subst s. rewrite !(rule_same D) by assumption. rewrite (oeval_same h h' (looked_at among) Hh _ (r_code r2 e x)) by (apply Hr; [left; left; reflexivity|exact Hs]).
        destruct (oeval h' (r_code r2 e x)) as [ops| | |]; try reflexivity. cbn [obind]. rewrite <- (applied_values (r_to r2) ops k v Ev).
        destruct (value_of (fold_left Applied ops k)) as [v1| | |] eqn:E1; try reflexivity. cbn [obind].
        exact (IH ls ls' eq_refl eq_refl Hl1 Hl1' Hr1 _ v1 E1).
      + rewrite !(rule_other D) by assumption. cbn [obind]. exact (IH ls ls' eq_refl eq_refl Hl1 Hl1' Hr1 _ v Ev).
    - destruct ls as [|[p|] ls]; try discriminate El. cbn [map cause_of] in El. injection El as -> ->.
      inversion Hl as [|? ? Hy Hl1]; subst. cbn [good_law] in Hy. cbn [map law_stream]. rewrite collect_step.
      destruct (logged_stream OQ bs C D (fst p) (snd p) x s Hy F) as (hs & Hc & _). rewrite (M h _ _ _ _ _ Hy Hc Ev), (none_chosen s x _ _ E Hc). cbn [map fold_left]. rewrite Ev. cbn [obind].
      refine (IH ls ls' eq_refl eq_refl Hl1 Hl' _ _ v Ev). intros r [Hi|Hi]; apply Hr; [left; right|right]; exact Hi.
    - destruct ls' as [|[p|] ls']; try discriminate El'. cbn [map cause_of] in El'. injection El' as -> ->.
      inversion Hl' as [|? ? Hy Hl1]; subst. cbn [good_law] in Hy. cbn [map law_stream]. rewrite (collect_step h').
      destruct (logged_stream OQ bs C D (fst p) (snd p) x s Hy F) as (hs & Hc & _). rewrite (M h' _ _ _ _ _ Hy Hc Ev), (none_chosen s x _ _ E Hc). cbn [map fold_left]. rewrite Ev. cbn [obind].
      refine (IH ls ls' eq_refl eq_refl Hl Hl1 _ _ v Ev). intros r [Hi|Hi]; apply Hr; [left|right; right]; exact Hi.
    - destruct ls as [|[|r1] ls]; try discriminate El. cbn [map cause_of] in El. injection El as -> ->.
      inversion Hl as [|? ? Hy Hl1]; subst. cbn [good_law] in Hy. cbn [map law_stream]. rewrite collect_step, (rule_other D) by (try assumption; congruence). cbn [obind].
      refine (IH ls ls' eq_refl eq_refl Hl1 Hl' _ _ v Ev). intros r [Hi|Hi]; apply Hr; [left; right|right]; exact Hi.
    - destruct ls' as [|[|r1] ls']; try discriminate El'. cbn [map cause_of] in El'. injection El' as -> ->.
      inversion Hl' as [|? ? Hy Hl1]; subst. cbn [good_law] in Hy. cbn [map law_stream]. rewrite (collect_step h'), (rule_other D) by (try assumption; congruence). cbn [obind].
      refine (IH ls ls' eq_refl eq_refl Hl Hl1 _ _ v Ev). intros r [Hi|Hi]; apply Hr; [left|right; right]; exact Hi.
  Qed.

  Lemma laws_rule (g : game P Q) l e ch r : In (inr r) (laws_for g l e ch) -> In (inr r) l.
  Proof.
    unfold laws_for. intros Hr. apply in_app_or in Hr as [Hr|Hr]; [exact Hr|]. apply in_map_iff in Hr as (y & E & _). discriminate.
  Qed.
  Lemma answers_same (g g' : game P Q) l l' : lawful_game T bs o_size o_align g l -> lawful_game T bs o_size o_align g' l' -> unaffected among g l g' l' ->
    (forall r, In (inr r) l \/ In (inr r) l' -> self_contained among r) ->
    forall n q, looked_at among q -> check q = Done tt -> answer (ruled T bs g l) n q = answer (ruled T bs g' l') n q.
  Proof.
    intros U U' Hu Hr. induction n as [|n IH]; intros q Ha Ec; [reflexivity|]. destruct q as [e x s|e1 e2 x s|e a]; try contradiction. cbn [looked_at] in Ha.
    cbn [answer answer1]. destruct (Hu e x s Ha) as [Hst Hc].
    change (w_entities (j_world (ruled T bs g l)) e) with (w_entities (j_world (g_querier g)) e). change (w_entities (j_world (ruled T bs g' l')) e) with (w_entities (j_world (g_querier g')) e).
    destruct (w_entities (j_world (g_querier g)) e) as [ch|]; destruct (w_entities (j_world (g_querier g')) e) as [ch'|]; try contradiction; [|reflexivity].
    assert (F : fits s) by exact Ec.
    destruct (ruled_initial bs D T o_size o_align g l s (proj1 U) F) as (v0 & Ev0 & Ei). destruct (ruled_initial bs D T o_size o_align g' l' s (proj1 U') F) as (v0' & Ev0' & Ei').
    assert (v0' = v0).
    { unfold starting in Hst. unfold dlog in *. rewrite Hst in Ev0. congruence. }
    subst v0'. rewrite Ei, Ei'. cbn [obind].
    destruct (ruled_sources bs T o_size o_align g l e ch x U) as (Es & Ecs & Hg). destruct (ruled_sources bs T o_size o_align g' l' e ch' x U') as (Es' & Ecs' & Hg').
    rewrite Es, Es'. f_equal. rewrite Ecs, Ecs' in Hc.
    rewrite (collect_alike (answer (ruled T bs g l) n) (answer (ruled T bs g' l') n) e x s IH Ha F _ _ Hc (laws_for g l e (or_nil ch)) (laws_for g' l' e (or_nil ch')) eq_refl eq_refl Hg Hg') with (k := start (dlog g) s); [reflexivity| |exact Ev0].
    intros r [Hi|Hi]; apply Hr; [left|right]; exact (laws_rule _ _ _ _ _ Hi).
  Qed.
  Lemma ends_ask (j : joined P Q) past {A} (p : prog P Q A) o : stats_kept j -> (ends j past p o <-> o <> NoFuel /\ exists n, ask j n p = o).
  Proof.
    intros Hk. assert (Eu : forall n, fst (run (client (uncached j) n p) []) = ask j n p) by (intros n; rewrite client_uncached by reflexivity; apply ask_uncached).
    unfold ends. destruct (j_cached j) eqn:Hc.
    - split; intros [N [n En]]; (split; [exact N|]); destruct (C27_transparent_proof P Q j past n _ p D Hq Hc Hk) as [H1 H2]; rewrite Eu in H2.
      + rewrite En in H1. destruct H1 as [m Em]; [exact N|]. rewrite Eu in Em. eauto.
      + exists n. rewrite H2; [exact En|rewrite En; exact N].
    - rewrite after_same by exact Hc. split; intros [N [n En]]; (split; [exact N|]); exists n; rewrite client_uncached in * by exact Hc; exact En.
  Qed.
  Lemma C83_unaffected_proof (g g' : game P Q) l l' : lawful_game T bs o_size o_align g l -> lawful_game T bs o_size o_align g' l' -> unaffected among g l g' l' ->
    (forall r, In (inr r) l \/ In (inr r) l' -> self_contained among r) ->
    forall A (p : prog P Q A) past past' o, only_asks (looked_at among) p -> (ends (ruled T bs g l) past p o <-> ends (ruled T bs g' l') past' p o).
  Proof.
    intros U U' H Hr A p past past' o Ha. rewrite (ends_ask _ past) by (apply (ruled_kept bs D T o_size o_align), U). rewrite (ends_ask _ past') by (apply (ruled_kept bs D T o_size o_align), U').
    assert (E : forall n, ask (ruled T bs g l) n p = ask (ruled T bs g' l') n p).
    { intros n. unfold ask. apply (oeval_same _ _ (looked_at among)); [|exact Ha]. apply answers_same; assumption. }
    split; intros [N [n En]]; (split; [exact N|]); exists n; [rewrite <- E|rewrite E]; exact En.
  Qed.
End L.
