(** Proofs: how deep queries go inside queries. *)
From Coq Require Import ZArith List Bool Lia.
From Verif Require Import M_Outcome M_Value M_Qualifier M_Search M_Stat M_StatMap M_HashMap M_Pair M_Defaults M_Querier
  S_Search S_Pair S_StatMap S_Defaults S_Defaults2 S_Querier S_Totals S_EndToEnd S_Rules
  L_Outcome L_StatMap L_Querier L_Querier2 L_QueryProofs L_CacheProofs L_EndToEnd L_EndToEnd2 L_MonoQuery L_Rules.
Import ListNotations.

Section L.
  Context {P : Prog} {Q : QFlag}.
  Notation VS s := (VT P (vt_value P (si_ty s))).
  Notation story s := (history (VS s)).
  Notation at_ s v := (Pair s (Buf (vt_value P (si_ty s)) v)).
  Hypothesis OQ : lawful_ord (q_cmp Q).
  Variable bs : list comparison -> bsres.
  Hypothesis C : bs_contract bs.
  Hypothesis D : distinct_vtables P.
  Variable T : StatTypes P.
  Variables o_size o_align : vty P -> Z.
  Hypothesis Hq : flags_eq (Q := Q).

  Lemma oeval_fuel (h : forall r : request P Q, outcome (raw r)) (R : request P Q -> Prop) :
    (forall q, R q -> check q = Done tt -> h q <> NoFuel) ->
    forall A (p : prog P Q A), only_asks R p -> stops (fun o => o <> NoFuel) p -> oeval h p <> NoFuel.
  Proof.
    intros H A p. induction p as [b|o|q k IH|k IH]; cbn [only_asks stops oeval]; intros Ho Hs.
    - discriminate.
    - destruct o as [[]| | |]; cbn; congruence.
    - destruct Ho as [Hr Ho]. destruct (check_cases q) as [Ec|[pp Ec]]; rewrite Ec; cbn [obind]; [|discriminate].
      specialize (H q Hr Ec). destruct (h q) as [o| | |]; cbn [obind]; try congruence; try discriminate.
      pose proof (typed_fuel q o Ec). destruct (M_Querier.typed q o) as [v| | |]; cbn [obind]; try congruence; try discriminate. apply IH; [apply Ho|apply Hs].
    - apply IH; [exact Ho|apply Hs].
  Qed.
  Lemma collect_fuel (h : forall r : request P Q, outcome (raw r)) (rank : inst P -> nat) : (forall s (k : story s), value_of k <> NoFuel) ->
    forall e x s, fits s -> (forall e' x' s', rank s' < rank s -> fits s' -> h (RStat e' x' s') <> NoFuel) ->
    forall ls, Forall (good_law bs T) ls -> (forall r, In (inr r) ls -> descends rank r) -> forall (k : story s) v, value_of k = Done v ->
    collect h (at_ s v) (map (fun y => law_stream T bs y e x) ls) <> NoFuel.
  Proof.
    intros Hn e x s F Ht ls Hl. induction Hl as [|y ls Hy Hl IH]; intros Hd k v Ev; [discriminate|].
    assert (Hd' : forall r, In (inr r) ls -> descends rank r) by (intros r Hr; apply Hd; right; exact Hr). specialize (IH Hd'). unfold collect in *. cbn [map ofold].
    destruct y as [p|r]; cbn [law_stream good_law] in *.
    - destruct (logged_stream OQ bs C D (fst p) (snd p) x s Hy F) as (hs & _ & Hst). specialize (Hst k v Ev). unfold everywhere. rewrite oeval_of_outcome, Hst.
      pose proof (Hn s (fold_left Joined (map snd hs) k)) as N. destruct (value_of (fold_left Joined (map snd hs) k)) as [v1| | |] eqn:E1; cbn [obind]; try congruence; try discriminate.
      exact (IH _ _ E1).
    - destruct (stat_dec (r_to r) s) as [E|N]; [|rewrite (rule_other D) by assumption; exact (IH _ _ Ev)].
      subst s. destruct (Hd r (or_introl eq_refl) e x) as [Ha Hs]. rewrite (rule_same D) by assumption.
      assert (N : oeval h (r_code r e x) <> NoFuel).
      { apply oeval_fuel with (2 := Ha); [|exact Hs]. intros q (e' & x' & s' & -> & L) Ec. apply Ht; [exact L|exact Ec]. }
      destruct (oeval h (r_code r e x)) as [ops| | |]; cbn [obind]; try congruence; try discriminate.
      rewrite <- (applied_values _ ops k v Ev). pose proof (Hn _ (fold_left Applied ops k)) as N'.
      destruct (value_of (fold_left Applied ops k)) as [v1| | |] eqn:E1; cbn [obind]; try congruence; try discriminate. exact (IH _ _ E1).
  Qed.
  Lemma answers_fuel (g : game P Q) l (rank : inst P -> nat) : lawful_game T bs o_size o_align g l -> (forall s (h : story s), value_of h <> NoFuel) ->
    (forall r, In (inr r) l -> descends rank r) -> forall n e x s, rank s < n -> fits s -> answer (ruled T bs g l) n (RStat e x s) <> NoFuel.
  Proof.
    intros U Hn Hd. induction n as [|n IH]; intros e x s L F; [lia|]. cbn [answer answer1].
    destruct (w_entities (j_world (ruled T bs g l)) e) as [ch|] eqn:He; [|discriminate].
    destruct (ruled_sources bs T o_size o_align g l e ch x U) as (Es & _ & Hg). destruct (ruled_initial bs D T o_size o_align g l s (proj1 U) F) as (v0 & Ev0 & Ei).
    rewrite Ei. cbn [obind]. rewrite Es.
    pose proof (collect_fuel (answer (ruled T bs g l) n) rank Hn e x s F) as K.
    specialize (K ltac:(intros e' x' s' L' F'; apply IH; [lia|exact F']) (laws_for g l e (or_nil ch)) Hg).
    specialize (K ltac:(intros r Hr; apply in_app_or in Hr as [Hr|Hr]; [apply Hd, Hr|apply in_map_iff in Hr as (p & E & _); discriminate]) _ _ Ev0).
    destruct (collect _ _ _); cbn [obind]; try discriminate. congruence.
  Qed.
  Lemma C84_depth_proof (g : game P Q) l (rank : inst P -> nat) : lawful_game T bs o_size o_align g l -> (forall s (h : story s), value_of h <> NoFuel) ->
    (forall r, In (inr r) l -> descends rank r) ->
    forall n A (p : prog P Q A) past, only_asks (fun q => exists e x s, q = RStat e x s /\ rank s < n) p -> stops (fun o => o <> NoFuel) p ->
    fst (run (client (ruled T bs g l) n p) (after (ruled T bs g l) past [])) <> NoFuel /\
    forall m past', n <= m -> fst (run (client (ruled T bs g l) m p) (after (ruled T bs g l) past' [])) = fst (run (client (ruled T bs g l) n p) (after (ruled T bs g l) past [])).
  Proof.
    intros U Hn Hd n A p past Ha Hs. set (j := ruled T bs g l). pose proof (ruled_kept bs D T o_size o_align g l U) as Hk. fold j in Hk.
    assert (N : ask j n p <> NoFuel).
    { unfold ask. apply oeval_fuel with (2 := Ha); [|exact Hs]. intros q (e & x & s & -> & L) Ec. apply (answers_fuel g l rank U Hn Hd); [exact L|exact Ec]. }
    assert (E : forall m past', n <= m -> fst (run (client j m p) (after j past' [])) = ask j n p).
    { intros m past' L. assert (Em : ask j m p = ask j n p).
      { apply ole_stop; [|exact N]. apply oeval_mono. intros q. apply answer_le, L. }
      rewrite <- Em in N |- *. destruct (j_cached j) eqn:Hc.
      - destruct (C27_transparent_proof P Q j past' m _ p D Hq Hc Hk) as [_ H2]. rewrite client_uncached in H2 by reflexivity. rewrite ask_uncached in H2.
        apply H2, N.
      - rewrite client_uncached by exact Hc. reflexivity. }
    rewrite (E n past (le_n _)). split; [exact N|]. intros m past' L. exact (E m past' L).
  Qed.
End L.
