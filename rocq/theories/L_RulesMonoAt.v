(** Proofs: more granted, with rules that ask for other entities. *)
From Coq Require Import ZArith List Bool Sorted Eqdep_dec Lia.
From Verif Require Import M_Outcome M_Value M_Qualifier M_Search M_Stat M_StatMap M_HashMap M_Pair M_Defaults M_Querier
  S_Search S_Pair S_StatMap S_Defaults S_Defaults2 S_Querier S_Totals S_EndToEnd S_Monotone S_MonoQuery S_Rules S_RulesMono S_RulesMonoAt
  L_Outcome L_StatMap L_Querier L_Querier2 L_QueryProofs L_EndToEnd L_EndToEnd2 L_MonoQuery L_Rules L_RulesMono.
Import ListNotations.

Section L.
  Context {P : Prog} {Q : QFlag}.
  Notation VS s := (VT P (vt_value P (si_ty s))).
  Notation story s := (history (VS s)).
  Hypothesis OQ : lawful_ord (q_cmp Q).
  Variable bs : list comparison -> bsres.
  Hypothesis C : bs_contract bs.
  Hypothesis D : distinct_vtables P.
  Variable T : StatTypes P.
  Variables o_size o_align : vty P -> Z.
  Variable O : forall s : inst P, merits (VS s).
  Variable le : forall s : inst P, outT (VS s) -> outT (VS s) -> Prop.
  Variable among : inst P -> Prop.

  Variables (g g' : game P Q) (l l' : list (law P Q)).
  Hypothesis Hq : flags_eq (Q := Q).
  Hypothesis U : lawful_game T bs o_size o_align g l.
  Hypothesis U' : lawful_game T bs o_size o_align g' l'.
  Hypothesis Hpay : pays O le among.
  Variable rank : entity -> qquery Q -> inst P -> nat.
  Hypothesis Hfair : forall r, In (inr r) l -> fair_at O le among rank r.
  Hypothesis Hb : better_off O among g l g' l'.
  Let j := ruled T bs g l.
  Let j' := ruled T bs g' l'.

  Lemma rule_at e ch r : In (inr r) (causes g l e ch) -> fair_at O le among rank r.
  Proof.
    unfold causes. intros Hr. apply in_app_or in Hr as [Hr|Hr]; apply in_map_iff in Hr as (y & E & Hy); [|discriminate].
    destruct y as [p|r']; [discriminate|]. injection E as ->. apply Hfair, Hy.
  Qed.
  Lemma leads_improved_at n e x : (forall e x s past past' r r', among s -> rank e x s < n -> yields j past (p_query_eval e x s) (Some r) -> yields j' past' (p_query_eval e x s) (Some r') -> le s r r') ->
    forall s, among s -> rank e x s < S n -> forall c c', causes_improved O s x c c' -> (forall r, In (inr r) c -> fair_at O le among rank r) ->
    forall h h' k k', improved (O s) h h' -> leads j e x s h c k -> leads j' e x s h' c' k' -> improved (O s) k k'.
  Proof.
    intros IH s Hs L c c' I. induction I as [|m m' c c' A I IHc|m' c c' A I IHc|m c c' A I IHc|r c c' I IHc]; intros Hf h h' k k' Hh Hl Hl'.
    - rewrite (leads_nil _ _ _ _ _ _ Hl), (leads_nil _ _ _ _ _ _ Hl'). exact Hh.
    - apply leads_map in Hl as (hs & Hc & Hl). apply leads_map in Hl' as (hs' & Hc' & Hl').
      refine (IHc (fun r Hr => Hf r (or_intror Hr)) _ _ _ _ _ Hl Hl'). apply aligned_join; [|exact Hh].
      refine (chosen_aligned s eq_refl (O s) x OQ m m' hs hs' _ Hc Hc'). intros q Eq. specialize (A q Eq). unfold has_for.
      destruct (account m s q), (account m' s q); exact A.
    - apply leads_map in Hl' as (hs' & Hc' & Hl'). refine (IHc Hf _ _ _ _ _ Hl Hl').
      refine (aligned_join (O s) [] (map snd hs') _ h h' Hh).
      refine (chosen_aligned s eq_refl (O s) x OQ [] m' [] hs' _ (nothing_chosen s x) Hc'). intros q Eq. specialize (A q Eq). unfold has_for.
      destruct (account m' s q); exact A.
    - apply leads_map in Hl as (hs & Hc & Hl). refine (IHc (fun r Hr => Hf r (or_intror Hr)) _ _ _ _ _ Hl Hl').
      refine (aligned_join (O s) (map snd hs) [] _ h h' Hh).
      refine (chosen_aligned s eq_refl (O s) x OQ m [] hs [] _ Hc (nothing_chosen s x)). intros q Eq. specialize (A q Eq). unfold has_for.
      destruct (account m s q); exact A.
    - assert (Hf' : forall r, In (inr r) c -> fair_at O le among rank r) by (intros r' Hr; apply Hf; right; exact Hr).
      destruct (stat_dec (r_to r) s) as [E|N].
      + destruct (Hf r (or_introl eq_refl)) as (to & from & at_ & f & -> & Af & R & Hm); [rewrite E; exact Hs|]. cbn [follows_if r_to] in E. subst s.
        apply (leads_own _ _ _ (follows_if to from at_ f)) in Hl as (ops & Hy & Hl). apply (leads_own _ _ _ (follows_if to from at_ f)) in Hl' as (ops' & Hy' & Hl').
        refine (IHc Hf' _ _ _ _ _ Hl Hl'). apply ops_applied; [|exact Hh].
        specialize (R e x). cbn [follows_if r_code] in Hy, Hy'. destruct (at_ e x) as [p|] eqn:Ea.
        2: { apply (yields_ask D) in Hy as [m1 Hy]; [|exact Hq|exact (ruled_kept bs D T o_size o_align g l U)]. apply (yields_ask D) in Hy' as [m2 Hy']; [|exact Hq|exact (ruled_kept bs D T o_size o_align g' l' U')].
             cbn in Hy, Hy'. injection Hy as <-. injection Hy' as <-. constructor. }
        specialize (R p eq_refl). change (yields j [] (r_code (follows to from (fun _ _ => p) f) e x) ops) in Hy. change (yields j' [] (r_code (follows to from (fun _ _ => p) f) e x) ops') in Hy'.
        apply (C80_follows_proof bs D T o_size o_align g l) in Hy as (o & Ho & ->); [|exact Hq|exact U]. cbv beta in Ho.
        apply (C80_follows_proof bs D T o_size o_align g' l') in Hy' as (o' & Ho' & ->); [|exact Hq|exact U']. cbv beta in Ho'.
        destruct (answered D _ _ _ _ _ _ Hq (ruled_kept bs D T o_size o_align g l U) Ho) as [_ W]. destruct (answered D _ _ _ _ _ _ Hq (ruled_kept bs D T o_size o_align g' l' U') Ho') as [_ W'].
        pose proof (proj2 Hb (fst p)) as B.
        change (w_entities (j_world (ruled T bs g l)) (fst p)) with (w_entities (j_world (g_querier g)) (fst p)) in W.
        change (w_entities (j_world (ruled T bs g' l')) (fst p)) with (w_entities (j_world (g_querier g')) (fst p)) in W'.
        destruct (w_entities (j_world (g_querier g)) (fst p)), (w_entities (j_world (g_querier g')) (fst p)); try contradiction.
        * destruct o as [r|]; [|discriminate (proj1 W eq_refl)]. destruct o' as [r'|]; [|discriminate (proj1 W' eq_refl)].
          apply Hm. apply (IH (fst p) (snd p) from [] []); [exact Af|lia|exact Ho|exact Ho'].
        * rewrite (proj2 W eq_refl), (proj2 W' eq_refl). constructor.
      + apply leads_foreign in Hl; [|exact N]. apply leads_foreign in Hl'; [|exact N]. exact (IHc Hf' _ _ _ _ Hh Hl Hl').
  Qed.
  Lemma C81_more_at_proof e x s past past' r r' : among s ->
    yields j past (p_query_eval e x s) (Some r) -> yields j' past' (p_query_eval e x s) (Some r') -> le s r r'.
  Proof.
    assert (K : forall n e x s past past' r r', among s -> rank e x s < n -> yields j past (p_query_eval e x s) (Some r) -> yields j' past' (p_query_eval e x s) (Some r') -> le s r r').
    { clear e x s past past' r r'. induction n as [|n IH]; intros e x s past past' r r' Hs L Hy Hy'; [lia|].
      destruct (answered D _ _ _ _ _ _ Hq (ruled_kept bs D T o_size o_align g l U) Hy) as [F W].
      destruct (answered D _ _ _ _ _ _ Hq (ruled_kept bs D T o_size o_align g' l' U') Hy') as [_ W'].
      pose proof (proj2 Hb e) as B.
      change (w_entities (j_world (ruled T bs g l)) e) with (w_entities (j_world (g_querier g)) e) in W.
      change (w_entities (j_world (ruled T bs g' l')) e) with (w_entities (j_world (g_querier g')) e) in W'.
      destruct (w_entities (j_world (g_querier g)) e) as [ch|] eqn:He; [|discriminate (proj2 W eq_refl)].
      destruct (w_entities (j_world (g_querier g')) e) as [ch'|] eqn:He'; [|discriminate (proj2 W' eq_refl)].
      apply (C80_eval_proof OQ bs C D T o_size o_align g l e ch x s past r Hq U F He) in Hy as (k & Hl & Hw).
      apply (C80_eval_proof OQ bs C D T o_size o_align g' l' e ch' x s past' r' Hq U' F He') in Hy' as (k' & Hl' & Hw').
      refine (Hpay s Hs k k' r r' _ Hw Hw').
      refine (leads_improved_at n e x IH s Hs L _ _ (B x s Hs) _ _ _ _ _ _ Hl Hl'); [apply rule_at|apply (proj1 Hb), Hs]. }
    intros Hs. apply (K (S (rank e x s))); [exact Hs|lia].
  Qed.
End L.

From Verif Require Import M_Ints M_Types S_Types L_Monotone.
Lemma C81_StatInt_at_proof : forall (P : Prog) (Q : QFlag) (bs : list comparison -> bsres) (T : StatTypes P) (o_size o_align : vty P -> Z),
  bs_contract bs -> distinct_vtables P -> lawful_ord (q_cmp Q) -> flags_eq (Q := Q) ->
  forall oc I (E : forall s : inst P, VT P (vt_value P (si_ty s)) = statInt oc I), keeps_order oc I ->
  forall (g g' : game P Q) l l' (rank : entity -> qquery Q -> inst P -> nat) (among : inst P -> Prop),
  let O := fun s => merits_as (E s) (int_merits false oc I) in
  let le := fun s r r' => (result_as (E s) r <= result_as (E s) r')%Z in
  lawful_game T bs o_size o_align g l -> lawful_game T bs o_size o_align g' l' ->
  (forall r, In (inr r) l -> fair_at O le among rank r) -> better_off O among g l g' l' ->
  forall e x s past past' r r', among s ->
  yields (ruled T bs g l) past (p_query_eval e x s) (Some r) -> yields (ruled T bs g' l') past' (p_query_eval e x s) (Some r') ->
  (result_as (E s) r <= result_as (E s) r')%Z.
Proof.
  intros P Q bs T o_size o_align C D OQ Hq oc I E K g g' l l' rank among O le U U' Hf Hb e x s past past' r r' Hs Hy Hy'.
  refine (C81_more_at_proof OQ bs C D T o_size o_align O le among g g' l l' Hq U U' _ rank Hf Hb e x s past past' r r' Hs Hy Hy').
  intros s0 _ h k r0 r0'. apply as_pays. intros h' k' a b Hi Ha Hw. pose proof Ha as Ha'. unfold worth in Ha. apply obind_inv in Ha as (v & Ev & _).
  exact (C75_StatInt_proof false oc I h' k' v a b K Hi Ev (fun F => False_ind _ (Bool.diff_false_true F)) Ha' Hw).
Qed.
