(** Proofs: an entity that more was granted to answers no less. *)
From Coq Require Import ZArith List Bool Sorted Lia.
From Verif Require Import S_Types L_Ints.
From Verif Require Import M_Outcome M_Ints M_Ratio M_Float M_Value M_Types M_Qualifier M_Search M_Stat M_StatMap M_HashMap M_Pair M_Defaults M_Querier
  S_Ratio S_Search S_Pair S_StatMap S_Defaults S_Querier S_Totals S_EndToEnd S_Monotone S_MonoQuery
  L_Outcome L_StatMap L_QueryProofs L_Totals L_Totals2 L_EndToEnd L_EndToEnd2 L_Monotone.
Import ListNotations.
Local Open Scope Z_scope.

Lemma two_nil {A B} {R : A -> B -> Prop} {m} : Forall2 R [] m -> m = [].
Proof. inversion 1. reflexivity. Qed.
Lemma two_cons {A B} {R : A -> B -> Prop} {a l m} : Forall2 R (a :: l) m -> exists b m', m = b :: m' /\ R a b /\ Forall2 R l m'.
Proof. inversion 1; subst. eauto. Qed.

Section Lists.
  Context {S : StatValue} (O : merits S).
  Inductive aligned : list (history S) -> list (history S) -> Prop :=
  | al_nil : aligned [] []
  | al_both h k l m : improved O h k -> aligned l m -> aligned (h :: l) (k :: m)
  | al_more k l m : improved O FromDefault k -> aligned l m -> aligned l (k :: m)
  | al_less h l m : improved O h FromDefault -> aligned l m -> aligned (h :: l) m.
  Lemma aligned_join l m : aligned l m -> forall h k, improved O h k -> improved O (fold_left Joined l h) (fold_left Joined m k).
  Proof.
    induction 1 as [|h k l m I A IH|k l m I A IH|h l m I A IH]; intros a b H; cbn [fold_left]; [exact H|apply IH..].
    - apply im_join; assumption.
    - apply im_joined; assumption.
    - apply im_unjoined; assumption.
  Qed.
  Lemma aligned_app l m l' m' : aligned l m -> aligned l' m' -> aligned (l ++ l') (m ++ m').
  Proof. intros A B. induction A; cbn [app]; [exact B|..]; constructor; assumption. Qed.
End Lists.

Section Q.
  Context {P : Prog} {Q : QFlag} {S : StatValue}.
  Variables (s : inst P) (E : VT P (vt_value P (si_ty s)) = S) (O : merits S) (x : qquery Q).
  Hypothesis OQ : lawful_ord (q_cmp Q).
  Notation item := (qualifier Q * history (VT P (vt_value P (si_ty s))))%type.
  Notation shown := (fun p : item => seen_as E (snd p)).

  Lemma merge (hs hs' : list item) :
    StronglySorted (fun a b => qual_cmp (fst a) (fst b) = Lt) hs -> StronglySorted (fun a b => qual_cmp (fst a) (fst b) = Lt) hs' ->
    (forall q h, In (q, h) hs -> (exists k, In (q, k) hs' /\ improved O (seen_as E h) (seen_as E k)) \/
       (forall k, ~ In (q, k) hs') /\ improved O (seen_as E h) FromDefault) ->
    (forall q k, In (q, k) hs' -> (exists h, In (q, h) hs) \/ improved O FromDefault (seen_as E k)) ->
    aligned O (map shown hs) (map shown hs').
  Proof.
    assert (irr : forall q, qual_cmp (Q := Q) q q <> Lt) by (intros q; rewrite (proj2 (lo_eq _ (qual_ord Q OQ) q q) eq_refl); discriminate).
    assert (asym : forall a b, qual_cmp (Q := Q) a b = Lt -> qual_cmp b a = Lt -> False).
    { intros a b A B. apply (irr a). exact (lo_trans _ (qual_ord Q OQ) _ _ _ A B). }
    intros S1. revert hs'. induction S1 as [|[q h] hs S1 IH Ha].
    - intros hs' S2 A B. clear A S2. induction hs' as [|[q k] hs' IH]; cbn [map]; [constructor|].
      constructor; [|apply IH; intros q' k' I; apply B; right; exact I].
      destruct (B q k (or_introl eq_refl)) as [[h []]|I]. exact I.
    - intros hs' S2. induction S2 as [|[q' k] hs' S2 IH2 Hb].
      + intros A B. cbn [map]. constructor.
        * destruct (A q h (or_introl eq_refl)) as [[k [[] _]]|[_ I]]. exact I.
        * apply (IH []); [constructor|intros q' h' I; apply A; right; exact I|intros q' k' []].
      + intros A B. rewrite Forall_forall in Ha, Hb. destruct (qual_cmp q q') eqn:C.
        * apply (lo_eq _ (qual_ord Q OQ)) in C. subst q'. cbn [map].
          assert (I : improved O (seen_as E h) (seen_as E k)).
          { destruct (A q h (or_introl eq_refl)) as [(k' & [Ek|Ik] & I)|[N _]].
            - injection Ek as <-. exact I.
            - destruct (irr q). exact (Hb _ Ik).
            - destruct (N k (or_introl eq_refl)). }
          apply al_both; [exact I|]. apply IH; [exact S2|..].
          -- intros q' h' I'. destruct (A q' h' (or_intror I')) as [(k' & [Ek|Ik] & I2)|[N I2]].
             ++ injection Ek as -> _. destruct (irr q'). exact (Ha _ I').
             ++ left. eauto.
             ++ right. split; [|exact I2]. intros k' I3. apply (N k'). right. exact I3.
          -- intros q' k' I'. destruct (B q' k' (or_intror I')) as [[h' [Eh|Ih]]|I2]; [|left; eauto|right; exact I2].
             injection Eh as -> _. destruct (irr q'). exact (Hb _ I').
        * cbn [map]. apply al_less.
          -- destruct (A q h (or_introl eq_refl)) as [(k' & [Ek|Ik] & I)|[_ I]]; [|exfalso|exact I].
             ++ injection Ek as -> _. rewrite (proj2 (lo_eq _ (qual_ord Q OQ) q q) eq_refl) in C. discriminate.
             ++ exact (asym _ _ C (Hb _ Ik)).
          -- apply (IH ((q', k) :: hs')); [constructor; [exact S2|apply Forall_forall; exact Hb]|intros q1 h1 I1; apply A; right; exact I1|].
             intros q1 k1 I1. destruct (B q1 k1 I1) as [[h' [Eh|Ih]]|I2]; [|left; eauto|right; exact I2].
             injection Eh as -> _. destruct I1 as [E1|I1].
             ++ injection E1 as -> _. rewrite (proj2 (lo_eq _ (qual_ord Q OQ) q1 q1) eq_refl) in C. discriminate.
             ++ exfalso. exact (asym _ _ C (Hb _ I1)).
        * assert (C' : qual_cmp q' q = Lt).
          { rewrite (lo_anti _ (qual_ord Q OQ) q q'), C. reflexivity. }
          cbn [map]. apply al_more.
          -- destruct (B q' k (or_introl eq_refl)) as [[h' [Eh|Ih]]|I2]; [exfalso|exfalso|exact I2].
             ++ injection Eh as -> _. destruct (irr q'). exact C'.
             ++ exact (asym _ _ C' (Ha _ Ih)).
          -- apply IH2.
             ++ intros q1 h1 I1. destruct (A q1 h1 I1) as [(k' & [Ek|Ik] & I)|[N I2]].
                ** injection Ek as -> _. exfalso. destruct I1 as [E1|I1].
                   --- injection E1 as -> _. exact (irr q1 C').
                   --- exact (asym _ _ C' (Ha _ I1)).
                ** left. eauto.
                ** right. split; [|exact I2]. intros k' I3. apply (N k'). right. exact I3.
             ++ intros q1 k1 I1. apply B. right. exact I1.
  Qed.
  Lemma chosen_aligned l l' hs hs' : (forall q, qualifies_as q x = true -> entry_improved O (has_for s E l q) (has_for s E l' q)) ->
    chosen s x l hs -> chosen s x l' hs' -> aligned O (map shown hs) (map shown hs').
  Proof.
    intros A [S1 I1] [S2 I2]. apply merge; [exact S1|exact S2|..].
    - intros q h I. apply I1 in I. destruct I as [Al Qq]. specialize (A q Qq). unfold has_for in A. rewrite Al in A.
      destruct (account l' s q) as [k|] eqn:Al'; cbn in A.
      + left. exists k. split; [apply I2; auto|exact A].
      + right. split; [|exact A]. intros k I. apply I2 in I. destruct I as [I _]. congruence.
    - intros q k I. apply I2 in I. destruct I as [Al Qq]. specialize (A q Qq). unfold has_for in A. rewrite Al in A.
      destruct (account l s q) as [h|] eqn:Al'; cbn in A.
      + left. exists h. apply I1. auto.
      + right. exact A.
  Qed.
  Lemma nothing_chosen : chosen s x (@nil (edit P Q)) [].
  Proof. split; [constructor|]. intros q h. cbn. split; [intros []|intros [H _]; discriminate]. Qed.

  Lemma logs_aligned ll ll' sel sel' : logs_improved s E O x ll ll' ->
    Forall2 (chosen s x) ll sel -> Forall2 (chosen s x) ll' sel' -> aligned O (map shown (concat sel)) (map shown (concat sel')).
  Proof.
    intros L. revert sel sel'. induction L as [|l l' ll ll' A L IH|l' ll ll' A L IH|l ll ll' A L IH]; intros sel sel' F F'.
    - rewrite (two_nil F), (two_nil F'). constructor.
    - destruct (two_cons F) as (hs & sel1 & -> & R & F1), (two_cons F') as (hs' & sel1' & -> & R' & F1').
      cbn [concat]. rewrite !map_app. apply aligned_app; [exact (chosen_aligned l l' hs hs' A R R')|apply IH; assumption].
    - destruct (two_cons F') as (hs' & sel1' & -> & R' & F1').
      cbn [concat]. rewrite !map_app. apply (aligned_app O []); [|apply IH; assumption].
      exact (chosen_aligned [] l' [] hs' A nothing_chosen R').
    - destruct (two_cons F) as (hs & sel1 & -> & R & F1).
      cbn [concat]. rewrite !map_app. apply (aligned_app O _ []); [|apply IH; assumption].
      exact (chosen_aligned l [] hs [] A R nothing_chosen).
  Qed.
End Q.

Lemma C75_query_proof : forall (P : Prog) (Q : QFlag) (bs : list comparison -> bsres) (o_size o_align : vty P -> Z),
  bs_contract bs -> distinct_vtables P -> lawful_ord (q_cmp Q) -> flags_eq (Q := Q) ->
  forall (g g' : game P Q) e e' ch ch' x s past past' T (E : VT P (vt_value P (si_ty s)) = T) (O : merits T),
  set_up bs o_size o_align g -> set_up bs o_size o_align g' -> fits s ->
  w_entities (j_world (g_querier g)) e = Some ch -> w_entities (j_world (g_querier g')) e' = Some ch' ->
  improved O (start_of s E g) (start_of s E g') ->
  logs_improved s E O x (logs_for g e (or_nil ch)) (logs_for g' e' (or_nil ch')) ->
  exists h h', improved O (seen_as E h) (seen_as E h') /\ forall n,
    fst (run (client (g_querier g) (S n) (p_query e x s)) (after (g_querier g) past [])) = (let! v := value_of h in Done (Some v)) /\
    fst (run (client (g_querier g') (S n) (p_query e' x s)) (after (g_querier g') past' [])) = (let! v := value_of h' in Done (Some v)) /\
    fst (run (client (g_querier g) (S n) (p_query_eval e x s)) (after (g_querier g) past [])) = (let! r := worth h in Done (Some r)) /\
    fst (run (client (g_querier g') (S n) (p_query_eval e' x s)) (after (g_querier g') past' [])) = (let! r := worth h' in Done (Some r)).
Proof.
  intros P Q bs o_size o_align C D OQ Hq g g' e e' ch ch' x s past past' T E O U U' F He He' Is Il.
  destruct (eval_any bs o_size o_align C D OQ Hq g e ch x s past U F He) as (sel & H1 & H2).
  destruct (eval_any bs o_size o_align C D OQ Hq g' e' ch' x s past' U' F He') as (sel' & H1' & H2').
  exists (together (stories g s sel)), (together (stories g' s sel')). split.
  - rewrite <- !together_as. unfold stories. cbn [map together]. apply aligned_join; [|exact Is]. rewrite !map_map.
    exact (logs_aligned s E O x OQ _ _ _ _ Il H1 H1').
  - intros n. destruct (H2 n) as [A B], (H2' n) as [A' B']. auto.
Qed.

Lemma C75_query_StatInt_proof : forall (P : Prog) (Q : QFlag) (bs : list comparison -> bsres) (o_size o_align : vty P -> Z),
  bs_contract bs -> distinct_vtables P -> lawful_ord (q_cmp Q) -> flags_eq (Q := Q) ->
  forall (g g' : game P Q) e e' ch ch' x s past past' oc T (E : VT P (vt_value P (si_ty s)) = statInt oc T), keeps_order oc T ->
  set_up bs o_size o_align g -> set_up bs o_size o_align g' -> fits s ->
  w_entities (j_world (g_querier g)) e = Some ch -> w_entities (j_world (g_querier g')) e' = Some ch' ->
  improved (int_merits false oc T) (start_of s E g) (start_of s E g') ->
  logs_improved s E (int_merits false oc T) x (logs_for g e (or_nil ch)) (logs_for g' e' (or_nil ch')) ->
  forall n r r',
  fst (run (client (g_querier g) (S n) (p_query_eval e x s)) (after (g_querier g) past [])) = Done (Some r) ->
  fst (run (client (g_querier g') (S n) (p_query_eval e' x s)) (after (g_querier g') past' [])) = Done (Some r') ->
  (result_as E r : Z) <= result_as E r'.
Proof.
  intros P Q bs o_size o_align C D OQ Hq g g' e e' ch ch' x s past past' oc T E K U U' F He He' Is Il n r r' Hr Hr'.
  destruct (C75_query_proof P Q bs o_size o_align C D OQ Hq g g' e e' ch ch' x s past past' _ E _ U U' F He He' Is Il) as (h & h' & I & A).
  destruct (A n) as (_ & _ & A1 & A2). rewrite Hr in A1. rewrite Hr' in A2.
  destruct (worth h) as [w| | |] eqn:W; try discriminate. destruct (worth h') as [w'| | |] eqn:W'; try discriminate.
  cbn in A1, A2. injection A1 as ->. injection A2 as ->.
  assert (V : exists v, value_of (seen_as E h) = Done v).
  { pose proof (worth_as E h) as X. rewrite W in X. cbn [obind] in X. unfold worth in X. apply obind_inv in X. destruct X as (v & X & _). eauto. }
  destruct V as [v V]. apply (C75_StatInt_proof false oc T (seen_as E h) (seen_as E h') v); try assumption; try discriminate.
  - rewrite worth_as, W. reflexivity.
  - rewrite worth_as, W'. reflexivity.
Qed.
