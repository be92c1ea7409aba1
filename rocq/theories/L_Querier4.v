From Coq Require Import ZArith List Bool String Lia PeanoNat Permutation.
From Verif Require Import M_Outcome M_Value M_Qualifier M_Stat M_HashMap M_Pair M_Defaults M_Querier S_Pair S_StatMap S_Querier L_StatMap3 L_HashMap L_Defaults L_Querier L_Querier2 L_Querier3.
Import ListNotations.

Section L.
  Context {P : Prog} {Q : QFlag}.
  Notation qq := (qquery Q).
  Notation PR := (prog P Q).
  Notation tyof s := (vt_value P (si_ty s)).
  Notation handler := (forall r : request P Q, outcome (raw r)).
  Implicit Types j : joined P Q.

  Lemma Forall2_nth {A B} (R : A -> B -> Prop) l m : Forall2 R l m -> forall i a b, nth_error l i = Some a -> nth_error m i = Some b -> R a b.
  Proof.
    induction 1 as [|x y l m H _ IH]; intros [|i] a b Ha Hb; cbn in *; try discriminate; [congruence|apply (IH i); assumption].
  Qed.
  Lemma uncached_ask j n {A} (p : PR A) : fst (run (client (uncached j) n p) []) = ask j n p.
  Proof. rewrite client_uncached by reflexivity. cbn. apply ask_uncached. Qed.
  Lemma rightly_same j n {A} (p : PR A) o : rightly (fun n => ask j n p) n o -> same_as (fun n => fst (run (client (uncached j) n p) [])) n o.
  Proof.
    intros [H1 H2]. split.
    - intros Ho. destruct (H1 Ho) as [m Em]. exists m. rewrite uncached_ask. exact Em.
    - rewrite uncached_ask. exact H2.
  Qed.
  Lemma same_rightly j n {A} (p : PR A) o : same_as (fun n => fst (run (client (uncached j) n p) [])) n o -> rightly (fun n => ask j n p) n o.
  Proof.
    intros [H1 H2]. split.
    - intros Ho. destruct (H1 Ho) as [m Em]. exists m. rewrite <- uncached_ask. exact Em.
    - rewrite <- uncached_ask. exact H2.
  Qed.
  (** Schedules are sequences of steps. *)
  Lemma step_nth_steps {A} i : forall (l0 l : list (act P Q A)) c s', steps (l0 ++ fst (step_nth i l c), snd (step_nth i l c)) s' -> steps (l0 ++ l, c) s'.
  Proof.
    induction i as [|i IH]; intros l0 [|m l] c s' H; cbn in *; try exact H.
    - destruct (astep m c) as [[m' c']|] eqn:E; cbn in H; [|exact H]. apply (steps_one _ _ l0 m l c m' c' s' E H).
    - specialize (IH (l0 ++ [m]) l c s'). rewrite <- !app_assoc in IH. cbn in IH. destruct (step_nth i l c) as [r c']; cbn in *. apply IH, H.
  Qed.
  Lemma schedule_steps {A} is : forall s : list (act P Q A) * cache P Q, steps s (schedule is s).
  Proof.
    induction is as [|i is IH]; intros [l c]; cbn; [constructor|]. apply (step_nth_steps i [] l c). cbn.
    specialize (IH (step_nth i l c)). destruct (step_nth i l c). exact IH.
  Qed.

  (** ** Conservation *)
  Lemma conserved {A} (m : act P Q A) : forall c,
    Permutation (map snd c ++ placed m c) (map snd (snd (run m c)) ++ displaced m c ++ cleared m c).
  Proof.
    induction m as [a|o|k f IH|k b f IH|f IH]; intros c; cbn.
    - reflexivity.
    - reflexivity.
    - apply IH.
    - transitivity ((b :: map snd c) ++ placed f (fst (hput key_eqb c k b))); [symmetry; apply Permutation_middle|].
      rewrite (hput_perm key_eqb c k b). specialize (IH (fst (hput key_eqb c k b))).
      assert (Ho : olist (snd (hput key_eqb c k b)) = in_olist (snd (hput key_eqb c k b))) by (destruct (snd (hput key_eqb c k b)); reflexivity).
      rewrite Ho. rewrite <- !app_assoc. rewrite (Permutation_app_swap_app (map snd (fst (hput key_eqb c k b)))). rewrite IH.
      apply Permutation_app_swap_app.
    - specialize (IH []). cbn in IH. rewrite IH. rewrite (Permutation_app_swap_app (map snd c)).
      apply Permutation_app_head. rewrite (Permutation_app_swap_app (displaced f [])). reflexivity.
  Qed.

  (** ** Entries are of the type of their stat *)
  Definition entry_ok (k : key P Q) (b : buffer P) : Prop := b_ty b = tyof (snd k) /\ fits (snd k).
  Fixpoint puts_ok {A} (m : act P Q A) : Prop :=
    match m with
    | ARet _ | AFail _ => True
    | AGet _ f => forall o, puts_ok (f o)
    | APut k b f => entry_ok k b /\ puts_ok f
    | AClear f => puts_ok f
    end.
  Lemma puts_bind {A B} (m : act P Q A) (f : A -> act P Q B) : puts_ok m -> (forall a, puts_ok (f a)) -> puts_ok (abind m f).
  Proof. intros H Hf. induction m; cbn in *; intuition. Qed.
  Lemma puts_outcome {A} (o : outcome A) : puts_ok (a_outcome o).
  Proof. destruct o; exact I. Qed.
  Lemma puts_interp (cached : bool) (ha : forall r, act P Q (raw r)) {A} (p : PR A) : (forall r, puts_ok (ha r)) -> puts_ok (interp cached ha p).
  Proof.
    intros H. induction p as [a|o|r k IH|k IH]; cbn [interp]; [exact I|exact I| |destruct cached; exact IH].
    apply puts_bind; [apply puts_outcome|]. intros _. apply puts_bind; [apply H|]. intros o. apply puts_bind; [apply puts_outcome|]. exact IH.
  Qed.
  Lemma puts_level j n : forall r, puts_ok (level j n r).
  Proof.
    induction n as [|n IH]; intros r; [exact I|]. cbn [level]. destruct r as [e x s|f t x s|e a]; cbn [erased].
    - unfold query_stat_erased. destruct (w_entities (j_world j) e) as [ch|]; [|exact I].
      assert (Hc : puts_ok (abind (a_outcome (start_value (j_world j) s)) (fun b =>
        abind (interp (j_cached j) (level j n) (stat_body j e ch x (Pair s (fst b)))) (fun p =>
        if j_cached j then abind (a_outcome (pair_clone_buffer p)) (fun c => APut (e, x, p_stat p) c (ARet (Some (p_buf p)))) else ARet (Some (p_buf p)))))).
      { apply puts_bind; [apply puts_outcome|]. intros b. apply puts_bind; [apply puts_interp, IH|]. intros p.
        destruct (j_cached j); [|exact I]. destruct (pair_clone_buffer p) as [c0| | |] eqn:Ec; try exact I. cbn. split; [|exact I].
        destruct (clone_cast (p_stat p) (p_buf p) c0 Ec) as (w & Hw & -> & Hf). split; [rewrite Hw; reflexivity|exact Hf]. }
      destruct (j_cached j); [|exact Hc]. cbn [puts_ok]. intros [b|]; [|exact Hc]. apply puts_bind; [apply puts_outcome|]. intros; exact I.
    - unfold query_relation_erased. destruct (w_entities (j_world j) f); [|exact I]. destruct (w_entities (j_world j) t); [|exact I].
      apply puts_bind; [apply puts_outcome|]. intros b. apply puts_bind; [apply puts_interp, IH|]. intros; exact I.
    - apply puts_interp, IH.
  Qed.
  Lemma in_hput (c : cache P Q) k b k0 b0 : In (k0, b0) (fst (hput key_eqb c k b)) -> In (k0, b0) c \/ (b0 = b /\ key_eqb k0 k = true) \/ (k0, b0) = (k, b).
  Proof.
    induction c as [|[k' b'] c IH]; cbn [hput]; [cbn; intuition|].
    destruct (key_eqb k' k) eqn:E; [cbn; intros [H|H]; [injection H as <- <-; auto|auto]|].
    destruct (hput key_eqb c k b) as [r o]; cbn in *. intros [H|H]; [auto|]. destruct (IH H) as [H1|[H1|H1]]; auto.
  Qed.
  Lemma puts_run (Hd : distinct_vtables P) (Hq : flags_eq (Q := Q)) {A} (m : act P Q A) : puts_ok m -> forall c,
    (forall k b, In (k, b) c -> entry_ok k b) -> forall k b, In (k, b) (snd (run m c)) -> entry_ok k b.
  Proof.
    induction m as [a|o|k0 f IH|k0 b0 f IH|f IH]; intros H c Hc; cbn in *; [exact Hc|exact Hc|apply IH; auto| |apply IH; [exact H|intros ? ? []]].
    destruct H as [H1 H2]. apply IH; [exact H2|]. intros k b Hin. destruct (in_hput _ _ _ _ _ Hin) as [Hi|[[-> E]|E]].
    - apply Hc, Hi.
    - apply (key_eqb_ok Hd Hq) in E. subst k. exact H1.
    - injection E as -> ->. exact H1.
  Qed.
  Lemma drop_ok (c : cache P Q) : (forall k b, In (k, b) c -> entry_ok k b) -> cache_drop c = Done tt.
  Proof.
    induction c as [|[[[e x] s] b] c IH]; intros H; cbn; [reflexivity|]. destruct (H (e, x, s) b (or_introl eq_refl)) as [H1 H2]. cbn in *.
    destruct b as [t v]. cbn in H1. subst t. unfold vt_drop, buf_read_move, buf_ref. unfold fits in H2. rewrite H2. cbn [obind]. rewrite cast_val_same. cbn [obind].
    apply IH. intros k b Hi. apply H. right. exact Hi.
  Qed.

  (** ** A thread alone never displaces an entry *)
  Lemma displaced_bind {A B} (m : act P Q A) (f : A -> act P Q B) : forall c,
    displaced (abind m f) c = displaced m c ++ match run m c with (Done a, c') => displaced (f a) c' | _ => [] end.
  Proof.
    induction m as [a|o|k g IH|k b g IH|g IH]; intros c; cbn.
    - reflexivity.
    - destruct o as [[]| | |]; reflexivity.
    - apply IH.
    - rewrite <- app_assoc. f_equal. apply IH.
    - apply IH.
  Qed.
  Lemma displaced_outcome {A} (o : outcome A) c : displaced (a_outcome (P := P) (Q := Q) o) c = [].
  Proof. destruct o; reflexivity. Qed.
  Section Alone.
    Hypothesis Hd : distinct_vtables P.
    Hypothesis Hq : flags_eq (Q := Q).
    Variable j : joined P Q.
    Hypothesis Hc : j_cached j = true.
    Hypothesis Hk : stats_kept j.
    Definition key_request (k : key P Q) : request P Q := let '(e, x, s) := k in RStat e x s.
    (** New entries are for questions that are answered within every depth that suffices. *)
    Definition fresh {A} (m : act P Q A) (u : nat -> outcome A) : Prop :=
      forall c, valid (right j) c -> displaced m c = [] /\
      forall a c', run m c = (Done a, c') -> valid (right j) c' /\ (exists n, u n = Done a) /\
      forall n, u n <> NoFuel -> forall k b, hget key_eqb c' k = Some b -> hget key_eqb c k = None -> answer j n (key_request k) <> NoFuel.
    Lemma fresh_interp (ha : forall r, act P Q (raw r)) {A} (p : PR A) :
      (forall r, fresh (ha r) (fun n => answer j n r)) -> fresh (interp true ha p) (fun n => ask j n p).
    Proof.
      intros H. induction p as [a|o|r k IH|k IH]; cbn [interp].
      - intros c V. split; [reflexivity|]. cbn. intros a' c' E. injection E as <- <-. split; [exact V|]. split; [exists 0; reflexivity|]. intros n _ k0 b0 E1 E2. congruence.
      - intros c V. split; [reflexivity|]. intros a' c' E. cbn in E. destruct o as [[]| | |]; discriminate E.
      - intros c V. rewrite displaced_bind, displaced_outcome, run_outcome. cbn [app]. rewrite run_abind, run_outcome.
        destruct (check r) as [[]| | |] eqn:Ec; try (split; [reflexivity|intros a' c' E; discriminate E]).
        rewrite displaced_bind. destruct (H r c V) as [Hdis Hrun]. rewrite Hdis. cbn [app]. rewrite run_abind.
        destruct (run (ha r) c) as [[o| | |] c1] eqn:E1; try (split; [reflexivity|intros a' c' E; discriminate E]).
        destruct (Hrun o c1 eq_refl) as (V1 & (n1 & En1) & Hnew1).
        rewrite displaced_bind, displaced_outcome, run_outcome. cbn [app]. rewrite run_abind, run_outcome.
        destruct (typed r o) as [v| | |] eqn:Et; try (split; [reflexivity|intros a' c' E; discriminate E]).
        destruct (IH v c1 V1) as [Hdis2 Hrun2]. split; [exact Hdis2|]. intros a' c' E2. destruct (Hrun2 a' c' E2) as (V2 & (n2 & En2) & Hnew2).
        split; [exact V2|]. split.
        + exists (Nat.max n1 n2). unfold ask. cbn [oeval]. rewrite Ec. cbn [obind].
          rewrite (ole_stop _ _ (answer_le j n1 (Nat.max n1 n2) r ltac:(lia))) by (rewrite En1; discriminate). rewrite En1. cbn [obind]. rewrite Et. cbn [obind].
          change (ask j (Nat.max n1 n2) (k v) = Done a'). rewrite (ole_stop _ _ (ask_le j n2 (Nat.max n1 n2) (k v) ltac:(lia))); [exact En2|]. rewrite En2. discriminate.
        + intros n Hn k0 b0 G1 G2. unfold ask in Hn. cbn [oeval] in Hn. rewrite Ec in Hn. cbn [obind] in Hn.
          assert (Ha : answer j n r <> NoFuel) by (intros E; rewrite E in Hn; apply Hn; reflexivity).
          assert (Hd0 : answer j n r = Done o).
          { rewrite <- En1. apply answer_unique; [exact Ha|]. rewrite En1. discriminate. }
          rewrite Hd0 in Hn. cbn [obind] in Hn. rewrite Et in Hn. cbn [obind] in Hn.
          destruct (hget key_eqb c1 k0) as [b1|] eqn:G3.
          * apply (Hnew1 n Ha k0 b1 G3 G2).
          * apply (Hnew2 n Hn k0 b0 G1 G3).
      - intros c V. cbn [displaced run]. destruct (IH [] (valid_nil _)) as [H1 H2]. split; [exact H1|].
        intros a c' E. destruct (H2 a c' E) as (V2 & E2 & Hnew). split; [exact V2|]. split; [exact E2|].
        intros n Hn k0 b0 G1 _. apply (Hnew n Hn k0 b0 G1). reflexivity.
    Qed.
    Lemma fresh_level n : forall r, fresh (level j n r) (fun n => answer j n r).
    Proof.
      induction n as [|n IH]; intros r c V.
      { split; [reflexivity|]. intros a c' E. discriminate E. }
      destruct (good_run Hd Hq (right j) (level j (S n) r) _ c (level_good j Hc Hk (S n) r) V) as [Hright V'].
      assert (Hans : forall a c', run (level j (S n) r) c = (Done a, c') -> valid (right j) c' /\ exists n, answer j n r = Done a).
      { intros a c' E. rewrite E in *. cbn in *. split; [exact V'|]. apply Hright. discriminate. }
      enough (G : displaced (level j (S n) r) c = [] /\ forall a c', run (level j (S n) r) c = (Done a, c') ->
        forall m, answer j m r <> NoFuel -> forall k b, hget key_eqb c' k = Some b -> hget key_eqb c k = None -> answer j m (key_request k) <> NoFuel).
      { destruct G as [G1 G2]. split; [exact G1|]. intros a c' E. destruct (Hans a c' E) as [X1 X2]. split; [exact X1|split; [exact X2|apply (G2 a c' E)]]. }
      clear V' Hright.
      destruct r as [e x s|f t x s|e a].
      - destruct (w_entities (j_world j) e) as [ch|] eqn:Ee.
        2: { cbn [level erased]. unfold query_stat_erased. rewrite Ee. split; [reflexivity|]. intros a0 c' E. cbn in E. injection E as <- <-. intros m _ k b G1 G2. congruence. }
        destruct (hget key_eqb c (e, x, s)) as [b0|] eqn:Eh.
        + cbn [level erased]. unfold query_stat_erased. rewrite Ee, Hc. cbn [displaced run]. rewrite Eh.
          destruct (vt_clone P (si_ty s) b0); cbn; (split; [reflexivity|]); try discriminate. intros a0 c' E. injection E as <- <-. intros m _ k b G1 G2. congruence.
        + pose proof (Hans) as Hans'. clear Hans. cbn [level erased] in *. unfold query_stat_erased in *. rewrite Ee, Hc in *. cbn [displaced run] in *. rewrite Eh in *.
          rewrite displaced_bind, displaced_outcome, run_outcome, run_abind, run_outcome in *. cbn [app].
          destruct (start_value (j_world j) s) as [b0| | |] eqn:Es; try (split; [reflexivity|discriminate]).
          assert (Ei : initial (j_world j) s = Done (fst b0)) by (rewrite <- start_initial, Es; reflexivity).
          rewrite displaced_bind, run_abind in *.
          destruct (fresh_interp (level j n) (stat_body j e ch x (Pair s (fst b0))) IH c V) as [F1 F2]. rewrite F1. cbn [app].
          destruct (run (interp true (level j n) (stat_body j e ch x (Pair s (fst b0)))) c) as [[p| | |] c1] eqn:Er; try (split; [reflexivity|discriminate]).
          destruct (F2 p c1 eq_refl) as (V1 & _ & Hnew). clear F2.
          destruct (run_interp_returns true (level j n) _ _ c p c1 (stat_body_keeps j e ch x (Pair s (fst b0)) Hk (proj1 (initial_ty _ _ _ Ei))) Er) as [Hs _]. cbn in Hs.
          rewrite displaced_bind, displaced_outcome, run_outcome, run_abind, run_outcome in *. cbn [app]. rewrite Hs in *.
          destruct (pair_clone_buffer p) as [kb| | |]; try (split; [reflexivity|discriminate]). cbn [displaced run] in *. rewrite app_nil_r.
          rewrite (hput_old key_eqb). destruct (Hans' _ _ eq_refl) as [_ [m0 Em0]].
          assert (Hbody : forall m, answer j (S m) (RStat e x s) <> NoFuel -> ask j m (stat_body j e ch x (Pair s (fst b0))) <> NoFuel).
          { intros m Hm E. apply Hm. cbn [answer answer1]. rewrite Ee, Ei. cbn [obind]. unfold ask in E. rewrite stat_body_collect in E. rewrite E. reflexivity. }
          split.
          * destruct (hget key_eqb c1 (e, x, s)) as [b1|] eqn:E1; [|reflexivity]. exfalso.
            assert (Hall : forall m, answer j m (RStat e x s) = NoFuel).
            { induction m as [|m IHm]; [reflexivity|]. destruct (answer j (S m) (RStat e x s)) eqn:Ea; try reflexivity; exfalso;
                apply (Hnew m (Hbody m ltac:(rewrite Ea; discriminate)) (e, x, s) b1 E1 Eh); exact IHm. }
            rewrite Hall in Em0. discriminate.
          * intros a0 c' E. injection E as <- <-. intros m Hm k b G1 G2.
            destruct (eqb_dec key_eqb (key_eqb_ok Hd Hq) k (e, x, s)) as [-> |Hn]; [exact Hm|].
            rewrite (hget_hput_other key_eqb (key_eqb_ok Hd Hq)) in G1 by exact Hn.
            destruct m as [|m]; [contradiction Hm; reflexivity|]. specialize (Hnew m (Hbody m Hm) k b G1 G2).
            rewrite (ole_stop _ _ (answer_le j m (S m) (key_request k) ltac:(lia)) Hnew). exact Hnew.
      - cbn [level erased]. unfold query_relation_erased. rewrite Hc. destruct (w_entities (j_world j) f) as [cf|] eqn:Ef.
        2: { split; [reflexivity|]. intros a0 c' E. cbn in E. injection E as <- <-. intros m _ k b G1 G2. congruence. }
        destruct (w_entities (j_world j) t) as [ct|] eqn:Et.
        2: { split; [reflexivity|]. intros a0 c' E. cbn in E. injection E as <- <-. intros m _ k b G1 G2. congruence. }
        rewrite displaced_bind, displaced_outcome, run_outcome, run_abind, run_outcome. cbn [app].
        destruct (start_value (j_world j) s) as [b0| | |] eqn:Es; try (split; [reflexivity|discriminate]).
        assert (Ei : initial (j_world j) s = Done (fst b0)) by (rewrite <- start_initial, Es; reflexivity).
        rewrite displaced_bind, run_abind. destruct (fresh_interp (level j n) (rel_body j f t x (Pair s (fst b0))) IH c V) as [F1 F2]. rewrite F1. cbn [app].
        destruct (run (interp true (level j n) (rel_body j f t x (Pair s (fst b0)))) c) as [[p| | |] c1]; try (split; [reflexivity|discriminate]).
        destruct (F2 p c1 eq_refl) as (V1 & _ & Hnew). split; [reflexivity|]. cbn [run]. intros a0 c' E. injection E as <- <-. intros m Hm k b G1 G2.
        destruct m as [|m]; [contradiction Hm; reflexivity|].
        assert (Hb : ask j m (rel_body j f t x (Pair s (fst b0))) <> NoFuel).
        { intros E. apply Hm. cbn [answer answer1]. rewrite Ef, Et, Ei. cbn [obind]. unfold ask in E. rewrite rel_body_collect in E. rewrite E. reflexivity. }
        specialize (Hnew m Hb k b G1 G2). rewrite (ole_stop _ _ (answer_le j m (S m) (key_request k) ltac:(lia)) Hnew). exact Hnew.
      - cbn [level erased]. unfold has_attribute_erased. rewrite Hc. destruct (fresh_interp (level j n) (attr_body j e a) IH c V) as [F1 F2].
        split; [exact F1|]. intros b0 c' E m Hm k b G1 G2. destruct (F2 b0 c' E) as (_ & _ & Hnew).
        destruct m as [|m]; [contradiction Hm; reflexivity|].
        assert (Hb : ask j m (attr_body j e a) <> NoFuel).
        { intros E0. apply Hm. cbn [answer answer1]. unfold ask in E0. rewrite attr_body_any in E0. exact E0. }
        specialize (Hnew m Hb k b G1 G2). rewrite (ole_stop _ _ (answer_le j m (S m) (key_request k) ltac:(lia)) Hnew). exact Hnew.
    Qed.
    Lemma client_fresh n {A} (p : PR A) : fresh (client j n p) (fun n => ask j n p).
    Proof. unfold client. rewrite Hc. apply fresh_interp, fresh_level. Qed.

    (** ** Histories *)
    Lemma after_valid l : forall c, valid (right j) c -> valid (right j) (after j l c).
    Proof.
      induction l as [|[n p] l IH]; intros c V; cbn; [exact V|]. apply IH.
      apply (good_run Hd Hq (right j) (client j n p) _ c (client_good j n p Hc Hk) V).
    Qed.
  End Alone.
End L.
