(** Proofs: the order of maps and rules. *)
From Coq Require Import ZArith List Bool Permutation Sorted Eqdep_dec Lia.
From Verif Require Import S_Ratio S_Types L_Ints L_Types L_Types2 L_Types3 L_TypesProofs.
From Verif Require Import M_Outcome M_Ints M_Value M_Types M_Qualifier M_Search M_Stat M_StatMap M_HashMap M_Pair M_Defaults M_Querier
  S_Search S_Pair S_StatMap S_Defaults S_Defaults2 S_Querier S_Totals S_EndToEnd S_Rules S_Reorder
  L_Outcome L_StatMap L_Querier L_Querier2 L_QueryProofs L_EndToEnd L_EndToEnd2 L_Moved L_Rules L_RulesMono.
Import ListNotations.

Section V.
  Context {S : StatValue}.
  Lemma run_app (l l' : list (step S)) v : S_Types.run v (l ++ l') = let! w := S_Types.run v l in S_Types.run w l'.
  Proof. unfold S_Types.run. apply ofold_app. Qed.
  Lemma run_ops (l : list (stat_op S)) : forall v, S_Types.run v (map SOp l) = ofold (fun v o => write_to o v) v l.
  Proof.
    induction l as [|o l IH]; intros v; [reflexivity|]. unfold S_Types.run in *. cbn [map ofold run_step]. destruct (write_to o v); cbn [obind]; [apply IH|reflexivity..].
  Qed.
  Lemma values_unique l : forall vs vs' : list (val S), values l vs -> values l vs' -> map SJoin vs = map SJoin vs'.
  Proof.
    induction l as [|h l IH]; intros vs vs' H H'; inversion H as [|? v ? ? Ev Hv]; inversion H' as [|? v' ? ? Ev' Hv']; subst; [reflexivity|].
    cbn [map]. f_equal; [congruence|apply IH; assumption].
  Qed.
  Lemma concat_perm {A} (l l' : list (list A)) : Permutation l l' -> Permutation (concat l) (concat l').
  Proof. intros H. rewrite <- (map_id l), <- (map_id l'), <- !flat_map_concat_map. apply Permutation_flat_map, H. Qed.
End V.

Section L.
  Context {P : Prog} {Q : QFlag}.
  Notation VS s := (VT P (vt_value P (si_ty s))).
  Notation story s := (history (VS s)).
  Hypothesis OQ : lawful_ord (q_cmp Q).
  Variable bs : list comparison -> bsres.
  Hypothesis C : bs_contract bs.
  Hypothesis D : distinct_vtables P.
  Variable T : StatTypes P.
  Variables o_size o_align : vty P -> Z.
  Hypothesis Hq : flags_eq (Q := Q).

  (** ** What a cause does *)
  Definition cause_steps (j : joined P Q) e x (s : inst P) (c : cause P Q) (st : list (step (VS s))) : Prop :=
    match c with
    | inl l => exists hs vs, chosen s x l hs /\ values (map snd hs) vs /\ st = map SJoin vs
    | inr r => (exists (E : r_to r = s) ops, yields j [] (r_code r e x) ops /\ st = map SOp (eq_rect (r_to r) (fun s => list (stat_op (VS s))) ops s E)) \/
               (r_to r <> s /\ st = [])
    end.
  Lemma leads_steps (j : joined P Q) e x s (h : story s) c k : leads j e x s h c k -> forall a, value_of k = Done a ->
    exists v sts, value_of h = Done v /\ Forall2 (cause_steps j e x s) c sts /\ S_Types.run v (concat sts) = Done a.
  Proof.
    induction 1 as [h|h l hs c k Hc _ IH|h r E ops c k Hy _ IH|h r c k N _ IH]; intros a Ea.
    - exists a, []. split; [exact Ea|]. split; [constructor|reflexivity].
    - destruct (IH _ Ea) as (v & sts & Ev & Hs & Hr). destruct (together_done _ _ _ Ev) as (w & vs & Ew & Hv & Hw).
      exists w, (map SJoin vs :: sts). split; [exact Ew|]. split; [constructor; [exists hs, vs; auto|exact Hs]|]. cbn [concat]. rewrite run_app, Hw. exact Hr.
    - subst s. cbn [eq_rect] in *. destruct (IH _ Ea) as (v & sts & Ev & Hs & Hr). destruct (applied_before _ _ _ Ev) as [w Ew].
      exists w, (map SOp ops :: sts). split; [exact Ew|]. split; [constructor; [left; exists eq_refl, ops; auto|exact Hs]|].
      cbn [concat]. rewrite run_app, run_ops, <- (applied_values (r_to r) ops h w Ew), Ev. exact Hr.
    - destruct (IH _ Ea) as (v & sts & Ev & Hs & Hr). exists v, ([] :: sts). split; [exact Ev|]. split; [constructor; [right; auto|exact Hs]|exact Hr].
  Qed.
  Lemma steps_lead (j : joined P Q) e x s c sts : Forall2 (cause_steps j e x s) c sts -> forall (h : story s) v a, value_of h = Done v ->
    S_Types.run v (concat sts) = Done a -> exists k, leads j e x s h c k /\ value_of k = Done a.
  Proof.
    induction 1 as [|y st c sts Hy Hs IH]; intros h v a Ev Ha.
    - exists h. split; [constructor|]. cbn in Ha. congruence.
    - cbn [concat] in Ha. rewrite run_app in Ha. apply obind_inv in Ha as (w & Ew & Ha). destruct y as [l|r]; cbn [cause_steps] in Hy.
      + destruct Hy as (hs & vs & Hc & Hv & ->).
        destruct (IH (fold_left Joined (map snd hs) h) w a) as (k & Hl & Hk); [rewrite (together_values _ _ _ Hv), Ev; exact Ew|exact Ha|].
        exists k. split; [econstructor; eassumption|exact Hk].
      + destruct Hy as [(E & ops & Hy & ->)|(N & ->)].
        * subst s. cbn [eq_rect] in *. rewrite run_ops, <- (applied_values (r_to r) ops h v Ev) in Ew.
          destruct (IH _ w a Ew Ha) as (k & Hl & Hk). exists k. split; [refine (ld_rule j e x (r_to r) h r eq_refl ops _ k Hy _); exact Hl|exact Hk].
        * injection Ew as <-. destruct (IH h v a Ev Ha) as (k & Hl & Hk). exists k. split; [apply ld_other; assumption|exact Hk].
  Qed.
  (** ** Answers *)
  Lemma answer_leads (g : game P Q) l e ch x s o : lawful_game T bs o_size o_align g l -> fits s -> w_entities (j_world (g_querier g)) e = Some ch ->
    ((exists n, answer (ruled T bs g l) n (RStat e x s) = Done o) <->
     exists k v, leads (ruled T bs g l) e x s (starting g s) (causes g l e (or_nil ch)) k /\ value_of k = Done v /\ o = Some (Buf (vt_value P (si_ty s)) v)).
  Proof.
    intros U F He. pose proof (ruled_kept bs D T o_size o_align g l U) as Hk.
    destruct (ruled_sources bs T o_size o_align g l e ch x U) as (Es & Ec & Hg). destruct (ruled_initial bs D T o_size o_align g l s (proj1 U) F) as (v0 & Ev0 & Ei). rewrite Ec.
    split.
    - intros [[|n] En]; [discriminate En|]. cbn [answer answer1] in En.
      change (w_entities (j_world (ruled T bs g l)) e) with (w_entities (j_world (g_querier g)) e) in En. rewrite He, Ei in En. cbn [obind] in En.
      rewrite Es in En. apply obind_inv in En as (p & Ep & En). injection En as <-.
      destruct (leads_sound OQ bs C D T _ Hq Hk n e x s F _ Hg _ _ _ Ev0 Ep) as (k & v' & Hl & Hv & ->). exists k, v'. auto.
    - intros (k & v & Hl & Hv & ->). destruct (leads_complete OQ bs C D T _ Hq Hk e x s F _ Hg _ _ _ _ Hl Ev0 Hv) as [n En].
      exists (S n). cbn [answer answer1].
      change (w_entities (j_world (ruled T bs g l)) e) with (w_entities (j_world (g_querier g)) e). rewrite He, Ei. cbn [obind].
      rewrite Es, En. reflexivity.
  Qed.
  Lemma answer_nobody (j : joined P Q) e x s : w_entities (j_world j) e = None -> forall o, (exists n, answer j n (RStat e x s) = Done o) <-> o = None.
  Proof.
    intros He o. split.
    - intros [[|n] En]; [discriminate|]. cbn [answer answer1] in En. rewrite He in En. congruence.
    - intros ->. exists 1. cbn [answer answer1]. rewrite He. reflexivity.
  Qed.
  (** ** Programs whose questions have the same answers *)
  Section J.
    Variables (j j' : joined P Q) (R : request P Q -> Prop).
    Lemma same_code : (forall q, R q -> check q = Done tt -> forall o, (exists n, answer j n q = Done o) -> exists n, answer j' n q = Done o) ->
      forall A (p : prog P Q A), only_asks R p -> forall a, (exists n, ask j n p = Done a) -> exists n, ask j' n p = Done a.
    Proof.
      intros H A p. unfold ask. induction p as [b|o|q k IH|k IH]; cbn [only_asks oeval]; intros Ho a [n En].
      - exists 0. exact En.
      - exists 0. exact En.
      - destruct Ho as [Hr Ho]. apply obind_inv in En as ([] & Ec & En). apply obind_inv in En as (o & Eo & En). apply obind_inv in En as (v & Ev & En).
        destruct (H q Hr Ec o (ex_intro _ n Eo)) as [m Em]. destruct (IH v (Ho v) a (ex_intro _ n En)) as [m' Em'].
        exists (Nat.max m m'). rewrite Ec. cbn [obind].
        assert (Eo' : answer j' (Nat.max m m') q = Done o) by (rewrite <- Em; apply ole_stop; [apply answer_le; lia|rewrite Em; discriminate]).
        rewrite Eo'. cbn [obind]. rewrite Ev. cbn [obind]. rewrite <- Em'. apply ole_stop; [|rewrite Em'; discriminate]. apply oeval_mono. intros r. apply answer_le. lia.
      - apply (IH Ho). exists n. exact En.
    Qed.
    Lemma agreeing_code : (forall q, R q -> check q = Done tt -> forall o o', (exists n, answer j n q = Done o) -> (exists n, answer j' n q = Done o') -> o = o') ->
      forall A (p : prog P Q A), only_asks R p -> forall a a', (exists n, ask j n p = Done a) -> (exists n, ask j' n p = Done a') -> a = a'.
    Proof.
      intros H A p. unfold ask. induction p as [b|o|q k IH|k IH]; cbn [only_asks oeval]; intros Ho a a' [n En] [n' En'].
      - congruence.
      - congruence.
      - destruct Ho as [Hr Ho]. apply obind_inv in En as ([] & Ec & En). apply obind_inv in En as (o & Eo & En). apply obind_inv in En as (v & Ev & En).
        rewrite Ec in En'. cbn [obind] in En'. apply obind_inv in En' as (o' & Eo' & En'). apply obind_inv in En' as (v' & Ev' & En').
        pose proof (H q Hr Ec o o' (ex_intro _ n Eo) (ex_intro _ n' Eo')) as <-. rewrite Ev in Ev'. injection Ev' as <-. apply (IH v (Ho v)); eauto.
      - apply (IH Ho); eauto.
    Qed.
    Lemma returned_by {A} (G : A -> Prop) h (p : prog P Q A) : returns G p -> forall a, oeval h p = Done a -> G a.
    Proof.
      induction p as [b|o|q k IH|k IH]; cbn [returns oeval]; intros Hr a Ea.
      - injection Ea as <-. exact Hr.
      - destruct o as [[]| | |]; discriminate.
      - apply obind_inv in Ea as (u & _ & Ea). apply obind_inv in Ea as (o & _ & Ea). apply obind_inv in Ea as (v & _ & Ea). exact (IH v (Hr v) a Ea).
      - exact (IH Hr a Ea).
    Qed.
  End J.

  Variable among : inst P -> Prop.
  Variable rank : inst P -> nat.
  Lemma steps_unordered (j : joined P Q) e x s c st : stats_kept j -> among s -> (forall r, c = inr r -> plain_rule among rank r) -> cause_steps j e x s c st -> Forall unordered st.
  Proof.
    intros Hk Hs Hp. destruct c as [l|r]; cbn [cause_steps].
    - intros (hs & vs & _ & _ & ->). apply joins_unordered.
    - intros [(E & ops & Hy & ->)|(_ & ->)]; [|constructor]. subst s. cbn [eq_rect]. destruct (Hp r eq_refl Hs e x) as [_ Hr].
      apply (yields_ask D) in Hy as [n En]; [|exact Hq|exact Hk]. apply Forall_map. refine (Forall_impl _ _ (returned_by _ _ _ Hr _ En)). intros [] H; exact H.
  Qed.
  Lemma all_unordered (j : joined P Q) e x s c sts : stats_kept j -> among s -> (forall r, In (inr r) c -> plain_rule among rank r) -> Forall2 (cause_steps j e x s) c sts -> Forall unordered (concat sts).
  Proof.
    intros Hk Hs Hp H. induction H as [|y st c sts Hy _ IH]; [constructor|]. cbn [concat]. apply Forall_app. split.
    - apply (steps_unordered j e x s y st Hk Hs); [|exact Hy]. intros r ->. apply Hp. left. reflexivity.
    - apply IH. intros r Hr. apply Hp. right. exact Hr.
  Qed.
  Lemma cause_rule (g : game P Q) l e ch r : In (inr r) (causes g l e ch) -> In (inr r) l.
  Proof.
    unfold causes. intros Hr. apply in_app_or in Hr as [Hr|Hr]; apply in_map_iff in Hr as (y & E & Hy); [|discriminate].
    destruct y as [p|r']; [discriminate|]. injection E as ->. exact Hy.
  Qed.
  Lemma Forall2_In_weak {A B} (R R' : A -> B -> Prop) l k : Forall2 R l k -> (forall a b, In a l -> R a b -> R' a b) -> Forall2 R' l k.
  Proof. induction 1 as [|a b l k H _ IH]; intros W; constructor; [apply W; [left; reflexivity|exact H]|]. apply IH. intros a' b' Hi. apply W. right. exact Hi. Qed.

  Section Way.
    Variables (g g' : game P Q) (l l' : list (law P Q)).
    Hypothesis U : lawful_game T bs o_size o_align g l.
    Hypothesis U' : lawful_game T bs o_size o_align g' l'.
    Hypothesis Hr : reordered among g l g' l'.
    Hypothesis Hp : forall r, In (inr r) l -> plain_rule among rank r.
    Let j := ruled T bs g l.
    Let j' := ruled T bs g' l'.
    Lemma one_way : (forall s, among s -> order_free (VS s) (fun _ => True) (fun _ => True)) ->
      forall n e x s, among s -> rank s < n -> fits s -> forall o, (exists m, answer j m (RStat e x s) = Done o) -> exists m, answer j' m (RStat e x s) = Done o.
    Proof.
      intros O n. induction n as [|n IH]; intros e x s Hs L F o Ho; [lia|]. pose proof (proj2 Hr e) as Hc.
      destruct (w_entities (j_world (g_querier g)) e) as [ch|] eqn:He; destruct (w_entities (j_world (g_querier g')) e) as [ch'|] eqn:He'; try contradiction.
      - destruct (proj1 (answer_leads g l e ch x s o U F He) Ho) as (k & v & Hl & Hv & ->).
        destruct (leads_steps _ _ _ _ _ _ _ Hl _ Hv) as (v0 & sts & Ev0 & Hst & Hrun). apply (answer_leads g' l' e ch' x s _ U' F He').
        destruct (Permutation_Forall2 Hc Hst) as (sts' & Hpm & Hst').
        assert (Hin : forall r, In (inr r) (causes g' l' e (or_nil ch')) -> plain_rule among rank r).
        { intros r Hi. apply Hp, (cause_rule g l e (or_nil ch)). apply (Permutation_in _ (Permutation_sym Hc) Hi). }
        destruct (steps_lead j' e x s (causes g' l' e (or_nil ch')) sts') with (h := starting g' s) (v := v0) (a := v) as (k' & Hl' & Hv').
        + refine (Forall2_In_weak _ _ _ _ Hst' _). intros [m|r] st Hi; cbn [cause_steps]; [auto|]. intros [(E & ops & Hy & ->)|N]; [left|right; exact N].
          exists E, ops. split; [|reflexivity]. subst s. destruct (Hin r Hi Hs e x) as [Ha _].
          apply (yields_ask D); [exact Hq|apply (ruled_kept bs D T o_size o_align), U'|].
          apply (yields_ask D) in Hy; [|exact Hq|apply (ruled_kept bs D T o_size o_align), U].
          refine (same_code j j' _ _ _ _ Ha _ Hy). intros q (e1 & x1 & s1 & -> & Hs1 & L1) Ec o1. apply (IH e1 x1 s1 Hs1); [lia|exact Ec].
        + rewrite <- (proj1 Hr s Hs). exact Ev0.
        + rewrite <- Hrun. symmetry. apply (O s Hs).
          * apply concat_perm, Hpm.
          * refine (all_unordered j e x s _ _ (ruled_kept bs D T o_size o_align g l U) Hs _ Hst). intros r Hi. apply Hp, (cause_rule g l e (or_nil ch)), Hi.
          * apply Forall_forall. auto.
          * exact Logic.I.
        + exists k', v. auto.
      - apply (answer_nobody (ruled T bs g l)) in Ho; [|exact He]. apply answer_nobody; [exact He'|exact Ho].
    Qed.
    Lemma both_agree : (forall s, among s -> order_free_if_done (VS s) (fun _ => True) (fun _ => True)) ->
      forall n e x s, among s -> rank s < n -> fits s -> forall o o', (exists m, answer j m (RStat e x s) = Done o) -> (exists m, answer j' m (RStat e x s) = Done o') -> o = o'.
    Proof.
      intros O n. induction n as [|n IH]; intros e x s Hs L F o o' Ho Ho'; [lia|]. pose proof (proj2 Hr e) as Hc.
      destruct (w_entities (j_world (g_querier g)) e) as [ch|] eqn:He; destruct (w_entities (j_world (g_querier g')) e) as [ch'|] eqn:He'; try contradiction.
      - destruct (proj1 (answer_leads g l e ch x s o U F He) Ho) as (k & v & Hl & Hv & ->). destruct (proj1 (answer_leads g' l' e ch' x s o' U' F He') Ho') as (k' & v' & Hl' & Hv' & ->).
        destruct (leads_steps _ _ _ _ _ _ _ Hl _ Hv) as (v0 & sts & Ev0 & Hst & Hrun). destruct (leads_steps _ _ _ _ _ _ _ Hl' _ Hv') as (v0' & sts' & Ev0' & Hst' & Hrun').
        assert (v0' = v0) by (rewrite <- (proj1 Hr s Hs) in Ev0'; congruence). subst v0'.
        destruct (Permutation_Forall2 Hc Hst) as (sts1 & Hpm & Hst1).
        assert (Hin : forall r, In (inr r) (causes g' l' e (or_nil ch')) -> plain_rule among rank r).
        { intros r Hi. apply Hp, (cause_rule g l e (or_nil ch)). apply (Permutation_in _ (Permutation_sym Hc) Hi). }
        assert (E : sts1 = sts').
        { clear - IH Hst1 Hst' Hin OQ Hq D U U' L Hs. revert sts1 sts' Hst1 Hst' Hin. induction (causes g' l' e (or_nil ch')) as [|y c IHc]; intros sts1 sts' H1 H'.
          - inversion H1; inversion H'; reflexivity.
          - inversion H1 as [|? st ? ? Hy Hc1]; subst. inversion H' as [|? st' ? ? Hy' Hc']; subst. intros Hin. f_equal; [|apply IHc; [assumption..|]; intros r Hi; apply Hin; right; exact Hi].
            destruct y as [m|r]; cbn [cause_steps] in Hy, Hy'.
            + destruct Hy as (hs & vs & Hc0 & Hv & ->). destruct Hy' as (hs' & vs' & Hc0' & Hv' & ->).
              assert (hs' = hs) by (eapply (chosen_unique OQ); [reflexivity|exact Hc0'|exact Hc0]). subst hs'.
              exact (values_unique _ _ _ Hv Hv').
            + destruct Hy as [(E & ops & Hy & ->)|(N & ->)]; destruct Hy' as [(E' & ops' & Hy' & ->)|(N' & ->)]; try contradiction; [|reflexivity].
              subst s. rewrite (inst_uip _ E'). cbn [eq_rect]. f_equal. destruct (Hin r (or_introl eq_refl) Hs e x) as [Ha _].
              apply (yields_ask D) in Hy; [|exact Hq|apply (ruled_kept bs D T o_size o_align), U]. apply (yields_ask D) in Hy'; [|exact Hq|apply (ruled_kept bs D T o_size o_align), U'].
              refine (agreeing_code j j' _ _ _ _ Ha _ _ Hy Hy'). intros q (e1 & x1 & s1 & -> & Hs1 & L1) Ec o1 o1'. apply (IH e1 x1 s1 Hs1); [lia|exact Ec]. }
        subst sts1. do 2 f_equal.
        refine (O s Hs (concat sts) (concat sts') _ _ _ v0 v v' Logic.I Hrun Hrun').
        + apply concat_perm, Hpm.
        + refine (all_unordered j e x s _ _ (ruled_kept bs D T o_size o_align g l U) Hs _ Hst). intros r Hi. apply Hp, (cause_rule g l e (or_nil ch)), Hi.
        + apply Forall_forall. auto.
      - apply (answer_nobody (ruled T bs g l)) in Ho; [|exact He]. apply (answer_nobody (ruled T bs g' l')) in Ho'; [|exact He']. congruence.
    Qed.
  End Way.
  Lemma reordered_sym (g g' : game P Q) l l' : reordered among g l g' l' -> reordered among g' l' g l.
  Proof.
    intros [A B]. split; [intros s Hs; symmetry; apply A, Hs|]. intros e. specialize (B e).
    destruct (w_entities (j_world (g_querier g)) e), (w_entities (j_world (g_querier g')) e); try exact B. apply Permutation_sym, B.
  Qed.
  Lemma C82_reordered_proof (g g' : game P Q) l l' : lawful_game T bs o_size o_align g l -> lawful_game T bs o_size o_align g' l' -> reordered among g l g' l' ->
    (forall r, In (inr r) l \/ In (inr r) l' -> plain_rule among rank r) -> (forall s, among s -> order_free (VS s) (fun _ => True) (fun _ => True)) ->
    forall A (p : prog P Q A) past past' a, only_asks (about among) p -> (yields (ruled T bs g l) past p a <-> yields (ruled T bs g' l') past' p a).
  Proof.
    intros U U' Hr Hp O A p past past' a Ha. rewrite (yields_ask D) by (try exact Hq; apply (ruled_kept bs D T o_size o_align), U).
    rewrite (yields_ask D) by (try exact Hq; apply (ruled_kept bs D T o_size o_align), U').
    split; refine (same_code _ _ (about among) _ _ p Ha a); intros [e x s|e1 e2 x s|e q] Hs Ec o; try contradiction; cbn [about] in Hs.
    - refine (one_way g g' l l' U U' Hr _ O (S (rank s)) e x s Hs _ Ec o); [auto|lia].
    - refine (one_way g' g l' l U' U (reordered_sym _ _ _ _ Hr) _ O (S (rank s)) e x s Hs _ Ec o); [auto|lia].
  Qed.
  Lemma C82_agree_proof (g g' : game P Q) l l' : lawful_game T bs o_size o_align g l -> lawful_game T bs o_size o_align g' l' -> reordered among g l g' l' ->
    (forall r, In (inr r) l -> plain_rule among rank r) -> (forall s, among s -> order_free_if_done (VS s) (fun _ => True) (fun _ => True)) ->
    forall A (p : prog P Q A) past past' a a', only_asks (about among) p -> yields (ruled T bs g l) past p a -> yields (ruled T bs g' l') past' p a' -> a = a'.
  Proof.
    intros U U' Hr Hp O A p past past' a a' Ha Hy Hy'. apply (yields_ask D) in Hy; [|exact Hq|apply (ruled_kept bs D T o_size o_align), U].
    apply (yields_ask D) in Hy'; [|exact Hq|apply (ruled_kept bs D T o_size o_align), U'].
    refine (agreeing_code _ _ (about among) _ _ p Ha a a' Hy Hy'). intros [e x s|e1 e2 x s|e q] Hs Ec o o'; try contradiction; cbn [about] in Hs.
    refine (both_agree g g' l l' U U' Hr Hp O (S (rank s)) e x s Hs _ Ec o o'). lia.
  Qed.
  Lemma needs_none S : needs_no_order S -> order_free S (fun _ => True) (fun _ => True).
  Proof.
    intros [(oc & I & W & [->|(R & scale & ->)])|[->|[->|[->|(A & ->)]]]];
      [apply statInt_order_free, W|apply statPctAdd_order_free, W|apply zflags_order_free|apply statExists_order_free|apply bool_order_free|apply statOnce_order_free].
  Qed.
  Lemma agrees_any S : agrees_in_any_order S -> order_free_if_done S (fun _ => True) (fun _ => True).
  Proof.
    intros [H|(t & [->|(R & scale & ->)])]; [|apply statInt_agree|apply statPctAdd_agree].
    intros l l' Hp Hu He v r r' Hv E E'. pose proof (needs_none S H l l' Hp Hu He v Hv). congruence.
  Qed.
End L.

Lemma C82_order_free_types_proof : forall (P : Prog) (Q : QFlag), lawful_ord (q_cmp Q) -> forall bs : list comparison -> bsres, bs_contract bs -> distinct_vtables P ->
  forall (T : StatTypes P) (o_size o_align : vty P -> Z), flags_eq (Q := Q) -> forall (among : inst P -> Prop) (rank : inst P -> nat) (g g' : game P Q) l l',
  lawful_game T bs o_size o_align g l -> lawful_game T bs o_size o_align g' l' -> reordered among g l g' l' ->
  (forall r, In (inr r) l \/ In (inr r) l' -> plain_rule among rank r) -> (forall s, among s -> needs_no_order (VT P (vt_value P (si_ty s)))) ->
  forall A (p : prog P Q A) past past' a, only_asks (about among) p -> (yields (ruled T bs g l) past p a <-> yields (ruled T bs g' l') past' p a).
Proof.
  intros P Q OQ bs C D T o_size o_align Hq among rank g g' l l' U U' Hr Hp O. apply (C82_reordered_proof OQ bs C D T o_size o_align Hq among rank g g' l l' U U' Hr Hp).
  intros s Hs. apply needs_none, O, Hs.
Qed.
Lemma C82_checked_types_proof : forall (P : Prog) (Q : QFlag), lawful_ord (q_cmp Q) -> forall bs : list comparison -> bsres, bs_contract bs -> distinct_vtables P ->
  forall (T : StatTypes P) (o_size o_align : vty P -> Z), flags_eq (Q := Q) -> forall (among : inst P -> Prop) (rank : inst P -> nat) (g g' : game P Q) l l',
  lawful_game T bs o_size o_align g l -> lawful_game T bs o_size o_align g' l' -> reordered among g l g' l' ->
  (forall r, In (inr r) l -> plain_rule among rank r) -> (forall s, among s -> agrees_in_any_order (VT P (vt_value P (si_ty s)))) ->
  forall A (p : prog P Q A) past past' a a', only_asks (about among) p -> yields (ruled T bs g l) past p a -> yields (ruled T bs g' l') past' p a' -> a = a'.
Proof.
  intros P Q OQ bs C D T o_size o_align Hq among rank g g' l l' U U' Hr Hp O. apply (C82_agree_proof OQ bs C D T o_size o_align Hq among rank g g' l l' U U' Hr Hp).
  intros s Hs. apply agrees_any, O, Hs.
Qed.
