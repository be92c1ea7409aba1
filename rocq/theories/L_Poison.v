From Coq Require Import ZArith List Bool Permutation.
From Verif Require Import M_Outcome M_Value M_Types M_Qualifier M_Stat M_HashMap M_Pair M_Defaults M_Querier M_Poison
  S_Pair S_StatMap S_Querier S_Demo S_DemoQuery S_Poison L_HashMap L_Querier L_Querier2 L_Querier3 L_Querier4.
Import ListNotations.

Section L.
  Context {P : Prog} {Q : QFlag}.
  Variables cp dp : buffer P -> bool.
  Implicit Types st : pcache P Q.

  (** ** Without panicking clones and drops the lock is as good as none *)
  Lemma drop_loop_never (l : list (buffer P)) : drop_loop never l = (l, false).
  Proof. induction l as [|b l IH]; [reflexivity|]. cbn. rewrite IH. reflexivity. Qed.
  Lemma pstep_never {A} (m : act P Q A) (c : cache P Q) r : pstep never never m (PCache c false) = Some r ->
    exists m' c', astep m c = Some (m', c') /\ fst r = (m', PCache c' false).
  Proof.
    destruct m as [a|o|k f|k b f|f]; cbn; try discriminate.
    - destruct (hget key_eqb c k) as [b|]; cbn; intros H; injection H as <-; eauto.
    - intros H; injection H as <-; eauto.
    - rewrite drop_loop_never. cbn. intros H; injection H as <-; eauto.
  Qed.
  Lemma psteps_never {A} (s : list (act P Q A) * pcache P Q) lg s' : psteps never never s lg s' ->
    forall c, snd s = PCache c false -> exists c', snd s' = PCache c' false /\ steps (fst s, c) (fst s', c').
  Proof.
    induction 1 as [s|l1 m l2 st m' st' lg lg' s E _ IH]; intros c Hc.
    - exists c. split; [exact Hc|constructor].
    - cbn in Hc. subst st. apply pstep_never in E as (m1 & c1 & E1 & E2). cbn in E2. injection E2 as -> ->.
      destruct (IH c1 eq_refl) as (c' & H1 & H2). exists c'. split; [exact H1|]. cbn in *. eapply steps_one; eassumption.
  Qed.
  Lemma prun_never {A} (m : act P Q A) : forall c, prun never never m (PCache c false) = (fst (run m c), PCache (snd (run m c)) false).
  Proof.
    induction m as [a|o|k f IH|k b f IH|f IH]; intros c; cbn; try reflexivity.
    - destruct (hget key_eqb c k); cbn; apply IH.
    - apply IH.
    - rewrite drop_loop_never. cbn. apply IH.
  Qed.

  (** ** A poisoned lock stays so *)
  Lemma pstep_poisoned {A} (m : act P Q A) st r : pc_poisoned st = true -> pstep cp dp m st = Some r ->
    r = (AFail (Panics PUnwrap), st, no_log).
  Proof. intros H. destruct m; cbn; try discriminate; rewrite H; intros E; injection E as <-; reflexivity. Qed.
  Lemma psteps_poisoned {A} (s : list (act P Q A) * pcache P Q) lg s' : psteps cp dp s lg s' -> pc_poisoned (snd s) = true ->
    snd s' = snd s /\ lg = no_log.
  Proof.
    induction 1 as [s|l1 m l2 st m' st' lg lg' s E _ IH]; intros Hp; [auto|]. cbn in *.
    apply (pstep_poisoned _ _ _ Hp) in E. injection E as -> -> ->. destruct (IH Hp) as [-> ->]. auto.
  Qed.

  (** ** Answers *)
  Section Rely.
    Hypothesis Hd : distinct_vtables P.
    Hypothesis Hq : flags_eq (Q := Q).
    Variable V : key P Q -> buffer P -> Prop.
    Lemma good_pstep {A} (m : act P Q A) (R : outcome A -> Prop) st m' st' lg : (forall p, R (Panics p)) ->
      good V m R -> valid V (pc_map st) -> pstep cp dp m st = Some (m', st', lg) -> good V m' R /\ valid V (pc_map st').
    Proof.
      intros HR H Hc. destruct m as [a|o|k g|k b g|g]; cbn in *; try discriminate.
      - destruct (pc_poisoned st); [intros E; injection E as <- <- <-; cbn; auto|].
        destruct H as [H1 H2]. destruct (hget key_eqb (pc_map st) k) as [b|] eqn:Eb.
        + destruct (cp b); intros E; injection E as <- <- <-; cbn; auto.
        + intros E; injection E as <- <- <-; auto.
      - destruct (pc_poisoned st); [intros E; injection E as <- <- <-; cbn; auto|].
        destruct (cp b); [intros E; injection E as <- <- <-; cbn; auto|].
        intros E; injection E as <- <- <-. destruct H as [H1 H2]. split; [exact H2|apply valid_put; assumption].
      - destruct (pc_poisoned st); [intros E; injection E as <- <- <-; cbn; auto|].
        destruct (snd (drop_loop dp (map snd (pc_map st)))); intros E; injection E as <- <- <-; cbn; auto.
        split; [exact H|apply valid_nil].
    Qed.
    Lemma good_psteps {A} (s s' : list (act P Q A) * pcache P Q) lg (R : list (outcome A -> Prop)) : Forall (fun R : outcome A -> Prop => forall p, R (Panics p)) R ->
      psteps cp dp s lg s' -> Forall2 (fun m R => good V m R) (fst s) R -> valid V (pc_map (snd s)) ->
      Forall2 (fun m R => good V m R) (fst s') R /\ valid V (pc_map (snd s')).
    Proof.
      intros HR. induction 1 as [s|l1 m l2 st m' st' lg lg' s E _ IH]; intros Hg Hc; [split; assumption|]. cbn in *.
      apply Forall2_app_inv_l in Hg as (R1 & R2 & H1 & H2 & ->). inversion H2 as [|? y ? R2' H3 H4]; subst.
      assert (Hy : forall p, y (Panics p)) by (apply Forall_app in HR as [_ HR]; inversion HR; assumption).
      destruct (good_pstep m y st m' st' lg Hy H3 Hc E) as [G1 G2]. apply IH; [|exact G2].
      apply Forall2_app; [exact H1|]. constructor; assumption.
    Qed.
  End Rely.

  (** ** Every buffer is dropped at most once *)
  Lemma drop_loop_split (l : list (buffer P)) : exists rest, l = fst (drop_loop dp l) ++ rest /\ (snd (drop_loop dp l) = false -> rest = []).
  Proof.
    induction l as [|b l [rest [E1 E2]]]; [exists []; auto|]. cbn. destruct (dp b); cbn.
    - exists l. split; [reflexivity|discriminate].
    - exists rest. split; [f_equal; exact E1|exact E2].
  Qed.
  Definition owned st : list (buffer P) := if pc_poisoned st then [] else map snd (pc_map st).
  Lemma pstep_conserved {A} (m : act P Q A) st m' st' lg : pstep cp dp m st = Some (m', st', lg) ->
    exists lost, Permutation (owned st ++ l_placed lg) (l_dropped lg ++ l_forgotten lg ++ owned st' ++ lost) /\ (pc_poisoned st' = false -> lost = []).
  Proof.
    unfold owned. destruct m as [a|o|k g|k b g|g]; cbn; try discriminate.
    - destruct (pc_poisoned st) eqn:Ep.
      + intros E; injection E as <- <- <-. rewrite Ep. cbn. exists []. auto.
      + destruct (hget key_eqb (pc_map st) k) as [b|]; [destruct (cp b)|]; intros E; injection E as <- <- <-; rewrite Ep; cbn; exists []; rewrite ?app_nil_r; auto.
    - destruct (pc_poisoned st) eqn:Ep; [intros E; injection E as <- <- <-; rewrite Ep; cbn; exists []; auto|].
      destruct (cp b); intros E; injection E as <- <- <-; cbn.
      + exists (map snd (pc_map st)). rewrite app_nil_r. split; [reflexivity|discriminate].
      + exists []. rewrite app_nil_r. split; [|reflexivity].
        rewrite <- Permutation_cons_append, (hput_perm key_eqb (pc_map st) k b), Permutation_app_comm.
        assert (Ho : olist (snd (hput key_eqb (pc_map st) k b)) = in_olist (snd (hput key_eqb (pc_map st) k b))) by (destruct (snd (hput key_eqb (pc_map st) k b)); reflexivity).
        rewrite Ho. apply Permutation_app_comm || reflexivity.
    - destruct (pc_poisoned st) eqn:Ep; [intros E; injection E as <- <- <-; rewrite Ep; cbn; exists []; auto|].
      destruct (drop_loop_split (map snd (pc_map st))) as (rest & E1 & E2).
      destruct (snd (drop_loop dp (map snd (pc_map st)))); intros E; injection E as <- <- <-; cbn; rewrite app_nil_r.
      + exists rest. split; [rewrite E1 at 1; reflexivity|discriminate].
      + exists []. rewrite E1 at 1. rewrite (E2 eq_refl). split; [reflexivity|reflexivity].
  Qed.
  Lemma psteps_conserved {A} (s : list (act P Q A) * pcache P Q) lg s' : psteps cp dp s lg s' ->
    exists lost, Permutation (owned (snd s) ++ l_placed lg) (l_dropped lg ++ l_forgotten lg ++ owned (snd s') ++ lost) /\ (pc_poisoned (snd s') = false -> lost = []).
  Proof.
    intros H. induction H as [s|l1 m l2 st m' st' lg lg' s E H IH]; cbn.
    - exists []. rewrite !app_nil_r. auto.
    - apply pstep_conserved in E as (lost1 & H1 & N1). destruct IH as (lost2 & H2 & N2). cbn in H2.
      exists (lost1 ++ lost2). split.
      + rewrite app_assoc, H1. rewrite <- !app_assoc. apply Permutation_app_head.
        transitivity (l_forgotten lg ++ lost1 ++ (owned st' ++ l_placed lg')).
        { apply Permutation_app_head. rewrite (Permutation_app_swap_app lost1). reflexivity. }
        rewrite H2. rewrite (Permutation_app_swap_app lost1), (Permutation_app_swap_app (l_forgotten lg)).
        apply Permutation_app_head. apply Permutation_app_head. rewrite (Permutation_app_swap_app lost1). apply Permutation_app_head.
        apply Permutation_app_swap_app.
      + intros Hf. rewrite (N2 Hf), app_nil_r. apply N1.
        destruct (pc_poisoned st') eqn:Ep; [|reflexivity]. destruct (psteps_poisoned _ _ _ H Ep) as [Es _]. cbn in Es. rewrite Es in Hf. congruence.
  Qed.
End L.

Lemma C57_user_panics_harmless_proof : forall (P : Prog) (Q : QFlag) (A : Type) (ts ms : list (act P Q A)) (c : cache P Q) st lg,
  psteps never never (ts, PCache c false) lg (ms, st) -> pc_poisoned st = false /\ steps (ts, c) (ms, pc_map st).
Proof. intros P Q A ts ms c st lg H. destruct (psteps_never _ _ _ H c eq_refl) as (c' & E & S). cbn in *. subst st. auto. Qed.

Lemma C57_answers_right_proof : forall (P : Prog) (Q : QFlag) (cp dp : buffer P -> bool) (j : joined P Q) (A : Type) (ts : list (nat * prog P Q A)) ms st lg,
  distinct_vtables P -> flags_eq (Q := Q) -> j_cached j = true -> stats_kept j ->
  psteps cp dp (map (fun t => client j (fst t) (snd t)) ts, PCache [] false) lg (ms, st) ->
  forall i t m a, nth_error ts i = Some t -> nth_error ms i = Some m -> finished m (Done a) ->
  exists n, fst (run (client (uncached j) n (snd t)) []) = Done a.
Proof.
  intros P Q cp dp j A ts ms st lg Hd Hq Hc Hk H i t m a Ht Hm Hf.
  set (Rof := fun t : nat * prog P Q A => fun o : outcome A => forall a, o = Done a -> exists n, ask j n (snd t) = Done a).
  assert (G : Forall2 (fun m R => good (right j) m R) ms (map Rof ts)).
  { eapply (good_psteps cp dp Hd Hq (right j) (map (fun t => client j (fst t) (snd t)) ts, PCache [] false) (ms, st) lg (map Rof ts)); [|exact H| |].
  - apply Forall_forall. intros R HR. apply in_map_iff in HR as (t' & <- & _). intros p a' E. discriminate E.
  - cbn. clear -Hc Hk Hd Hq. induction ts as [|t ts IH]; cbn; constructor; [|exact IH].
    eapply good_weaken; [|apply (client_good j (fst t) (snd t) Hc Hk)]. intros o [H1 _] a' ->. apply H1. discriminate.
  - apply valid_nil. }
  pose proof (Forall2_nth _ _ _ G i m (Rof t) Hm (map_nth_error Rof i ts Ht)) as Hg.
    assert (HR : Rof t (Done a)).
    { destruct m as [a'|o|k f|k b f|f]; cbn in Hf; try contradiction; cbn in Hg.
      - rewrite Hf in *. exact Hg.
      - rewrite Hf. exact Hg. }
    destruct (HR a eq_refl) as [n En]. exists n. rewrite uncached_ask. exact En.
Qed.

Lemma C57_poison_is_permanent_proof : forall (P : Prog) (Q : QFlag) (cp dp : buffer P -> bool) (A : Type) (ts ms : list (act P Q A)) (c : cache P Q) st lg,
  psteps cp dp (ts, PCache c true) lg (ms, st) -> st = PCache c true /\ lg = no_log.
Proof. intros P Q cp dp A ts ms c st lg H. exact (psteps_poisoned cp dp _ _ _ H eq_refl). Qed.

Lemma C57_poisoned_queries_panic_proof : forall (P : Prog) (Q : QFlag) (cp dp : buffer P -> bool) (j : joined P Q) n e x s (c : cache P Q),
  j_cached j = true -> w_entities (j_world j) e <> None -> fits s ->
  prun cp dp (client j (S n) (p_query e x s)) (PCache c true) = (Panics PUnwrap, PCache c true) /\
  prun cp dp (client j n (Wipe (Ret tt))) (PCache c true) = (Panics PUnwrap, PCache c true).
Proof.
  intros P Q cp dp j n e x s c Hc He Hf. unfold fits in Hf. split.
  - unfold client, p_query. cbn [interp check]. rewrite Hf. cbn. unfold query_stat_erased.
    destruct (w_entities (j_world j) e) as [ch|]; [|contradiction]. rewrite Hc. reflexivity.
  - unfold client. cbn. rewrite Hc. reflexivity.
Qed.

Lemma C57_dropped_once_proof : forall (P : Prog) (Q : QFlag) (cp dp : buffer P -> bool) (A : Type) (ts ms : list (act P Q A)) st lg,
  psteps cp dp (ts, PCache [] false) lg (ms, st) ->
  exists rest, Permutation (l_placed lg) (l_dropped lg ++ final_drop dp st ++ rest).
Proof.
  intros P Q cp dp A ts ms st lg H. destruct (psteps_conserved cp dp _ _ _ H) as (lost & E & _). cbn in E. unfold final_drop. unfold owned in E.
  destruct (pc_poisoned st); cbn in E |- *.
  - exists (l_forgotten lg ++ lost). exact E.
  - destruct (drop_loop_split dp (map snd (pc_map st))) as (rest & E1 & _). rewrite E1 in E.
    exists (l_forgotten lg ++ rest ++ lost). rewrite E. apply Permutation_app_head.
    rewrite <- app_assoc. apply Permutation_app_swap_app.
Qed.

Lemma fst3 {A B C} (x : A * B * C) a b c : x = (a, b, c) -> fst (fst x) = a. Proof. intros ->. reflexivity. Qed.
Lemma C57_clone_panic_refuted_proof :
  exists (cp : buffer demo -> bool) (p : dprog Z),
  let first := prun cp never (client (demo_joined true) 3 p) (PCache [] false) in
  fst first = Panics PUser /\ pc_poisoned (snd first) = true /\
  fst (prun cp never (client (demo_joined true) 3 (ask_hp 1%nat any)) (snd first)) = Panics PUnwrap /\
  fst (prun cp never (client (demo_joined true) 3 (Wipe (Ret 0%Z))) (snd first)) = Panics PUnwrap /\
  fst (prun cp never (client (demo_joined true) 3 (ask_hp 1%nat any)) (PCache [] false)) = Done 130%Z.
Proof. exists (panics_at 4549), (ask_hp 0%nat any). vm_compute. repeat split. Qed.
