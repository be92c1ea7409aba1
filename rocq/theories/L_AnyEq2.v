From Coq Require Import ZArith List Bool Permutation PeanoNat Lia.
From Verif Require Import M_Outcome M_Value M_Types M_Qualifier M_Stat M_HashMap M_Pair M_Defaults M_Querier M_Poison M_AnyEq
  S_Pair S_StatMap S_Querier S_Demo S_DemoQuery S_Poison S_AnyEq L_StatMap3 L_HashMap L_Defaults L_Querier L_Querier2 L_Querier3 L_Querier4 L_Query L_Poison L_AnyEq.
Import ListNotations.

Section L.
  Context {P : Prog} {Q : QFlag}.
  Notation qq := (qquery Q).
  Notation PR := (prog P Q).
  Variables cp dp : buffer P -> bool.
  Implicit Types (st : pcache P Q) (c : cache P Q) (w : whim Q) (j : joined P Q).

  (** ** Conservation *)
  Lemma set_slot_perm c n b : Permutation (b :: map snd c) (slot_value c n ++ map snd (set_slot c n b)) \/ set_slot c n b = c /\ slot_value c n = [].
  Proof.
    unfold slot_value. revert n. induction c as [|[k b0] c IH]; intros n; [right; destruct n; auto|]. destruct n as [|n]; cbn.
    - left. apply perm_swap.
    - destruct (IH n) as [H|[H1 H2]]; [left|right].
      + rewrite perm_swap, H. apply Permutation_middle.
      + rewrite H1. auto.
  Qed.
  Lemma whim_poisoned w {A} (m : act P Q A) st m' st' lg : pc_poisoned st = true -> whim_step cp dp w m st = Some (m', st', lg) -> st' = st /\ lg = no_log.
  Proof.
    intros Hp. destruct m as [a|o|k g|k b g|g]; cbn; rewrite ?Hp; try discriminate; [|destruct (w_clone w (key_query k))|];
      intros E; injection E as <- <- <-; auto.
  Qed.
  Lemma whim_conserved w {A} (m : act P Q A) st m' st' lg : whim_step cp dp w m st = Some (m', st', lg) ->
    exists lost, Permutation (owned st ++ l_placed lg) (l_dropped lg ++ l_forgotten lg ++ owned st' ++ lost) /\ (pc_poisoned st' = false -> lost = []).
  Proof.
    intros E. destruct (pc_poisoned st) eqn:Ep.
    { destruct (whim_poisoned w m st m' st' lg Ep E) as [-> ->]. exists []. cbn. rewrite !app_nil_r. auto. }
    unfold owned. rewrite Ep. destruct m as [a|o|k g|k b g|g]; cbn [whim_step] in E; try discriminate E; rewrite ?Ep in E.
    - assert (st' = st /\ lg = no_log) as [-> ->]; [|rewrite Ep; exists []; cbn; rewrite !app_nil_r; auto].
      destruct (w_clone w (key_query k)); [|split; congruence]. destruct (w_slots w); [|split; congruence].
      destruct (any_find _ _ _ _ _); [|split; congruence]. destruct (_ || _) in E; split; congruence.
    - destruct (w_clone w (key_query k)) as [x|]; [|injection E as <- <- <-; rewrite Ep; exists []; cbn; rewrite !app_nil_r; auto].
      destruct (cp b); [injection E as <- <- <-; cbn; exists (map snd (pc_map st)); rewrite app_nil_r; split; [reflexivity|discriminate]|].
      assert (Hlost : forall c, exists lost, Permutation (map snd (pc_map st) ++ [b]) ([] ++ [b] ++ owned (PCache c true) ++ lost) /\ (true = false -> lost = [])).
      { intros c. exists (map snd (pc_map st)). cbn. split; [symmetry; apply Permutation_cons_append|discriminate]. }
      destruct (w_slots w) as [l|]; [|injection E as <- <- <-; apply (Hlost (pc_map st))].
      destruct (w_rehash w) as [r|]; [injection E as <- <- <-; apply (Hlost (left_in (pc_map st) r))|].
      destruct (any_find _ _ _ _ _) as [[n|]|] eqn:Ef; [| |injection E as <- <- <-; apply (Hlost (pc_map st))].
      + assert (Hs : Permutation (map snd (pc_map st) ++ [b]) (slot_value (pc_map st) n ++ map snd (set_slot (pc_map st) n b))).
        { rewrite <- Permutation_cons_append. destruct (set_slot_perm (pc_map st) n b) as [H|[_ H2]]; [exact H|].
          destruct k as [[e0 x0] s0]. cbn [with_query] in Ef. apply any_find_hit in Ef as (x' & s' & b' & En & _). unfold slot_value in H2. rewrite En in H2. discriminate H2. }
        destruct (w_drop w); injection E as <- <- <-; cbn.
        * exists (map snd (set_slot (pc_map st) n b)). split; [exact Hs|discriminate].
        * exists []. rewrite app_nil_r. auto.
      + injection E as <- <- <-. cbn. exists []. rewrite map_app, app_nil_r. auto.
    - destruct (drop_loop_split dp (map snd (pc_map st))) as (rest & E1 & E2).
      destruct (snd (drop_loop dp (map snd (pc_map st)))) eqn:Es.
      + injection E as <- <- <-. cbn. exists rest. rewrite E1 at 1. rewrite app_nil_r. split; [reflexivity|discriminate].
      + destruct (w_drop w); injection E as <- <- <-; cbn; exists []; rewrite !app_nil_r; rewrite E1 at 1; rewrite (E2 eq_refl), app_nil_r; auto.
  Qed.
  Lemma whims_poisoned {A} (s : list (act P Q A) * pcache P Q) lg s' : whim_steps cp dp s lg s' -> pc_poisoned (snd s) = true -> snd s' = snd s /\ lg = no_log.
  Proof.
    induction 1 as [s|w l1 m l2 st m' st' lg lg' s E _ IH]; intros Hp; [auto|]. cbn in *.
    destruct (whim_poisoned w m st m' st' lg Hp E) as [-> ->]. destruct (IH Hp) as [-> ->]. auto.
  Qed.
  Lemma whims_conserved {A} (s : list (act P Q A) * pcache P Q) lg s' : whim_steps cp dp s lg s' ->
    exists lost, Permutation (owned (snd s) ++ l_placed lg) (l_dropped lg ++ l_forgotten lg ++ owned (snd s') ++ lost) /\ (pc_poisoned (snd s') = false -> lost = []).
  Proof.
    intros H. induction H as [s|w l1 m l2 st m' st' lg lg' s E H IH]; cbn.
    - exists []. rewrite !app_nil_r. auto.
    - apply whim_conserved in E as (lost1 & H1 & N1). destruct IH as (lost2 & H2 & N2). cbn in H2.
      exists (lost1 ++ lost2). split.
      + rewrite app_assoc, H1. rewrite <- !app_assoc. apply Permutation_app_head.
        transitivity (l_forgotten lg ++ lost1 ++ (owned st' ++ l_placed lg')).
        { apply Permutation_app_head. rewrite (Permutation_app_swap_app lost1). reflexivity. }
        rewrite H2. rewrite (Permutation_app_swap_app lost1), (Permutation_app_swap_app (l_forgotten lg)).
        apply Permutation_app_head. apply Permutation_app_head. rewrite (Permutation_app_swap_app lost1). apply Permutation_app_head.
        apply Permutation_app_swap_app.
      + intros Hf. rewrite (N2 Hf), app_nil_r. apply N1.
        destruct (pc_poisoned st') eqn:Ep; [|reflexivity]. destruct (whims_poisoned _ _ _ H Ep) as [Es _]. cbn in Es. rewrite Es in Hf. congruence.
  Qed.

  (** ** Where entries come from *)
  Hypothesis Hd : distinct_vtables P.
  Lemma hist_entries {A} (s s' : list (act P Q A) * pcache P Q) l : any_hist cp dp s l s' ->
    forall e x t b, In ((e, x, t), b) (pc_map (snd s')) -> (exists x', In ((e, x', t), b) (pc_map (snd s))) \/ In (e, t, b) l.
  Proof.
    induction 1 as [s|w l1 m l2 st m' st' lg l s E _ IH]; intros e x t b Hi; [left; eauto|]. cbn in *.
    destruct (IH e x t b Hi) as [[x' H]|H]; [|right; apply in_or_app; auto].
    destruct (step_entries cp dp Hd w m st m' st' lg E e x' t b H) as [H1|H1]; [left; exact H1|right; apply in_or_app; auto].
  Qed.

  (** ** Flags that behave *)
  Hypothesis Hq : flags_eq (Q := Q).
  Lemma fair_query_eq w i (a b : qq) : (forall i a b, w_eq w i a b = Some (q_eqb Q a b)) ->
    exists i', any_query_eq w i a b = (Some (qquery_eqb a b), i').
  Proof.
    intros Hw. destruct a as [s|n l], b as [s'|n' l']; cbn; rewrite ?Hw; eauto. destruct (q_eqb Q n n'); cbn; rewrite ?Hw; eauto.
  Qed.
  Lemma fair_entry_eq w i (a b : key P Q) : (forall i a b, w_eq w i a b = Some (q_eqb Q a b)) ->
    exists i', any_entry_eq w i a b = (Some (key_eqb a b), i').
  Proof.
    intros Hw. destruct a as [[e x] s], b as [[e' x'] s']. cbn. destruct (Nat.eqb e e'); cbn; [|eauto].
    destruct (fair_query_eq w i x x' Hw) as [i' ->]. destruct (qquery_eqb x x'); cbn; eauto.
  Qed.
  Lemma fair_find w c k l : (forall i a b, w_eq w i a b = Some (q_eqb Q a b)) -> forall i,
    exists o, any_find w i c k l = Some o /\ match o with
      | Some n => exists b, nth_error c n = Some (k, b)
      | None => forall n b, In n l -> nth_error c n <> Some (k, b)
      end.
  Proof.
    intros Hw. induction l as [|m l IH]; intros i; cbn [any_find]; [exists None; split; [reflexivity|intros n b []]|].
    destruct (nth_error c m) as [[k' b]|] eqn:En.
    - destruct (fair_entry_eq w i k k' Hw) as [i' ->]. destruct (key_eqb k k') eqn:Ek.
      + apply (key_eqb_ok Hd Hq) in Ek as <-. exists (Some m). split; [reflexivity|eauto].
      + destruct (IH i') as ([n|] & E & H); rewrite E; [exists (Some n)|exists None]; split; auto. intros n b' [<- |Hi]; [|apply H, Hi].
        rewrite En. intros E'. injection E' as -> _. assert (key_eqb k k = true) by (apply (key_eqb_ok Hd Hq); reflexivity). congruence.
    - destruct (IH i) as ([n|] & E & H); rewrite E; [exists (Some n)|exists None]; split; auto. intros n b' [<- |Hi]; [|apply H, Hi]. congruence.
  Qed.
  Lemma hget_nth c k : NoDup (map fst c) -> forall n b, nth_error c n = Some (k, b) -> hget key_eqb c k = Some b.
  Proof.
    intros Hn n b Hi. apply (hget_nodup key_eqb (key_eqb_ok Hd Hq)); [exact Hn|]. eapply nth_error_In; exact Hi.
  Qed.
  Lemma hget_no c k : (forall n b, nth_error c n <> Some (k, b)) -> hget key_eqb c k = None.
  Proof.
    intros H. destruct (hget key_eqb c k) as [b|] eqn:E; [|reflexivity].
    apply (hget_in key_eqb (key_eqb_ok Hd Hq)) in E. apply In_nth_error in E as [n E]. destruct (H n b E).
  Qed.
  Lemma hput_set c k b0 b n : NoDup (map fst c) -> nth_error c n = Some (k, b0) ->
    hput key_eqb c k b = (set_slot c n b, Some b0).
  Proof.
    revert n. induction c as [|[k' b'] c IH]; intros n Hn En; [destruct n; discriminate En|]. cbn.
    destruct n as [|n]; cbn in En.
    - injection En as -> ->. assert (key_eqb k k = true) as -> by (apply (key_eqb_ok Hd Hq); reflexivity). reflexivity.
    - cbn in Hn. inversion Hn as [|? ? H1 H2]; subst. destruct (key_eqb k' k) eqn:E.
      + apply (key_eqb_ok Hd Hq) in E as ->. destruct H1. apply nth_error_In in En. apply (in_map fst) in En. exact En.
      + rewrite (IH n H2 En). reflexivity.
  Qed.
  Lemma hput_new c k b : hget key_eqb c k = None -> hput key_eqb c k b = (c ++ [(k, b)], None).
  Proof.
    induction c as [|[k' b'] c IH]; [reflexivity|]. cbn. destruct (key_eqb k' k) eqn:E; [discriminate|].
    intros H. rewrite (IH H). reflexivity.
  Qed.
  Lemma with_same (k : key P Q) : with_query k (key_query k) = k. Proof. destruct k as [[e x] s]. reflexivity. Qed.
  Lemma well_find w c k : NoDup (map fst c) -> well_behaved c k w ->
    exists l, w_slots w = Some l /\ exists o, any_find w 0 c k l = Some o /\ match o with
      | Some n => exists b, nth_error c n = Some (k, b)
      | None => hget key_eqb c k = None
      end.
  Proof.
    intros Hn Hw. destruct (wb_slots _ _ _ Hw) as (l & E & Hl). exists l. split; [exact E|].
    destruct (fair_find w c k l (wb_eq _ _ _ Hw) 0%nat) as (o & Ef & H). exists o. split; [exact Ef|]. destruct o as [n|]; [exact H|].
    apply hget_no. intros n b En. apply (H n b (Hl n b En) En).
  Qed.
  Lemma lawful_step w {A} (m : act P Q A) st : NoDup (map fst (pc_map st)) -> behaves m (pc_map st) w ->
    whim_step cp dp w m st = pstep cp dp m st.
  Proof.
    intros Hn [Hw1 Hw2]. destruct m as [a|o|k g|k b g|g]; cbn [act_key] in Hw2; cbn [whim_step pstep]; try reflexivity.
    - destruct (pc_poisoned st); [reflexivity|]. rewrite (wb_clone _ _ _ Hw2), with_same, Hw1.
      destruct (well_find w (pc_map st) k Hn Hw2) as (l & El & o & Eo & H). rewrite El, Eo. destruct o as [n|]; [|rewrite H; reflexivity].
      destruct H as [b Eb]. unfold slot_value. rewrite Eb. cbn. rewrite (hget_nth _ k Hn n b Eb), orb_false_r. reflexivity.
    - rewrite (wb_clone _ _ _ Hw2), with_same, Hw1, (wb_rehash _ _ _ Hw2). destruct (pc_poisoned st); [reflexivity|]. destruct (cp b); [reflexivity|].
      destruct (well_find w (pc_map st) k Hn Hw2) as (l & El & o & Eo & H). rewrite El, Eo. destruct o as [n|].
      + destruct H as [b0 Eb]. unfold slot_value. rewrite Eb, (hput_set _ k b0 b n Hn Eb). reflexivity.
      + rewrite (hput_new _ k b H). reflexivity.
    - destruct (pc_poisoned st); [reflexivity|]. rewrite Hw1. reflexivity.
  Qed.
  Lemma pstep_nodup {A} (m : act P Q A) st m' st' lg : NoDup (map fst (pc_map st)) -> pstep cp dp m st = Some (m', st', lg) -> NoDup (map fst (pc_map st')).
  Proof.
    intros Hn. destruct m as [a|o|k g|k b g|g]; cbn [pstep]; try discriminate.
    - destruct (pc_poisoned st); [|destruct (hget key_eqb (pc_map st) k) as [b|]; [destruct (cp b)|]]; intros E; injection E as <- <- <-; exact Hn.
    - destruct (pc_poisoned st); [|destruct (cp b)]; intros E; injection E as <- <- <-; cbn; auto. apply (hput_nodup key_eqb (key_eqb_ok Hd Hq)), Hn.
    - destruct (pc_poisoned st); [|destruct (snd (drop_loop dp _))]; intros E; injection E as <- <- <-; cbn; auto. constructor.
  Qed.

  (** ** Drops *)
  Lemma whim_puts w {A} (m : act P Q A) st m' st' lg : whim_step cp dp w m st = Some (m', st', lg) ->
    puts_ok m -> (forall k b, In (k, b) (pc_map st) -> entry_ok k b) ->
    puts_ok m' /\ forall k b, In (k, b) (pc_map st') -> entry_ok k b.
  Proof.
    intros E Hm Hc. split.
    - destruct m as [a|o|[[e x] s] g|k b g|g]; [discriminate E|discriminate E| | |].
      + apply (step_get cp dp Hd) in E as [[p ->]|[-> |(b & x' & -> & Hi)]]; [exact I|apply Hm|apply Hm].
      + apply step_put in E as [[p ->]| ->]; [exact I|apply Hm].
      + apply step_clear in E as [[p ->]| ->]; [exact I|apply Hm].
    - intros [[e x] s] b Hi. destruct (step_entries cp dp Hd w m st m' st' lg E e x s b Hi) as [[x' H]|H]; [apply (Hc (e, x', s) b H)|].
      destruct m as [a|o|k g|[[e0 x0] s0] b0 g|g]; cbn in H; try (destruct H; fail). destruct H as [H|[]]. injection H as -> -> ->. apply Hm.
  Qed.
  Lemma whims_puts {A} (s s' : list (act P Q A) * pcache P Q) lg : whim_steps cp dp s lg s' ->
    Forall puts_ok (fst s) -> (forall k b, In (k, b) (pc_map (snd s)) -> entry_ok k b) ->
    forall k b, In (k, b) (pc_map (snd s')) -> entry_ok k b.
  Proof.
    induction 1 as [s|w l1 m l2 st m' st' lg lg' s E _ IH]; intros Hf Hc; [exact Hc|]. cbn in *.
    apply Forall_app in Hf as [H1 H2]. inversion H2; subst. destruct (whim_puts w m st m' st' lg E) as [G1 G2]; [assumption|exact Hc|].
    apply IH; [|exact G2]. apply Forall_app. split; [exact H1|]. constructor; assumption.
  Qed.
End L.

Lemma good_done {P : Prog} {Q : QFlag} (V : key P Q -> buffer P -> Prop) {A} (m : act P Q A) R (o : outcome A) : good V m R -> finished m o -> R o.
Proof. destruct m; cbn; intros H F; try contradiction; subst; exact H. Qed.

Lemma C68_queries_safe_proof : forall (P : Prog) (Q : QFlag) (cp dp : buffer P -> bool) (A : Type) (ts : list (@asker P Q A)) ms st lg,
  distinct_vtables P -> Forall asks_soundly ts ->
  whim_steps cp dp (map asking ts, PCache [] false) lg (ms, st) ->
  forall m o, In m ms -> finished m o -> o <> UB.
Proof.
  intros P Q cp dp A ts ms st lg Hd Ht Hs m o Hi Hf.
  destruct (good_whim_steps cp dp Hd (typed_entry (P := P) (Q := Q)) (fun e x x' s b H => H) (map asking ts, PCache [] false) (ms, st) lg
              (fun o : outcome A => o <> UB)) as [G _].
  - discriminate.
  - exact Hs.
  - cbn. clear Hs. induction Ht as [|t ts (H1 & H2 & H3 & H4 & H5) _ IH]; cbn; constructor; [|exact IH].
    apply client_typed; [apply sound_querier_of; assumption|exact H5].
  - intros k b [].
  - cbn in G. rewrite Forall_forall in G. exact (good_done _ m _ o (G m Hi) Hf).
Qed.

Lemma C68_entries_origin_proof : forall (P : Prog) (Q : QFlag) (cp dp : buffer P -> bool) (A : Type) (ts ms : list (act P Q A)) st l,
  distinct_vtables P -> any_hist cp dp (ts, PCache [] false) l (ms, st) ->
  forall e x s b, In ((e, x, s), b) (pc_map st) -> In (e, s, b) l.
Proof.
  intros P Q cp dp A ts ms st l Hd H e x s b Hi. destruct (hist_entries cp dp Hd _ _ _ H e x s b Hi) as [[x' []]|H']. exact H'.
Qed.

Lemma C68_hit_origin_proof : forall (P : Prog) (Q : QFlag) (cp dp : buffer P -> bool) (w : whim Q) (A : Type) e x s (f : option (buffer P) -> act P Q A) st m' st' lg,
  distinct_vtables P -> whim_step cp dp w (AGet (e, x, s) f) st = Some (m', st', lg) ->
  (exists p, m' = AFail (Panics p)) \/ m' = f None \/ exists b x', m' = f (Some b) /\ In ((e, x', s), b) (pc_map st).
Proof. intros P Q cp dp w A e x s f st m' st' lg Hd H. exact (step_get cp dp Hd w e x s f st m' st' lg H). Qed.

Lemma C68_drop_typed_proof : forall (P : Prog) (Q : QFlag) (cp dp : buffer P -> bool) (A : Type) (ts : list (@asker P Q A)) ms st lg,
  distinct_vtables P -> whim_steps cp dp (map asking ts, PCache [] false) lg (ms, st) -> cache_drop (pc_map st) = Done tt.
Proof.
  intros P Q cp dp A ts ms st lg Hd H. apply drop_ok.
  apply (whims_puts cp dp Hd _ _ _ H); [|intros k b []]. cbn. apply Forall_forall. intros m Hm. apply in_map_iff in Hm as (t & <- & _).
  apply puts_interp. apply puts_level.
Qed.

Lemma C68_dropped_once_proof : forall (P : Prog) (Q : QFlag) (cp dp : buffer P -> bool) (A : Type) (ts ms : list (act P Q A)) st lg,
  whim_steps cp dp (ts, PCache [] false) lg (ms, st) ->
  exists rest, Permutation (l_placed lg) (l_dropped lg ++ final_drop dp st ++ rest).
Proof.
  intros P Q cp dp A ts ms st lg H. destruct (whims_conserved cp dp _ _ _ H) as (lost & E & _). cbn in E. unfold final_drop. unfold owned in E.
  destruct (pc_poisoned st); cbn in E |- *.
  - exists (l_forgotten lg ++ lost). exact E.
  - destruct (drop_loop_split dp (map snd (pc_map st))) as (rest & E1 & _). rewrite E1 in E.
    exists (l_forgotten lg ++ rest ++ lost). rewrite E. apply Permutation_app_head.
    rewrite <- app_assoc. apply Permutation_app_swap_app.
Qed.

Lemma C68_lawful_same_proof : forall (P : Prog) (Q : QFlag) (cp dp : buffer P -> bool) (w : whim Q) (A : Type) (m : act P Q A) st,
  distinct_vtables P -> flags_eq (Q := Q) -> NoDup (map fst (pc_map st)) -> behaves m (pc_map st) w ->
  whim_step cp dp w m st = pstep cp dp m st /\
  forall m' st' lg, pstep cp dp m st = Some (m', st', lg) -> NoDup (map fst (pc_map st')).
Proof.
  intros P Q cp dp w A m st Hd Hq Hn Hb. split; [apply lawful_step; assumption|]. intros m' st' lg E. eapply pstep_nodup; eassumption.
Qed.

Lemma C68_answers_refuted_proof :
  exists (ws : list (whim intQ)) (e : entity) (x y : qquery intQ) st,
  any_go never never ws (client (demo_joined true) 3 (ask_hp e x)) (PCache [] false) = Some (fst (run (client (uncached (demo_joined true)) 3 (ask_hp e x)) []), st) /\
  option_map fst (any_go never never ws (client (demo_joined true) 3 (ask_hp e y)) st) <> Some (fst (run (client (uncached (demo_joined true)) 3 (ask_hp e y)) [])) /\
  option_map fst (any_go never never ws (client (demo_joined true) 3 (ask_hp e y)) st) = Some (fst (run (client (uncached (demo_joined true)) 3 (ask_hp e x)) [])).
Proof.
  exists (List.repeat all_equal 9), 0%nat, any, (@Aggregate intQ 1%Z).
  exists (match any_go never never (List.repeat all_equal 9) (client (demo_joined true) 3 (ask_hp 0%nat any)) (PCache [] false) with Some (_, st) => st | None => PCache [] false end).
  assert (E : forall o : option (outcome Z * pcache demo intQ), option_map fst o = Some (fst (run (client (uncached (demo_joined true)) 3 (ask_hp 0%nat any)) [])) ->
     o = Some (fst (run (client (uncached (demo_joined true)) 3 (ask_hp 0%nat any)) []), match o with Some (_, st) => st | None => PCache [] false end)).
  { intros [[a st]|] H; [|discriminate]. cbn [option_map fst] in H. congruence. }
  split; [apply E; vm_compute; reflexivity|]. split; [vm_compute; discriminate|vm_compute; reflexivity].
Qed.
