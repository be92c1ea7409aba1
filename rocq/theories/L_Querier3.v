From Coq Require Import ZArith List Bool String Lia PeanoNat Permutation.
From Verif Require S_Types.
From Verif Require Import M_Outcome M_Value M_Qualifier M_Stat M_HashMap M_Pair M_Defaults M_Querier S_Pair S_StatMap S_Querier L_StatMap3 L_HashMap L_Defaults L_Querier L_Querier2.
Import ListNotations.

Section L.
  Context {P : Prog} {Q : QFlag}.
  Notation qq := (qquery Q).
  Notation PR := (prog P Q).
  Notation tyof s := (vt_value P (si_ty s)).
  Notation handler := (forall r : request P Q, outcome (raw r)).
  Implicit Types j : joined P Q.

  (** ** Properties of code carried to the bodies of queries *)
  Section Closed.
    Variable R : forall A, PR A -> Prop.
    Hypothesis Rret : forall A a, R A (Ret a).
    Hypothesis Rbind : forall A B p f, R A p -> (forall a, R B (f a)) -> R B (pbind p f).
    Lemma R_pfold {A B} (f : A -> B -> PR A) l : forall a, (forall b a, In b l -> R A (f a b)) -> R A (pfold f a l).
    Proof. induction l as [|b l IH]; intros a H; cbn; [apply Rret|]. apply Rbind; [apply H; left; reflexivity|]. intros a'. apply IH. intros; apply H; right; assumption. Qed.
    Lemma R_first {A} (f : A -> PR bool) l : (forall a, In a l -> R bool (f a)) -> R bool (first_true f l).
    Proof. induction l as [|p l IH]; intros H; cbn; [apply Rret|]. apply Rbind; [apply H; left; reflexivity|]. intros [|]; [apply Rret|]. apply IH. intros; apply H; right; assumption. Qed.
    Lemma in_iter_many (c : cstream P Q) es i : In i (iter_many c es) -> exists d, In d es /\ c_get c d = Some i.
    Proof.
      intros H. apply in_flat_map in H as (d & Hd & Hi). exists d. split; [exact Hd|]. destruct (c_get c d); [|contradiction].
      destruct Hi as [-> |[]]. reflexivity.
    Qed.
    Lemma R_stream (t : qstream P Q) e es x : (forall c d f p, In c (leaves t) -> In d es -> In f (on c e d x) -> R _ (f p)) ->
      forall p, R _ (q_stream t e es x p).
    Proof.
      induction t as [|a IHa b IHb|c]; intros H p; cbn [q_stream leaves] in *; [apply Rret| |].
      - apply Rbind; [apply IHa|intros a0; apply IHb]; intros c d f p0 Hc; apply H; apply in_or_app; [left|right]; exact Hc.
      - apply R_pfold. intros i p0 Hi. apply in_iter_many in Hi as (d & Hd & Hg).
        apply (H c d (c_stream c e i x)); [left; reflexivity|exact Hd|]. unfold on. rewrite Hg. left. reflexivity.
    Qed.
    Lemma R_attr (t : qstream P Q) e es a : (forall c d p, In c (leaves t) -> In d es -> In p (attr_on c e d a) -> R _ p) ->
      R _ (q_attr t e es a).
    Proof.
      induction t as [|l IHl r IHr|c]; intros H; cbn [q_attr leaves] in *; [apply Rret| |].
      - apply Rbind; [apply IHl|intros [|]; [apply Rret|apply IHr]]; intros c d p0 Hc; apply H; apply in_or_app; [left|right]; exact Hc.
      - apply R_first. intros i Hi. apply in_iter_many in Hi as (d & Hd & Hg).
        apply (H c d (c_attr c e i a)); [left; reflexivity|exact Hd|]. unfold attr_on. rewrite Hg. left. reflexivity.
    Qed.
    Lemma R_rel (q : qstream P Q) f t x : (forall c g p, In c (leaves q) -> In g (between c f t x) -> R _ (g p)) -> forall p, R _ (q_rel q f t x p).
    Proof.
      induction q as [|a IHa b IHb|c]; intros H p; cbn [q_rel leaves] in *; [apply Rret| |].
      - apply Rbind; [apply IHa|intros a0; apply IHb]; intros c g p0 Hc; apply H; apply in_or_app; [left|right]; exact Hc.
      - specialize (H c). unfold between in H. destruct (c_get c f) as [i|]; [|apply Rret]. destruct (c_get c t) as [k|]; [|apply Rret].
        apply (H (c_rel c i k x)); left; reflexivity.
    Qed.
    Lemma R_stat_body j e ch x p : all_code R j -> R _ (stat_body j e ch x p).
    Proof.
      intros Hc. pose proof (fun f p => code_stat _ _ Hc e ch x f p) as H. unfold stat_sources in H. unfold stat_body.
      apply Rbind; [|intros p1; apply Rbind; [|intros p2; apply Rbind; [|intros p3]]].
      - destruct (w_relations (j_world j)) as [l|]; [|apply Rret]. apply R_pfold. intros g p0 Hg. apply (H (g e x)).
        apply in_or_app. left. apply (in_map (fun g => g e x)). exact Hg.
      - apply R_stream. intros c d f p0 Hl [<- |[]] Hf. apply H. apply in_or_app. right. apply in_or_app. left. apply in_flat_map. eauto.
      - apply R_stream. intros c d f p0 Hl [<- |[]] Hf. apply H. do 2 (apply in_or_app; right). apply in_or_app. left. apply in_flat_map. eauto.
      - destruct ch as [ch|]; [|apply Rret]. apply R_stream. intros c d f p0 Hl Hdd Hf. apply H. do 3 (apply in_or_app; right).
        apply in_flat_map. exists c. split; [exact Hl|]. apply in_flat_map. eauto.
    Qed.
    Lemma R_rel_body j f t x p : all_code R j -> R _ (rel_body j f t x p).
    Proof.
      intros Hc. pose proof (fun g p => code_rel _ _ Hc f t x g p) as H. unfold rel_sources in H. unfold rel_body.
      apply Rbind; [|intros p1].
      - destruct (w_relations (j_world j)) as [l|]; [|apply Rret]. apply R_pfold. intros g p0 Hg. apply (H (g (w_placeholder (j_world j)) x)).
        apply in_or_app. left. apply (in_map (fun g => g (w_placeholder (j_world j)) x)). exact Hg.
      - apply R_rel. intros c g p0 Hl Hg. apply H. apply in_or_app. right. apply in_flat_map. eauto.
    Qed.
    Lemma R_attr_body j e a : all_code R j -> R _ (attr_body j e a).
    Proof.
      intros Hc. pose proof (code_attr _ _ Hc e a) as H. unfold attr_sources in H. unfold attr_body.
      apply Rbind; [|intros [|]; [apply Rret|]; apply Rbind; [|intros [|]; [apply Rret|]]].
      - apply R_attr. intros c d p Hl [<- |[]] Hp. apply H. apply in_or_app. left. apply in_flat_map. eauto.
      - apply R_attr. intros c d p Hl [<- |[]] Hp. apply H. apply in_or_app. right. apply in_or_app. left. apply in_flat_map. eauto.
      - destruct (w_entities (j_world j) e) as [[ch|]|]; [|apply Rret..]. apply Rbind; [|intros [|]; apply Rret].
        apply R_attr. intros c d p Hl Hdd Hp. apply H. do 2 (apply in_or_app; right). apply in_flat_map. exists c. split; [exact Hl|]. apply in_flat_map. eauto.
    Qed.
  End Closed.
  Lemma no_wipe_bind A B (p : PR A) (f : A -> PR B) : no_wipe p -> (forall a, no_wipe (f a)) -> no_wipe (pbind p f).
  Proof. intros H Hf. induction p; cbn in *; auto. Qed.

  (** A handler that leaves the cache alone: so does code that does not clear it. *)
  Lemma interp_leaves (cached : bool) (ha : forall r, act P Q (raw r)) (h : handler) {A} (p : PR A) c :
    (forall r c, run (ha r) c = (h r, c)) -> no_wipe p -> run (interp cached ha p) c = (oeval h p, c).
  Proof.
    intros H. revert c. induction p as [a|o|r k IH|k IH]; intros c Hw; cbn [interp oeval no_wipe] in *; [reflexivity|reflexivity| |contradiction].
    rewrite run_abind, run_outcome. destruct (check r); cbn; try reflexivity.
    rewrite run_abind, H. destruct (h r) as [v| | |]; cbn; try reflexivity.
    rewrite run_abind, run_outcome. destruct (typed r v); cbn; try reflexivity. apply IH, Hw.
  Qed.
  Lemma relation_leaves j (ha : forall r, act P Q (raw r)) (h : handler) f t x s c :
    (forall r c, run (ha r) c = (h r, c)) -> all_code (fun A p => no_wipe p) j ->
    run (erased j ha (RRel f t x s)) c = (answer1 j h (RRel f t x s), c).
  Proof.
    intros H Hw. cbn [erased answer1]. unfold query_relation_erased. destruct (w_entities (j_world j) f); [|reflexivity].
    destruct (w_entities (j_world j) t); [|reflexivity].
    apply start_run. intros b. rewrite run_abind, (interp_leaves _ ha h); [|exact H|apply (R_rel_body (fun A p => no_wipe p)); [intros; exact I|apply no_wipe_bind|exact Hw]].
    rewrite rel_body_collect. destruct (collect _ _ _); reflexivity.
  Qed.

  (** ** Entries stay *)
  Section Stay.
    Hypothesis Hd : distinct_vtables P.
    Hypothesis Hq : flags_eq (Q := Q).
    Variable k : key P Q.
    Variable b : buffer P.
    Lemma level_stay j : j_cached j = true -> stats_kept j -> all_code (fun A p => no_wipe p) j -> forall n r, stay k b (level j n r).
    Proof.
      intros Hc Hk Hw. induction n as [|n IH]; intros r; [exact I|]. cbn [level]. destruct r as [e x s|f t x s|e a]; cbn [erased].
      - unfold query_stat_erased. destruct (w_entities (j_world j) e) as [ch|]; [|exact I]. rewrite Hc.
        assert (Hhit : forall b0, stay k b (abind (a_outcome (vt_clone P (si_ty s) b0)) (fun c => ARet (Some c)))).
        { intros b0. apply stay_bind; [apply stay_outcome|intros; exact I]. }
        cbn [stay]. split; [intros _; apply Hhit|]. intros Hn [b0|]; [apply Hhit|].
        destruct (start_value (j_world j) s) as [b0| | |] eqn:Es; try exact I. cbn [a_outcome abind].
        assert (Hi : initial (j_world j) s = Done (fst b0)) by (rewrite <- start_initial, Es; reflexivity).
        eapply (interp_stay_then k b (level j n) (fun p' => p_stat p' = s)); [exact IH| | |].
        + apply (R_stat_body (fun A p => no_wipe p)); [intros; exact I|apply no_wipe_bind|exact Hw].
        + assert (Hp : returns (fun p' => p_stat p' = p_stat (Pair s (fst b0)) /\ pair_ok p') (stat_body j e ch x (Pair s (fst b0)))).
          { apply stat_body_keeps; [exact Hk|]. apply (initial_ty _ _ _ Hi). }
          revert Hp. generalize (stat_body j e ch x (Pair s (fst b0))). intros p. induction p; cbn; intuition.
        + intros p Hs. apply stay_bind; [apply stay_outcome|]. intros c0. cbn [stay]. rewrite Hs. split; [exact Hn|exact I].
      - unfold query_relation_erased. destruct (w_entities (j_world j) f); [|exact I]. destruct (w_entities (j_world j) t); [|exact I].
        apply stay_bind; [apply stay_outcome|]. intros b0. apply stay_bind; [|intros; exact I]. rewrite Hc. apply interp_stay; [exact IH|].
        apply (R_rel_body (fun A p => no_wipe p)); [intros; exact I|apply no_wipe_bind|exact Hw].
      - unfold has_attribute_erased. rewrite Hc. apply interp_stay; [exact IH|].
        apply (R_attr_body (fun A p => no_wipe p)); [intros; exact I|apply no_wipe_bind|exact Hw].
    Qed.
    Lemma client_stay j n {A} (p : PR A) : j_cached j = true -> stats_kept j -> all_code (fun A p => no_wipe p) j -> no_wipe p -> stay k b (client j n p).
    Proof. intros Hc Hk Hw Hp. unfold client. rewrite Hc. apply interp_stay; [|exact Hp]. apply level_stay; assumption. Qed.
  End Stay.

  (** ** The first querier to answer decides *)
  Lemma clone_cast s (b0 c0 : buffer P) : vt_clone P (si_ty s) b0 = Done c0 -> exists v, b0 = Buf (tyof s) v /\ c0 = b0 /\ fits s.
  Proof.
    unfold vt_clone, buf_ref, buf_from. destruct (validate_ty P (tyof s)) as [[]| | |] eqn:Ev; cbn [obind]; try discriminate.
    destruct b0 as [t v]. unfold cast_val. cbn. destruct (vty_dec P t (tyof s)) as [<- |]; cbn; [|discriminate].
    intros E. injection E as <-. exists v. repeat split. exact Ev.
  Qed.
  Lemma query_caches (Hd : distinct_vtables P) (Hq : flags_eq (Q := Q)) j1 n1 e x s v c c1 :
    j_cached j1 = true -> stats_kept j1 ->
    run (client j1 n1 (p_query e x s)) c = (Done (Some v), c1) ->
    hget key_eqb c1 (e, x, s) = Some (Buf (tyof s) v) /\ fits s.
  Proof.
    intros Hc1 Hk E.
    destruct n1 as [|n1]; [unfold client, p_query in E; cbn in E; destruct (validate_ty P (tyof s)); discriminate E|].
    rewrite run_query in E. destruct (validate_ty P (tyof s)) as [[]| | |] eqn:Ev; try discriminate E.
    destruct (w_entities (j_world j1) e) as [ch|] eqn:Ee.
    2: { cbn [level erased] in E. unfold query_stat_erased in E. rewrite Ee in E. discriminate E. }
    destruct (hget key_eqb c (e, x, s)) as [b|] eqn:Eh.
    - rewrite (run_hit j1 n1 e x s c b Hc1 ltac:(congruence) Eh) in E. unfold omap in E.
      destruct (vt_clone P (si_ty s) b) as [b'| | |] eqn:Eb; cbn [obind] in E; try discriminate E.
      destruct (clone_cast s b b' Eb) as (w & -> & -> & Hf). rewrite cast_val_same in E. injection E as -> <-. auto.
    - rewrite (run_miss j1 n1 e x s c ch Hc1 Ee Eh) in E.
      destruct (initial (j_world j1) s) as [b0| | |] eqn:Ei; try discriminate E.
      destruct (run (interp true (level j1 n1) (stat_body j1 e ch x (Pair s b0))) c) as [[p| | |] c'] eqn:Er; try discriminate E.
      destruct (pair_clone_buffer p) as [kb| | |] eqn:Ek; try discriminate E.
      destruct (run_interp_returns true (level j1 n1) _ _ c p c' (stat_body_keeps j1 e ch x (Pair s b0) Hk (proj1 (initial_ty _ _ _ Ei))) Er) as [Hs Hp].
      cbn in Hs. unfold pair_clone_buffer in Ek. rewrite Hs in *. destruct (clone_cast s _ _ Ek) as (w & Hw & -> & Hf).
      rewrite Hw, cast_val_same in E. injection E as -> <-. split; [|exact Hf].
      apply (hget_hput_same key_eqb (key_eqb_ok Hd Hq)).
  Qed.
  Lemma hit_returns j2 n2 e x s v c1 : j_cached j2 = true -> w_entities (j_world j2) e <> None ->
    hget key_eqb c1 (e, x, s) = Some (Buf (tyof s) v) -> fits s ->
    run (client j2 (S n2) (p_query e x s)) c1 = (Done (Some v), c1).
  Proof.
    intros Hc2 He Hg Hf. rewrite run_query. unfold fits in Hf. rewrite Hf.
    rewrite (run_hit j2 n2 e x s c1 _ Hc2 He Hg). unfold vt_clone, buf_ref, buf_from. rewrite Hf. cbn [obind]. rewrite cast_val_same. cbn [obind omap].
    rewrite cast_val_same. reflexivity.
  Qed.

  (** ** Undefined behaviour *)
  Lemma answer_rel_ty j n f t x s b : relations_kept j -> answer j n (RRel f t x s) = Done (Some b) -> b_ty b = tyof s /\ fits s.
  Proof.
    intros Hk. destruct n as [|n]; cbn [answer answer1]; [discriminate|].
    destruct (w_entities (j_world j) f); [|discriminate]. destruct (w_entities (j_world j) t); [|discriminate].
    destruct (initial (j_world j) s) as [b0| | |] eqn:E0; cbn [obind]; try discriminate.
    destruct (collect _ _ _) as [p| | |] eqn:Ec; cbn [obind]; try discriminate. intros E. injection E as <-.
    destruct (initial_ty _ _ _ E0) as [H0 Hf].
    destruct (collect_keeps _ _ (fun g Hi => Hk f t x g Hi) (Pair s b0) p H0 Ec) as [Hs Hp].
    unfold pair_ok in Hp. rewrite Hs in Hp. split; [exact Hp|exact Hf].
  Qed.
  Definition good_answer (r : request P Q) (o : outcome (raw r)) : Prop :=
    o <> UB /\ match r return outcome (raw r) -> Prop with
               | RStat _ _ s | RRel _ _ _ s => fun o => match o with Done (Some b) => b_ty b = tyof s | _ => True end
               | RAttr _ _ => fun _ => True end o.
  Lemma oeval_no_ub (h : handler) {A} (p : PR A) : (forall r, good_answer r (h r)) -> stops (fun o => o <> UB) p -> oeval h p <> UB.
  Proof.
    intros Hh. induction p as [a|o|r k IH|k IH]; cbn [oeval stops]; [discriminate| | |exact IH].
    - intros Ho. destruct o as [[]| | |]; cbn; congruence.
    - intros Hs. destruct (check_cases r) as [Ec|[pp Ec]]; rewrite Ec; cbn [obind]; [|discriminate].
      destruct (Hh r) as [H1 H2]. destruct (h r) as [o| | |]; cbn [obind]; try congruence.
      assert (Ht : typed r o <> UB).
      { destruct r as [e x s|f t x s|e a]; cbn in *; [| |discriminate]; destruct o as [b|]; try discriminate;
          unfold buf_into, buf_ref; rewrite Ec; cbn [obind]; destruct b as [t0 v0]; cbn in H2; subst t0; rewrite cast_val_same; discriminate. }
      destruct (typed r o) as [v| | |]; cbn [obind]; try congruence. apply IH, Hs.
  Qed.
  Lemma answer_good j : stats_kept j -> relations_kept j -> defaults_typed (j_world j) -> all_code (fun A p => stops (fun o => o <> UB) p) j ->
    forall n r, good_answer r (answer j n r).
  Proof.
    intros Hs Hr Hd Hc. induction n as [|n IH]; intros r.
    - split; [discriminate|]. destruct r; exact I.
    - split.
      + rewrite answer_body. apply oeval_no_ub; [exact IH|]. apply stops_body; [exact Hc|discriminate|].
        intros s E. destruct (initial_ub _ _ Hd E).
      + destruct r as [e x s|f t x s|e a]; [| |exact I].
        * destruct (answer j (S n) (RStat e x s)) as [[b|]| | |] eqn:E; try exact I. apply (answer_stat_ty j (S n) e x s b Hs E).
        * destruct (answer j (S n) (RRel f t x s)) as [[b|]| | |] eqn:E; try exact I. apply (answer_rel_ty j (S n) f t x s b Hr E).
  Qed.
  Lemma ask_no_ub j n {A} (p : PR A) : stats_kept j -> relations_kept j -> defaults_typed (j_world j) -> all_code (fun A p => stops (fun o => o <> UB) p) j ->
    stops (fun o => o <> UB) p -> ask j n p <> UB.
  Proof. intros Hs Hr Hd Hc Hp. apply oeval_no_ub; [|exact Hp]. apply answer_good; assumption. Qed.

  (** ** Reordering *)
  Definition doneR {A} (a b : outcome A) : Prop := forall x, a = Done x -> b = Done x.
  Lemma doneR_bind {A B} (m m' : outcome A) (f g : A -> outcome B) : doneR m m' -> (forall a, doneR (f a) (g a)) -> doneR (obind m f) (obind m' g).
  Proof. intros Hm Hf x. destruct m as [a| | |]; cbn; try discriminate. rewrite (Hm a eq_refl). apply Hf. Qed.
  Lemma doneR_refl {A} (a : outcome A) : doneR a a. Proof. intros x H. exact H. Qed.
  Lemma oeval_doneR (h h' : handler) {A} (p : PR A) : (forall r, doneR (h r) (h' r)) -> doneR (oeval h p) (oeval h' p).
  Proof.
    intros H. induction p as [a|o|r k IH|k IH]; cbn; [apply doneR_refl..| |exact IH].
    apply doneR_bind; [apply doneR_refl|]. intros _. apply doneR_bind; [apply H|]. intros o. apply doneR_bind; [apply doneR_refl|]. exact IH.
  Qed.
  (** Two answers that both finish are the same. *)
  Definition agreeR {A} (a b : outcome A) : Prop := forall x y, a = Done x -> b = Done y -> x = y.
  Lemma oeval_agreeR (h h' : handler) {A} (p : PR A) : (forall r, agreeR (h r) (h' r)) -> agreeR (oeval h p) (oeval h' p).
  Proof.
    intros H. induction p as [a|o|r k IH|k IH]; cbn; [intros x y E1 E2; congruence..| |exact IH].
    intros x y. destruct (check r); cbn; try discriminate. destruct (h r) as [o| | |] eqn:E; cbn; try discriminate.
    destruct (h' r) as [o'| | |] eqn:E'; cbn; try (intros _; discriminate). rewrite <- (H r o o' E E').
    destruct (typed r o); cbn; try discriminate. apply IH.
  Qed.
  Section Contrib.
    Variable E : forall t, S_Types.step (VT P t) -> Prop.
    Variable s : inst P.
    Notation ST := (S_Types.step (VT P (tyof s))).
    Lemma contrib_done (h : handler) fs ws : Forall2 (contribution E s) fs ws -> forall v p,
      collect h (Pair s (Buf (tyof s) v)) fs = Done p <->
      exists ls v', Forall2 (fun w l => oeval h w = Done l) ws ls /\ S_Types.run v (List.concat ls) = Done v' /\ p = Pair s (Buf (tyof s) v').
    Proof.
      induction 1 as [|f w fs ws [Hr Hw] _ IH]; intros v p.
      - unfold collect. cbn. split.
        + intros Ep. injection Ep as <-. exists [], v. repeat split. constructor.
        + intros (ls & v' & H & Hrun & ->). inversion H; subst. cbn in Hrun. injection Hrun as <-. reflexivity.
      - unfold collect. cbn [ofold]. rewrite Hw. split.
        + destruct (oeval h w) as [l| | |] eqn:El; cbn [obind]; try discriminate.
          destruct (S_Types.run v l) as [v1| | |] eqn:E1; cbn [obind]; try discriminate. intros H.
          apply IH in H as (ls & v' & Hls & Hrun & ->). exists (l :: ls), v'. split; [constructor; assumption|]. split; [|reflexivity].
          cbn [List.concat]. unfold S_Types.run in *. rewrite ofold_app, E1. exact Hrun.
        + intros (ls & v' & H & Hrun & ->). inversion H as [|w0 l ws0 ls0 El Hls]; subst. rewrite El. cbn [obind].
          cbn [List.concat] in Hrun. unfold S_Types.run in *. rewrite ofold_app in Hrun.
          destruct (ofold S_Types.run_step v l) as [v1| | |]; cbn [obind] in *; try discriminate. apply IH. exists ls0, v'. auto.
    Qed.
    Lemma contrib_list (fs : list (pair P -> PR (pair P))) : (forall f, In f fs -> contributes E f) -> exists ws, Forall2 (contribution E s) fs ws.
    Proof.
      induction fs as [|f fs IH]; intros H; [exists []; constructor|]. destruct (H f (or_introl eq_refl) s) as [w Hw].
      destruct IH as [ws Hws]; [intros g Hg; apply H; right; exact Hg|]. exists (w :: ws). constructor; assumption.
    Qed.
    Lemma Forall2_perm {A B} (R : A -> B -> Prop) l l' : Permutation l l' -> forall m, Forall2 R l m -> exists m', Forall2 R l' m' /\ Permutation m m'.
    Proof.
      induction 1 as [|a l l' _ IH|a b l|l1 l2 l3 _ IH1 _ IH2]; intros m H.
      - inversion H; subst. exists []. split; constructor.
      - inversion H as [|a0 b0 l0 m0 Ha Hm]; subst. destruct (IH m0 Hm) as (m' & Hm' & Hp). exists (b0 :: m'). split; [constructor; assumption|]. apply perm_skip, Hp.
      - inversion H as [|a0 b0 l0 m0 Ha Hm]; subst. inversion Hm as [|a1 b1 l1 m1 Hb Hm1]; subst. exists (b1 :: b0 :: m1).
        split; [repeat constructor; assumption|]. apply perm_swap.
      - destruct (IH1 m H) as (m1 & H1 & P1). destruct (IH2 m1 H1) as (m2 & H2 & P2). exists m2. split; [exact H2|]. etransitivity; eassumption.
    Qed.
    Lemma concat_perm {A} (l l' : list (list A)) : Permutation l l' -> Permutation (List.concat l) (List.concat l').
    Proof.
      induction 1 as [|a l l' _ IH|a b l|l1 l2 l3 _ IH1 _ IH2]; cbn; [reflexivity|apply Permutation_app_head, IH| |etransitivity; eassumption].
      rewrite !app_assoc. apply Permutation_app_tail, Permutation_app_comm.
    Qed.
    Lemma contrib_ok (h : handler) fs ws ls : Forall2 (contribution E s) fs ws -> Forall2 (fun w l => oeval h w = Done l) ws ls ->
      Forall S_Types.unordered (List.concat ls) /\ Forall (E (tyof s)) (List.concat ls).
    Proof.
      intros H. revert ls. induction H as [|f w fs ws [Hr Hw] _ IH]; intros ls Hl; inversion Hl as [|w0 l ws0 ls0 El Hls]; subst; cbn; [split; constructor|].
      destruct (IH ls0 Hls) as [H1 H2]. pose proof (oeval_returns h _ w l Hr El) as Hf. split; apply Forall_app; (split; [|assumption]);
        revert Hf; apply Forall_impl; intuition.
    Qed.
    Lemma Forall2_det {A B} (R R' : A -> B -> Prop) l : (forall a b b', R a b -> R' a b' -> b = b') -> forall m m', Forall2 R l m -> Forall2 R' l m' -> m = m'.
    Proof.
      intros H. induction l as [|a l IH]; intros m m' H1 H2; inversion H1; inversion H2; subst; [reflexivity|]. f_equal; [eapply H; eassumption|apply IH; assumption].
    Qed.
    Variable Pv : val (VT P (tyof s)) -> Prop.
    Lemma collect_perm (h h' : handler) fs fs' v : S_Types.order_free (VT P (tyof s)) Pv (E (tyof s)) -> Pv v ->
      (forall r, doneR (h r) (h' r)) -> Permutation fs fs' -> (forall f, In f fs -> contributes E f) ->
      doneR (collect h (Pair s (Buf (tyof s) v)) fs) (collect h' (Pair s (Buf (tyof s) v)) fs').
    Proof.
      intros Hof Hv Hh Hp Hc p Ep. destruct (contrib_list fs Hc) as [ws Hws].
      destruct (proj1 (contrib_done h fs ws Hws v p) Ep) as (ls & v' & Hls & Hrun & ->).
      destruct (contrib_ok h fs ws ls Hws Hls) as [Hun HE].
      destruct (Forall2_perm _ _ _ Hp ws Hws) as (ws' & Hws' & Hpw). destruct (Forall2_perm _ _ _ Hpw ls Hls) as (ls' & Hls' & Hpl).
      apply (contrib_done h' fs' ws' Hws'). exists ls', v'. split; [|split; [|reflexivity]].
      - clear - Hls' Hh. induction Hls' as [|w l ws' ls' El _ IH]; constructor; [|exact IH]. apply (oeval_doneR h h' w Hh l El).
      - rewrite <- Hrun. symmetry. apply Hof; [apply concat_perm, Hpl|exact Hun|exact HE|exact Hv].
    Qed.
    Lemma collect_agree (h h' : handler) fs fs' v : S_Types.order_free_if_done (VT P (tyof s)) Pv (E (tyof s)) -> Pv v ->
      (forall r, agreeR (h r) (h' r)) -> Permutation fs fs' -> (forall f, In f fs -> contributes E f) ->
      agreeR (collect h (Pair s (Buf (tyof s) v)) fs) (collect h' (Pair s (Buf (tyof s) v)) fs').
    Proof.
      intros Hof Hv Hh Hp Hc p p' Ep Ep'. destruct (contrib_list fs Hc) as [ws Hws].
      destruct (proj1 (contrib_done h fs ws Hws v p) Ep) as (ls & v1 & Hls & Hrun & ->).
      destruct (contrib_ok h fs ws ls Hws Hls) as [Hun HE].
      destruct (Forall2_perm _ _ _ Hp ws Hws) as (ws' & Hws' & Hpw). destruct (Forall2_perm _ _ _ Hpw ls Hls) as (ls' & Hls' & Hpl).
      destruct (proj1 (contrib_done h' fs' ws' Hws' v p') Ep') as (ls2 & v2 & Hls2 & Hrun2 & ->).
      assert (ls' = ls2) as <- by (revert Hls' Hls2; apply Forall2_det; intros w l l'; apply (oeval_agreeR h h' w Hh)).
      do 2 f_equal. apply (Hof (List.concat ls) (List.concat ls') (concat_perm _ _ Hpl) Hun HE v v1 v2 Hv Hrun Hrun2).
    Qed.
  End Contrib.
  Lemma flat_map_perm {A B} (f g : A -> list B) l l' : Permutation l l' -> (forall a, Permutation (f a) (g a)) -> Permutation (flat_map f l) (flat_map g l').
  Proof.
    intros H Hf. transitivity (flat_map g l).
    - induction l as [|a l IH]; cbn; [reflexivity|]. clear H. apply Permutation_app; [apply Hf|].
      assert (G : forall l, Permutation (flat_map f l) (flat_map g l)) by (intros l0; induction l0; cbn; [reflexivity|]; apply Permutation_app; auto). apply G.
    - induction H as [|a l l' _ IH|a b l|l1 l2 l3 _ IH1 _ IH2]; cbn; [reflexivity|apply Permutation_app_head, IH| |etransitivity; eassumption].
      rewrite !app_assoc. apply Permutation_app_tail, Permutation_app_comm.
  Qed.
  Lemma stat_sources_perm j j' e a b x : rearranged j j' -> Permutation (or_nil a) (or_nil b) -> Permutation (stat_sources j e a x) (stat_sources j' e b x).
  Proof.
    intros R Hab. unfold stat_sources. apply Permutation_app; [apply Permutation_map, R|]. apply Permutation_app; [|apply Permutation_app].
    - apply flat_map_perm; [apply R|intros; reflexivity].
    - apply flat_map_perm; [apply R|intros; reflexivity].
    - apply flat_map_perm; [apply R|]. intros c. apply flat_map_perm; [exact Hab|intros; reflexivity].
  Qed.
  Lemma rel_sources_perm j j' f t x : rearranged j j' -> Permutation (rel_sources j f t x) (rel_sources j' f t x).
  Proof.
    intros R. unfold rel_sources. rewrite (re_placeholder _ _ R). apply Permutation_app; [apply Permutation_map, R|].
    apply flat_map_perm; [apply R|intros; reflexivity].
  Qed.
  Lemma attr_sources_perm j j' e a : rearranged j j' -> Permutation (attr_sources j e a) (attr_sources j' e a).
  Proof.
    intros R. unfold attr_sources. apply Permutation_app; [|apply Permutation_app].
    - apply flat_map_perm; [apply R|intros; reflexivity].
    - apply flat_map_perm; [apply R|intros; reflexivity].
    - apply flat_map_perm; [apply R|]. intros c. pose proof (re_entities _ _ R e) as He.
      destruct (w_entities (j_world j) e) as [[ca|]|], (w_entities (j_world j') e) as [[cb|]|]; cbn in He; try contradiction;
        try (apply flat_map_perm; [exact He|intros; reflexivity]); reflexivity.
  Qed.
  Lemma any_true_constant (h : handler) l : (forall p, In p l -> constant p) -> exists b, any_true h l = Done b /\ (b = true <-> exists p, In p l /\ oeval h p = Done true).
  Proof.
    induction l as [|p l IH]; intros Hc; cbn.
    - exists false. split; [reflexivity|]. split; [discriminate|]. intros (p & [] & _).
    - destruct (Hc p (or_introl eq_refl)) as [b Hb]. rewrite (Hb h). cbn. destruct b.
      + exists true. split; [reflexivity|]. split; [|reflexivity]. intros _. exists p. split; [left; reflexivity|apply Hb].
      + destruct IH as (b & E & Hiff); [intros q Hq; apply Hc; right; exact Hq|]. exists b. split; [exact E|]. rewrite Hiff. split.
        * intros (q & Hq & Eq). exists q. split; [right; exact Hq|exact Eq].
        * intros (q & [<- |Hq] & Eq); [rewrite Hb in Eq; discriminate|]. exists q. split; assumption.
  Qed.
  Lemma rearranged_sym j j' : rearranged j j' -> rearranged j' j.
  Proof.
    intros R. constructor; try (symmetry; apply R).
    intros e. pose proof (re_entities _ _ R e) as He. destruct (w_entities (j_world j) e), (w_entities (j_world j') e); try contradiction; [symmetry; exact He|exact I].
  Qed.
  Lemma initial_shape (w : world P Q) s b : initial w s = Done b -> exists v, b = Buf (tyof s) v.
  Proof.
    unfold initial. destruct (validate_ty _ _); cbn [obind]; try discriminate.
    destruct (match w_defaults w with Some d => _ | None => _ end); cbn [obind]; try discriminate. intros E. injection E as <-. eauto.
  Qed.
  Lemma attr_same E j j' e a (h h' : handler) : contributing E j -> rearranged j j' -> any_true h (attr_sources j e a) = any_true h' (attr_sources j' e a).
  Proof.
    intros J R. pose proof (attr_sources_perm j j' e a R) as Hp.
    destruct (any_true_constant h _ (con_attr _ _ J e a)) as (b1 & E1 & H1).
    destruct (any_true_constant h' (attr_sources j' e a)) as (b2 & E2 & H2).
    { intros p Hi2. apply (con_attr _ _ J e a), (Permutation_in p (Permutation_sym Hp) Hi2). }
    rewrite E1, E2. f_equal.
    assert (Hbb : b1 = true <-> b2 = true).
    { rewrite H1, H2. split; intros (p & Hin & Ep).
      - exists p. split; [apply (Permutation_in p Hp Hin)|]. destruct (con_attr _ _ J e a p Hin) as [b Hb]. rewrite Hb in *. exact Ep.
      - assert (Hin' : In p (attr_sources j e a)) by (apply (Permutation_in p (Permutation_sym Hp) Hin)).
        exists p. split; [exact Hin'|]. destruct (con_attr _ _ J e a p Hin') as [b Hb]. rewrite Hb in *. exact Ep. }
    destruct b1, b2; try reflexivity; [symmetry; apply Hbb; reflexivity|apply Hbb; reflexivity].
  Qed.
  Section Reorder.
    Variable Pv : forall t, val (VT P t) -> Prop.
    Variable E : forall t, S_Types.step (VT P t) -> Prop.
    Variables j j' : joined P Q.
    Hypothesis J : contributing E j.
    Hypothesis R : rearranged j j'.
    Hypothesis Hinit : forall s v, initial (j_world j) s = Done (Buf (tyof s) v) -> Pv (tyof s) v.
    Lemma reorder_initial s : initial (j_world j') s = initial (j_world j) s.
    Proof. unfold initial. rewrite (re_defaults _ _ R). reflexivity. Qed.
    Lemma reorder : (forall t, S_Types.order_free (VT P t) (Pv t) (E t)) -> forall n r, doneR (answer j n r) (answer j' n r).
    Proof.
      intros Hof. induction n as [|n IH]; intros r; [intros x Hx; discriminate Hx|]. cbn [answer].
      destruct r as [e x s|f t x s|e a]; cbn [answer1].
      - pose proof (re_entities _ _ R e) as He. destruct (w_entities (j_world j) e) as [a|], (w_entities (j_world j') e) as [b|]; try contradiction; [|apply doneR_refl].
        rewrite reorder_initial. destruct (initial (j_world j) s) as [b0| | |] eqn:E0; cbn [obind]; try (intros y Hy; discriminate Hy).
        destruct (initial_shape _ _ _ E0) as [v ->]. apply doneR_bind; [|intros; apply doneR_refl].
        apply (collect_perm E s (Pv (tyof s))); [apply Hof|apply Hinit, E0|exact IH|apply stat_sources_perm; assumption|apply (con_stat _ _ J)].
      - pose proof (re_entities _ _ R f) as Hef. pose proof (re_entities _ _ R t) as Het.
        destruct (w_entities (j_world j) f) as [a|], (w_entities (j_world j') f) as [b|]; try contradiction; [|apply doneR_refl].
        destruct (w_entities (j_world j) t) as [a'|], (w_entities (j_world j') t) as [b'|]; try contradiction; [|apply doneR_refl].
        rewrite reorder_initial. destruct (initial (j_world j) s) as [b0| | |] eqn:E0; cbn [obind]; try (intros y Hy; discriminate Hy).
        destruct (initial_shape _ _ _ E0) as [v ->]. apply doneR_bind; [|intros; apply doneR_refl].
        apply (collect_perm E s (Pv (tyof s))); [apply Hof|apply Hinit, E0|exact IH|apply rel_sources_perm; assumption|apply (con_rel _ _ J)].
      - intros y Hy. rewrite <- (attr_same E j j' e a (answer j n) (answer j' n) J R). exact Hy.
    Qed.
    Lemma reorder_agree : (forall t, S_Types.order_free_if_done (VT P t) (Pv t) (E t)) -> forall n r, agreeR (answer j n r) (answer j' n r).
    Proof.
      intros Hof. induction n as [|n IH]; intros r; [intros x y Hx; discriminate Hx|]. cbn [answer].
      assert (Hb : forall (B : Type) (m m' : outcome (pair P)) (k : pair P -> B), agreeR m m' -> agreeR (let! p := m in Done (k p)) (let! p := m' in Done (k p))).
      { intros B m m' k Hm y y'. destruct m as [p| | |]; cbn; try discriminate. destruct m' as [p'| | |]; cbn; try discriminate.
        intros Ey Ey'. injection Ey as <-. injection Ey' as <-. f_equal. apply Hm; reflexivity. }
      destruct r as [e x s|f t x s|e a]; cbn [answer1].
      - pose proof (re_entities _ _ R e) as He. destruct (w_entities (j_world j) e) as [a|], (w_entities (j_world j') e) as [b|]; try contradiction; [|intros y y' Hy Hy'; congruence].
        rewrite reorder_initial. destruct (initial (j_world j) s) as [b0| | |] eqn:E0; cbn [obind]; try (intros y y' Hy; discriminate Hy).
        destruct (initial_shape _ _ _ E0) as [v ->]. apply (Hb _ _ _ (fun p => Some (p_buf p))).
        apply (collect_agree E s (Pv (tyof s))); [apply Hof|apply Hinit, E0|exact IH|apply stat_sources_perm; assumption|apply (con_stat _ _ J)].
      - pose proof (re_entities _ _ R f) as Hef. pose proof (re_entities _ _ R t) as Het.
        destruct (w_entities (j_world j) f) as [a|], (w_entities (j_world j') f) as [b|]; try contradiction; [|intros y y' Hy Hy'; congruence].
        destruct (w_entities (j_world j) t) as [a'|], (w_entities (j_world j') t) as [b'|]; try contradiction; [|intros y y' Hy Hy'; congruence].
        rewrite reorder_initial. destruct (initial (j_world j) s) as [b0| | |] eqn:E0; cbn [obind]; try (intros y y' Hy; discriminate Hy).
        destruct (initial_shape _ _ _ E0) as [v ->]. apply (Hb _ _ _ (fun p => Some (p_buf p))).
        apply (collect_agree E s (Pv (tyof s))); [apply Hof|apply Hinit, E0|exact IH|apply rel_sources_perm; assumption|apply (con_rel _ _ J)].
      - intros y y' Hy Hy'. rewrite (attr_same E j j' e a (answer j n) (answer j' n) J R) in Hy. congruence.
    Qed.
  End Reorder.
  Lemma contributing_sym E j j' : rearranged j j' -> contributing E j -> contributing E j'.
  Proof.
    intros R J. constructor.
    - intros e ch x f Hf. apply (con_stat _ _ J e ch x f).
      apply (Permutation_in f (Permutation_sym (stat_sources_perm j j' e ch ch x R (Permutation_refl _))) Hf).
    - intros f t x g Hg. apply (con_rel _ _ J f t x g), (Permutation_in g (Permutation_sym (rel_sources_perm j j' f t x R)) Hg).
    - intros e a p Hp. apply (con_attr _ _ J e a p), (Permutation_in p (Permutation_sym (attr_sources_perm j j' e a R)) Hp).
  Qed.

  (** ** Marked entities *)
  Lemma interp_cases (m : act P Q (pair P)) (f : pair P -> act P Q (option (buffer P))) c c' :
    (forall p c c', run (f p) c <> (Done None, c')) -> run (abind m f) c <> (Done None, c').
  Proof. intros H. rewrite run_abind. destruct (run m c) as [[p| | |] c1]; [apply H|discriminate..]. Qed.
  Lemma marked_stat j n e x s c c' : w_entities (j_world j) e <> None -> run (level j n (RStat e x s)) c <> (Done None, c').
  Proof.
    intros He. destruct n as [|n]; [discriminate|]. cbn [level erased]. unfold query_stat_erased.
    destruct (w_entities (j_world j) e) as [ch|]; [|congruence].
    assert (H : forall cached, run (abind (a_outcome (start_value (j_world j) s)) (fun b =>
        abind (interp (j_cached j) (level j n) (stat_body j e ch x (Pair s (fst b)))) (fun p =>
        if cached : bool then abind (a_outcome (pair_clone_buffer p)) (fun c => APut (e, x, p_stat p) c (ARet (Some (p_buf p)))) else ARet (Some (p_buf p))))) c <> (Done None, c')).
    { intros cached. rewrite run_abind, run_outcome. destruct (start_value _ _); try discriminate. apply interp_cases. intros p c0 c1.
      destruct cached; [|discriminate]. rewrite run_abind, run_outcome. destruct (pair_clone_buffer p); discriminate. }
    destruct (j_cached j) eqn:Ej; [|apply (H false)]. cbn [run]. destruct (hget key_eqb c (e, x, s)) as [b|]; [|apply (H true)].
    rewrite run_abind, run_outcome. destruct (vt_clone P (si_ty s) b); discriminate.
  Qed.
  Lemma marked_rel j n f t x s c c' : w_entities (j_world j) f <> None -> w_entities (j_world j) t <> None -> run (level j n (RRel f t x s)) c <> (Done None, c').
  Proof.
    intros Hf Ht. destruct n as [|n]; [discriminate|]. cbn [level erased]. unfold query_relation_erased.
    destruct (w_entities (j_world j) f); [|congruence]. destruct (w_entities (j_world j) t); [|congruence].
    rewrite run_abind, run_outcome. destruct (start_value _ _); try discriminate. apply interp_cases. intros p c0 c1. discriminate.
  Qed.

  (** ** Threads *)
  Lemma unfinished_steps {A} (m : act P Q A) c : (exists o, finished m o) \/ exists r, astep m c = Some r.
  Proof. destruct m; cbn; eauto. Qed.
  Definition stepR {A} (l' l : list (act P Q A)) : Prop :=
    exists l1 m l2 c m' c', l = l1 ++ m :: l2 /\ l' = l1 ++ m' :: l2 /\ astep m c = Some (m', c').
  Lemma threads_acc {A} (l : list (act P Q A)) : Acc stepR l.
  Proof.
    induction l as [|m l IH].
    - constructor. intros l' (l1 & m & l2 & c & m' & c' & E & _). destruct l1; discriminate E.
    - revert m. induction IH as [l Hl IHl]. intros m.
      induction m as [a|o|k f IHm|k b f IHm|f IHm]; constructor; intros l' (l1 & m & l2 & c & m' & c' & E & -> & Es);
        (destruct l1 as [|m1 l1]; cbn in E; injection E as <- E;
         [subst l2; cbn in Es; try discriminate Es; injection Es as <- <-; apply IHm || apply IHm
         |subst l; cbn; apply IHl; exists l1, m, l2, c, m', c'; auto]).
  Qed.
End L.
