From Coq Require Import ZArith List Bool String Lia PeanoNat Permutation.
From Verif Require Import M_Outcome M_Value M_Qualifier M_Stat M_HashMap M_Pair M_Defaults M_Querier S_Pair S_StatMap S_Querier L_StatMap3 L_HashMap L_Defaults L_Querier.
Import ListNotations.

Section L.
  Context {P : Prog} {Q : QFlag}.
  Notation qq := (qquery Q).
  Notation PR := (prog P Q).
  Notation tyof s := (vt_value P (si_ty s)).
  Notation handler := (forall r : request P Q, outcome (raw r)).
  Implicit Types j : joined P Q.

  (** ** The code of an answer *)
  Lemma oeval_of_outcome (h : handler) {A} (o : outcome A) : oeval h (of_outcome o) = o.
  Proof. destruct o; reflexivity. Qed.
  Lemma any_true_first (h : handler) l : any_true h l = oeval h (first_true (fun p => p) l).
  Proof. induction l as [|p l IH]; cbn; [reflexivity|]. rewrite oeval_pbind. apply obind_ext. intros [|]; [reflexivity|exact IH]. Qed.
  Lemma collect_pfold (h : handler) p l : collect h p l = oeval h (pfold (fun p f => f p) p l).
  Proof. rewrite oeval_pfold. reflexivity. Qed.
  Lemma answer1_body j (h : handler) r : answer1 j h r = oeval h (body j r).
  Proof.
    destruct r as [e x s|f t x s|e a]; cbn [answer1 body].
    - destruct (w_entities (j_world j) e); [|reflexivity]. rewrite oeval_pbind, oeval_of_outcome. apply obind_ext. intros b.
      rewrite oeval_pbind, collect_pfold. reflexivity.
    - destruct (w_entities (j_world j) f); [|reflexivity]. destruct (w_entities (j_world j) t); [|reflexivity].
      rewrite oeval_pbind, oeval_of_outcome. apply obind_ext. intros b. rewrite oeval_pbind, collect_pfold. reflexivity.
    - apply any_true_first.
  Qed.
  Lemma answer_body j n r : answer j (S n) r = oeval (answer j n) (body j r).
  Proof. apply answer1_body. Qed.

  (** ** Code properties are closed under composition *)
  Lemma stops_pbind R {A B} (p : PR A) (f : A -> PR B) : stops R p -> (forall a, stops R (f a)) -> stops R (pbind p f).
  Proof. intros H Hf. induction p; cbn in *; auto. Qed.
  Lemma stops_pfold R {A B} (f : A -> B -> PR A) l : forall a, (forall b a, In b l -> stops R (f a b)) -> stops R (pfold f a l).
  Proof. induction l as [|b l IH]; intros a H; cbn; [exact I|]. apply stops_pbind; [apply H; left; reflexivity|]. intros a'. apply IH. intros; apply H; right; assumption. Qed.
  Lemma stops_first R l : (forall p : PR bool, In p l -> stops R p) -> stops R (first_true (fun p => p) l).
  Proof. induction l as [|p l IH]; intros H; cbn; [exact I|]. apply stops_pbind; [apply H; left; reflexivity|]. intros [|]; [exact I|]. apply IH. intros; apply H; right; assumption. Qed.
  Lemma stops_outcome (R : outcome Empty_set -> Prop) {A} (o : outcome A) :
    (forall p, o = Panics p -> R (Panics p)) -> (o = UB -> R UB) -> (o = NoFuel -> R NoFuel) -> stops R (of_outcome (P := P) (Q := Q) o).
  Proof. intros H1 H2 H3. destruct o; cbn; auto. Qed.
  Lemma validate_fuel a b : validate a b <> NoFuel /\ validate a b <> UB.
  Proof. pose proof (validate_unit a b) as H. destruct (validate a b); try contradiction; split; discriminate. Qed.
  Lemma cast_fuel t (b : buffer P) : cast_val P t b <> NoFuel.
  Proof. unfold cast_val. destruct (vty_dec P (b_ty b) t); discriminate. Qed.
  Lemma initial_fuel (w : world P Q) s : initial w s <> NoFuel.
  Proof.
    unfold initial, validate_ty. pose proof (validate_unit (v_size P (tyof s)) (v_align P (tyof s))) as H.
    destruct (validate _ _) eqn:Ev; cbn [obind]; try contradiction; [|discriminate]. destruct (w_defaults w) as [d|]; cbn [obind]; [|discriminate].
    unfold d_get. destruct (hget inst_eqb d s) as [[b|t op]|]; cbn [obind d_cast]; [|unfold validate_ty; rewrite Ev; discriminate|discriminate].
    unfold buf_ref, validate_ty. rewrite Ev. cbn [obind]. pose proof (cast_fuel (tyof s) b).
    destruct (cast_val P (tyof s) b); cbn [obind]; congruence.
  Qed.
  Lemma initial_ub (w : world P Q) s : defaults_typed w -> initial w s <> UB.
  Proof.
    unfold initial, validate_ty. pose proof (validate_unit (v_size P (tyof s)) (v_align P (tyof s))) as H.
    destruct (validate _ _) eqn:Ev; cbn [obind]; try contradiction; [|discriminate]. unfold defaults_typed. destruct (w_defaults w) as [d|]; cbn [obind]; [|discriminate].
    unfold d_get. intros Ht. destruct (hget inst_eqb d s) as [b|] eqn:E; cbn [obind]; [|discriminate].
    destruct (Ht s b E) as [v ->]. cbn [d_cast]. unfold buf_ref, validate_ty. rewrite Ev. cbn [obind]. rewrite cast_val_same. discriminate.
  Qed.
  Lemma stops_body (R : outcome Empty_set -> Prop) j r : all_code (fun A p => stops R p) j -> (forall p, R (Panics p)) ->
    (forall s, initial (j_world j) s = UB -> R UB) -> stops R (body j r).
  Proof.
    intros Hc Hp Hu. destruct r as [e x s|f t x s|e a]; cbn [body].
    - destruct (w_entities (j_world j) e); [|exact I]. apply stops_pbind.
      + apply stops_outcome; [intros; apply Hp|intros E; apply (Hu s E)|intros E; destruct (initial_fuel _ _ E)].
      + intros b. apply stops_pbind; [|intros; exact I]. apply stops_pfold. intros g p Hi. apply (code_stat _ _ Hc e o x g p Hi).
    - destruct (w_entities (j_world j) f); [|exact I]. destruct (w_entities (j_world j) t); [|exact I]. apply stops_pbind.
      + apply stops_outcome; [intros; apply Hp|intros E; apply (Hu s E)|intros E; destruct (initial_fuel _ _ E)].
      + intros b. apply stops_pbind; [|intros; exact I]. apply stops_pfold. intros g p Hi. apply (code_rel _ _ Hc f t x g p Hi).
    - apply stops_first. apply (code_attr _ _ Hc).
  Qed.

  (** ** Termination *)
  Lemma asked_fuel j n {A} (p : PR A) r' : asked j p r' -> oeval (answer j n) p <> NoFuel -> answer j n r' <> NoFuel.
  Proof.
    induction 1 as [r k Ec|r k o v r' Ec [Ho [m Em]] Ev _ IH|k r' _ IH]; cbn [oeval].
    - rewrite Ec. cbn [obind]. intros H E. apply H. rewrite E. reflexivity.
    - rewrite Ec. cbn [obind]. intros H. assert (Hn : answer j n r <> NoFuel) by (intros E; apply H; rewrite E; reflexivity).
      rewrite (answer_unique j n m r Hn) in H by (rewrite Em; discriminate). rewrite Em in H. cbn [obind] in H. rewrite Ev in H. cbn [obind] in H. apply IH, H.
    - exact IH.
  Qed.
  Lemma terminates_acc j n : forall r, answer j n r <> NoFuel -> Acc (depends j) r.
  Proof.
    induction n as [|n IH]; intros r H; [contradiction H; reflexivity|]. constructor. intros r' Hr. apply IH.
    rewrite answer_body in H. apply (asked_fuel j n _ r' Hr H).
  Qed.
  Lemma check_cases (r : request P Q) : check r = Done tt \/ exists p, check r = Panics p.
  Proof.
    destruct r as [e x s|f t x s|e a]; cbn; [| |left; reflexivity]; unfold validate_ty, validate; destruct (_ || _)%bool; try destruct (24 <? _)%Z; eauto.
  Qed.
  Lemma typed_fuel (r : request P Q) (o : raw r) : check r = Done tt -> typed r o <> NoFuel.
  Proof.
    destruct r as [e x s|f t x s|e a]; cbn in *; [| |discriminate]; intros Ec; destruct o as [b|]; try discriminate;
      unfold buf_into, buf_ref; rewrite Ec; cbn [obind]; pose proof (cast_fuel (tyof s) b); destruct (cast_val P (tyof s) b); cbn [obind]; congruence.
  Qed.
  Lemma asked_terminate j {A} (p : PR A) : stops (fun o => o <> NoFuel) p -> (forall r', asked j p r' -> terminates j r') ->
    exists n, oeval (answer j n) p <> NoFuel.
  Proof.
    induction p as [a|o|r k IH|k IH]; cbn [stops]; intros Hs Ha.
    - exists 0. discriminate.
    - exists 0. cbn. destruct o as [[]| | |]; cbn; congruence.
    - destruct (check_cases r) as [Ec|[pp Ec]]; [|exists 0; cbn; rewrite Ec; discriminate].
      destruct (Ha r ltac:(constructor; exact Ec)) as [n1 H1]. destruct (answer j n1 r) as [o| | |] eqn:E1; try congruence.
      2: exists n1; cbn; rewrite Ec; cbn; rewrite E1; discriminate.
      2: exists n1; cbn; rewrite Ec; cbn; rewrite E1; discriminate.
      destruct (typed r o) as [v| | |] eqn:Ev.
      2: exists n1; cbn; rewrite Ec; cbn; rewrite E1; cbn; rewrite Ev; discriminate.
      2: exists n1; cbn; rewrite Ec; cbn; rewrite E1; cbn; rewrite Ev; discriminate.
      2: destruct (typed_fuel r o Ec Ev).
      destruct (IH v (Hs v)) as [n2 H2].
      { intros r' Hr. apply Ha. eapply asked_later; [exact Ec| |exact Ev|exact Hr]. split; [discriminate|exists n1; exact E1]. }
      exists (Nat.max n1 n2). cbn. rewrite Ec. cbn [obind].
      rewrite (ole_stop _ _ (answer_le j n1 (Nat.max n1 n2) r ltac:(lia))) by (rewrite E1; discriminate). rewrite E1. cbn [obind]. rewrite Ev. cbn [obind].
      pose proof (ask_le j n2 (Nat.max n1 n2) (k v) ltac:(lia)) as Hl. unfold ask in Hl. rewrite (ole_stop _ _ Hl H2). exact H2.
    - destruct (IH Hs) as [n Hn]; [intros r' Hr; apply Ha; constructor; exact Hr|]. exists n. exact Hn.
  Qed.
  Lemma acc_terminates j : all_code (fun A p => stops (fun o => o <> NoFuel) p) j -> forall r, Acc (depends j) r -> terminates j r.
  Proof.
    intros Hc. induction 1 as [r _ IH]. destruct (asked_terminate j (body j r)) as [n Hn].
    - apply stops_body; [exact Hc|discriminate|discriminate].
    - exact IH.
    - exists (S n). rewrite answer_body. exact Hn.
  Qed.
  Lemma only_asks_asked j R {A} (p : PR A) r' : asked j p r' -> only_asks R p -> R r'.
  Proof. induction 1; cbn; intuition. Qed.
  Lemma self_never j r : depends j r r -> forall n, answer j n r = NoFuel.
  Proof.
    intros H n. destruct (answer j n r) as [o| | |] eqn:E; [exfalso|exfalso|exfalso|reflexivity];
      (assert (Ha : Acc (depends j) r) by (apply (terminates_acc j n); rewrite E; discriminate);
       revert H; clear - Ha; induction Ha as [r _ IH]; intros H; exact (IH r H H)).
  Qed.

  (** ** What the program of a run can return *)
  Lemma run_interp_returns (cached : bool) (ha : forall r, act P Q (raw r)) {A} (R : A -> Prop) (p : PR A) : forall c a c',
    returns R p -> run (interp cached ha p) c = (Done a, c') -> R a.
  Proof.
    induction p as [b|o|r k IH|k IH]; intros c a c'; cbn [interp returns].
    - intros H E. injection E as <- <-. exact H.
    - cbn. destruct o as [[]| | |]; cbn; discriminate.
    - intros H. rewrite run_abind, run_outcome. destruct (check r); try discriminate.
      rewrite run_abind. destruct (run (ha r) c) as [[o| | |] c1]; try discriminate.
      rewrite run_abind, run_outcome. destruct (typed r o) as [v| | |]; try discriminate. apply IH, H.
    - intros H. destruct cached; cbn [run]; apply IH, H.
  Qed.
  Lemma returns_pbind {A B} (R : A -> Prop) (R' : B -> Prop) (p : PR A) (f : A -> PR B) :
    returns R p -> (forall a, R a -> returns R' (f a)) -> returns R' (pbind p f).
  Proof. intros H Hf. induction p; cbn in *; auto. Qed.
  (** The code of a query as in the program, not the specification. *)
  Lemma body_keeps_leaf (c : cstream P Q) e x es : forall p, pair_ok p ->
    (forall d f, In d es -> In f (on c e d x) -> keeps f) ->
    returns (fun p' => p_stat p' = p_stat p /\ pair_ok p') (pfold (fun p i => c_stream c e i x p) p (iter_many c es)).
  Proof.
    induction es as [|d es IH]; intros p Hp Hk; cbn [iter_many flat_map]; [split; [reflexivity|exact Hp]|].
    assert (Hk' : forall d0 f, In d0 es -> In f (on c e d0 x) -> keeps f) by (intros d0 f Hi; apply Hk; right; exact Hi).
    specialize (Hk d). unfold on in Hk. destruct (c_get c d) as [i|]; cbn [app]; [|apply IH; assumption].
    cbn [pfold]. eapply returns_pbind; [apply (Hk _ (or_introl eq_refl) (or_introl eq_refl) p Hp)|].
    intros p1 [Hs1 Hp1]. rewrite <- Hs1. apply IH; assumption.
  Qed.
  Lemma q_stream_keeps (t : qstream P Q) e es x : forall p, pair_ok p ->
    (forall c d f, In c (leaves t) -> In d es -> In f (on c e d x) -> keeps f) ->
    returns (fun p' => p_stat p' = p_stat p /\ pair_ok p') (q_stream t e es x p).
  Proof.
    induction t as [|a IHa b IHb|c]; intros p Hp Hk; cbn [q_stream].
    - split; [reflexivity|exact Hp].
    - eapply returns_pbind; [apply IHa; [exact Hp|]|].
      + intros c d f Hc. apply Hk. cbn. apply in_or_app. left. exact Hc.
      + intros p1 [Hs1 Hp1]. rewrite <- Hs1. apply IHb; [exact Hp1|]. intros c d f Hc. apply Hk. cbn. apply in_or_app. right. exact Hc.
    - apply body_keeps_leaf; [exact Hp|]. intros d f Hd. apply Hk; [left; reflexivity|exact Hd].
  Qed.
  Lemma relations_keep (l : list (gstream P Q)) e x : forall p, pair_ok p -> (forall g, In g l -> keeps (g e x)) ->
    returns (fun p' => p_stat p' = p_stat p /\ pair_ok p') (relations_stream (P := P) (Q := Q) l e x p).
  Proof.
    unfold relations_stream. induction l as [|g l IH]; intros p Hp Hk; cbn [pfold]; [split; [reflexivity|exact Hp]|].
    eapply returns_pbind; [apply (Hk g (or_introl eq_refl) p Hp)|]. intros p1 [Hs1 Hp1]. rewrite <- Hs1. apply IH; [exact Hp1|].
    intros g' Hg. apply Hk. right. exact Hg.
  Qed.
  Lemma stat_body_keeps j e ch x p : stats_kept j -> pair_ok p ->
    returns (fun p' => p_stat p' = p_stat p /\ pair_ok p') (stat_body j e ch x p).
  Proof.
    intros Hk Hp. specialize (Hk e ch x). unfold stat_sources in Hk. unfold stat_body.
    eapply (returns_pbind (fun p' => p_stat p' = p_stat p /\ pair_ok p')).
    { destruct (w_relations (j_world j)) as [l|]; [|split; [reflexivity|exact Hp]]. apply relations_keep; [exact Hp|].
      intros g Hg. apply Hk. apply in_or_app. left. apply (in_map (fun g => g e x)). exact Hg. }
    intros p1 [Hs1 Hp1]. rewrite <- Hs1.
    eapply returns_pbind.
    { apply q_stream_keeps; [exact Hp1|]. intros c d f Hc [<- |[]] Hf. apply Hk. apply in_or_app. right. apply in_or_app. left.
      apply in_flat_map. exists c. split; assumption. }
    intros p2 [Hs2 Hp2]. cbv beta. rewrite <- Hs2.
    eapply returns_pbind.
    { apply q_stream_keeps; [exact Hp2|]. intros c d f Hc [<- |[]] Hf. apply Hk. do 2 (apply in_or_app; right). apply in_or_app. left.
      apply in_flat_map. exists c. split; assumption. }
    intros p3 [Hs3 Hp3]. cbv beta. rewrite <- Hs3. destruct ch as [ch|]; [|split; [reflexivity|exact Hp3]].
    apply q_stream_keeps; [exact Hp3|]. intros c d f Hc Hd Hf. apply Hk. do 3 (apply in_or_app; right).
    apply in_flat_map. exists c. split; [exact Hc|]. apply in_flat_map. exists d. split; assumption.
  Qed.

  (** ** A query for a stat, step by step *)
  Lemma run_typed_opt (m : act P Q (option (buffer P))) s c u : validate_ty P (tyof s) = Done u ->
    run (abind m (fun o => abind (a_outcome (match o with None => Done None | Some b => let! v := buf_into P (tyof s) b in Done (Some v) end)) (fun v => ARet v))) c =
    match run m c with
    | (Done None, c') => (Done None, c')
    | (Done (Some b), c') => (let! v := cast_val P (tyof s) b in Done (Some v), c')
    | (Panics p, c') => (Panics p, c')
    | (UB, c') => (UB, c')
    | (NoFuel, c') => (NoFuel, c')
    end.
  Proof.
    intros Ev. rewrite run_abind. destruct (run m c) as [[[b|]| | |] c']; try reflexivity.
    unfold buf_into, buf_ref. rewrite Ev. cbn [obind]. destruct (cast_val P (tyof s) b); reflexivity.
  Qed.
  Lemma run_query j n e x s c :
    run (client j (S n) (p_query e x s)) c =
    match validate_ty P (tyof s) with
    | Done _ =>
        match run (level j (S n) (RStat e x s)) c with
        | (Done None, c') => (Done None, c')
        | (Done (Some b), c') => (let! v := cast_val P (tyof s) b in Done (Some v), c')
        | (Panics p, c') => (Panics p, c')
        | (UB, c') => (UB, c')
        | (NoFuel, c') => (NoFuel, c')
        end
    | Panics p => (Panics p, c) | UB => (UB, c) | NoFuel => (NoFuel, c)
    end.
  Proof.
    unfold client, p_query. cbn [interp]. rewrite run_abind, run_outcome. cbn [check].
    destruct (validate_ty P (tyof s)) as [u| | |] eqn:Ev; try reflexivity.
    exact (run_typed_opt (level j (S n) (RStat e x s)) s c u Ev).
  Qed.
  Lemma run_query_rel j n f t x s c :
    run (client j (S n) (p_relation f t x s)) c =
    match validate_ty P (tyof s) with
    | Done _ =>
        match run (level j (S n) (RRel f t x s)) c with
        | (Done None, c') => (Done None, c')
        | (Done (Some b), c') => (let! v := cast_val P (tyof s) b in Done (Some v), c')
        | (Panics p, c') => (Panics p, c')
        | (UB, c') => (UB, c')
        | (NoFuel, c') => (NoFuel, c')
        end
    | Panics p => (Panics p, c) | UB => (UB, c) | NoFuel => (NoFuel, c)
    end.
  Proof.
    unfold client, p_relation. cbn [interp]. rewrite run_abind, run_outcome. cbn [check].
    destruct (validate_ty P (tyof s)) as [u| | |] eqn:Ev; try reflexivity.
    exact (run_typed_opt (level j (S n) (RRel f t x s)) s c u Ev).
  Qed.
  Lemma run_hit j n e x s c b : j_cached j = true -> w_entities (j_world j) e <> None -> hget key_eqb c (e, x, s) = Some b ->
    run (level j (S n) (RStat e x s)) c = (omap Some (vt_clone P (si_ty s) b), c).
  Proof.
    intros Hc He Hg. cbn [level erased]. unfold query_stat_erased. destruct (w_entities (j_world j) e); [|contradiction]. rewrite Hc. cbn [run].
    rewrite Hg, run_abind, run_outcome. destruct (vt_clone P (si_ty s) b); reflexivity.
  Qed.
  Lemma run_miss j n e x s c ch : j_cached j = true -> w_entities (j_world j) e = Some ch -> hget key_eqb c (e, x, s) = None ->
    run (level j (S n) (RStat e x s)) c =
    match initial (j_world j) s with
    | Done b =>
        match run (interp true (level j n) (stat_body j e ch x (Pair s b))) c with
        | (Done p, c') =>
            match pair_clone_buffer p with
            | Done k => (Done (Some (p_buf p)), fst (hput key_eqb c' (e, x, p_stat p) k))
            | Panics q => (Panics q, c') | UB => (UB, c') | NoFuel => (NoFuel, c')
            end
        | (Panics q, c') => (Panics q, c') | (UB, c') => (UB, c') | (NoFuel, c') => (NoFuel, c')
        end
    | Panics q => (Panics q, c) | UB => (UB, c) | NoFuel => (NoFuel, c)
    end.
  Proof.
    intros Hc He Hg. cbn [level erased]. unfold query_stat_erased. rewrite He, Hc. cbn [run]. rewrite Hg, run_abind, run_outcome.
    rewrite <- start_initial. destruct (start_value (j_world j) s) as [b| | |]; cbn [omap obind]; try reflexivity.
    rewrite run_abind. destruct (run _ c) as [[p| | |] c']; try reflexivity.
    rewrite run_abind, run_outcome. destruct (pair_clone_buffer p); reflexivity.
  Qed.

  (** ** Entries stay *)
  Section Stay.
    Hypothesis Hd : distinct_vtables P.
    Hypothesis Hq : flags_eq (Q := Q).
    Variable k : key P Q.
    Variable b : buffer P.
    Fixpoint stay {A} (m : act P Q A) : Prop :=
      match m with
      | ARet _ | AFail _ => True
      | AGet k' f => (k' = k -> stay (f (Some b))) /\ (k' <> k -> forall o, stay (f o))
      | APut k' _ f => k' <> k /\ stay f
      | AClear _ => False
      end.
    Lemma stay_bind {A B} (m : act P Q A) (f : A -> act P Q B) : stay m -> (forall a, stay (f a)) -> stay (abind m f).
    Proof. intros H Hf. induction m; cbn in *; intuition. Qed.
    Lemma stay_outcome {A} (o : outcome A) : stay (a_outcome o).
    Proof. destruct o; exact I. Qed.
    Lemma stay_run {A} (m : act P Q A) : forall c, stay m -> hget key_eqb c k = Some b -> hget key_eqb (snd (run m c)) k = Some b.
    Proof.
      induction m as [a|o|k0 g IH|k0 b0 g IH|g IH]; intros c H Hc; cbn in *; [exact Hc|exact Hc| | |contradiction].
      - destruct H as [H1 H2]. destruct (eqb_dec key_eqb (key_eqb_ok Hd Hq) k0 k) as [-> |Hn].
        + rewrite Hc. apply IH; [apply H1; reflexivity|exact Hc].
        + apply IH; [apply H2, Hn|exact Hc].
      - destruct H as [H1 H2]. apply IH; [exact H2|]. rewrite (hget_hput_other key_eqb (key_eqb_ok Hd Hq)); [exact Hc|congruence].
    Qed.
    Lemma interp_stay (ha : forall r, act P Q (raw r)) {A} (p : PR A) : (forall r, stay (ha r)) -> no_wipe p -> stay (interp true ha p).
    Proof.
      intros H. induction p as [a|o|r q IH|q IH]; cbn [interp no_wipe]; [exact (fun _ => I)|exact (fun _ => I)| |contradiction].
      intros Hw. apply stay_bind; [apply stay_outcome|]. intros _. apply stay_bind; [apply H|]. intros o.
      apply stay_bind; [apply stay_outcome|]. intros v. apply IH, Hw.
    Qed.
    (** The same with knowledge of what the code returns. *)
    Lemma interp_stay_then (ha : forall r, act P Q (raw r)) {A B} (R : A -> Prop) (p : PR A) (f : A -> act P Q B) :
      (forall r, stay (ha r)) -> no_wipe p -> returns R p -> (forall a, R a -> stay (f a)) -> stay (abind (interp true ha p) f).
    Proof.
      intros H Hw Hr Hf. induction p as [a|o|r q IH|q IH]; cbn [interp no_wipe returns] in *; [apply Hf, Hr|exact I| |contradiction].
      assert (Hassoc : forall X Y Z (m : act P Q X) (g : X -> act P Q Y) (h : Y -> act P Q Z),
        stay (abind m (fun x => abind (g x) h)) -> stay (abind (abind m g) h)).
      { clear. intros X Y Z m g h. induction m as [a|o|k0 g0 IH|k0 b0 g0 IH|g0 IH]; cbn; [exact (fun H => H)|exact (fun H => H)| | |exact (fun H => H)].
        - intros [H1 H2]. split; [intros E; apply IH, H1, E|intros E o; apply IH, H2, E].
        - intros [H1 H2]. split; [exact H1|apply IH, H2]. }
      apply Hassoc. apply stay_bind; [apply stay_outcome|]. intros _. apply Hassoc. apply stay_bind; [apply H|]. intros o.
      apply Hassoc. apply stay_bind; [apply stay_outcome|]. intros v. apply IH; [apply Hw|apply Hr].
    Qed.
  End Stay.
End L.
