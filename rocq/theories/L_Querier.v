From Coq Require Import ZArith List Bool String Lia PeanoNat.
From Verif Require Import M_Outcome M_Value M_Qualifier M_Stat M_HashMap M_Pair M_Defaults M_Querier S_Pair S_StatMap S_Querier L_StatMap3 L_HashMap L_Defaults.
Import ListNotations.

Section L.
  Context {P : Prog} {Q : QFlag}.
  Notation qq := (qquery Q).
  Notation PR := (prog P Q).
  Notation tyof s := (vt_value P (si_ty s)).
  Notation handler := (forall r : request P Q, outcome (raw r)).

  (** ** Structure of programs *)
  Lemma oeval_pbind (h : handler) {A B} (p : PR A) (f : A -> PR B) :
    oeval h (pbind p f) = let! a := oeval h p in oeval h (f a).
  Proof.
    induction p as [a|o|r k IH|k IH]; cbn; [reflexivity| | |exact IH].
    - destruct o as [[]| | |]; reflexivity.
    - destruct (check r); cbn; try reflexivity. destruct (h r); cbn; try reflexivity.
      destruct (typed r a0); cbn; try reflexivity. apply IH.
  Qed.
  Lemma obind_assoc {A B C} (m : outcome A) (f : A -> outcome B) (g : B -> outcome C) :
    obind (obind m f) g = obind m (fun a => obind (f a) g).
  Proof. destruct m; reflexivity. Qed.
  Lemma obind_ext {A B} (m : outcome A) (f g : A -> outcome B) : (forall a, f a = g a) -> obind m f = obind m g.
  Proof. intros H. destruct m; cbn; [apply H|reflexivity..]. Qed.
  Lemma obind_done {A} (m : outcome A) : obind m (fun a => Done a) = m.
  Proof. destruct m; reflexivity. Qed.
  Lemma ofold_app {A B} (f : A -> B -> outcome A) l1 : forall a l2, ofold f a (l1 ++ l2) = let! a' := ofold f a l1 in ofold f a' l2.
  Proof. induction l1 as [|b l IH]; intros a l2; cbn; [reflexivity|]. rewrite obind_assoc. apply obind_ext. intros a'. apply IH. Qed.
  Lemma ofold_map {A B C} (f : A -> C -> outcome A) (g : B -> C) l : forall a, ofold f a (map g l) = ofold (fun a b => f a (g b)) a l.
  Proof. induction l as [|b l IH]; intros a; cbn; [reflexivity|]. apply obind_ext. intros a'. apply IH. Qed.
  Lemma oeval_pfold (h : handler) {A B} (f : A -> B -> PR A) l : forall a,
    oeval h (pfold f a l) = ofold (fun a b => oeval h (f a b)) a l.
  Proof. induction l as [|b l IH]; intros a; cbn; [reflexivity|]. rewrite oeval_pbind. apply obind_ext. intros a'. apply IH. Qed.

  Lemma collect_app (h : handler) p l1 l2 : collect h p (l1 ++ l2) = let! p' := collect h p l1 in collect h p' l2.
  Proof. apply ofold_app. Qed.
  Lemma leaf_stream (h : handler) (c : cstream P Q) e x es : forall p,
    oeval h (pfold (fun p i => c_stream c e i x p) p (iter_many c es)) = collect h p (flat_map (fun d => on c e d x) es).
  Proof.
    induction es as [|d es IH]; intros p; [reflexivity|]. cbn [iter_many flat_map].
    unfold on at 1. destruct (c_get c d) as [i|]; cbn [app]; [|apply IH].
    cbn [pfold]. rewrite oeval_pbind. unfold collect. cbn [ofold]. apply obind_ext. intros p'. apply IH.
  Qed.
  Lemma q_stream_collect (h : handler) e es x t : forall p,
    oeval h (q_stream t e es x p) = collect h p (flat_map (fun c => flat_map (fun d => on c e d x) es) (leaves t)).
  Proof.
    induction t as [|a IHa b IHb|c]; intros p; cbn [q_stream leaves flat_map]; [reflexivity| |].
    - rewrite oeval_pbind, flat_map_app, collect_app, IHa. apply obind_ext. exact IHb.
    - rewrite app_nil_r. apply leaf_stream.
  Qed.
  Lemma flat_one {A} (f : entity -> list A) e : flat_map f [e] = f e.
  Proof. cbn. apply app_nil_r. Qed.
  Lemma flat_map_ext' {A B} (f g : A -> list B) l : (forall a, f a = g a) -> flat_map f l = flat_map g l.
  Proof. intros H. induction l as [|a l IH]; cbn; [reflexivity|]. rewrite H, IH. reflexivity. Qed.
  Lemma q_stream_one (h : handler) e x t p :
    oeval h (q_stream t e [e] x p) = collect h p (flat_map (fun c => on c e e x) (leaves t)).
  Proof. rewrite q_stream_collect. f_equal. apply flat_map_ext'. intros c. cbn. apply app_nil_r. Qed.
  Lemma relations_collect (h : handler) e x l p :
    oeval h (relations_stream l e x p) = collect h p (map (fun g => g e x) l).
  Proof. unfold relations_stream, collect. rewrite oeval_pfold, ofold_map. reflexivity. Qed.
  Lemma stat_body_collect (h : handler) (j : joined P Q) e ch x p :
    oeval h (stat_body j e ch x p) = collect h p (stat_sources j e ch x).
  Proof.
    unfold stat_body, stat_sources. rewrite oeval_pbind, !collect_app.
    assert (E1 : oeval h (match w_relations (j_world j) with Some l => relations_stream l e x p | None => Ret p end)
      = collect h p (map (fun g => g e x) (or_nil (w_relations (j_world j))))).
    { destruct (w_relations (j_world j)); [apply relations_collect|reflexivity]. }
    rewrite E1. apply obind_ext. intros p1. rewrite oeval_pbind, q_stream_one, collect_app.
    apply obind_ext. intros p2. rewrite oeval_pbind, q_stream_one, collect_app.
    apply obind_ext. intros p3. destruct ch as [ch|]; [apply q_stream_collect|].
    cbn [or_nil flat_map]. assert (Hn : flat_map (fun _ : cstream P Q => @nil (pair P -> PR (pair P))) (leaves (j_child j)) = []).
    { induction (leaves (j_child j)); cbn; auto. }
    rewrite Hn. reflexivity.
  Qed.
  Lemma q_rel_collect (h : handler) f t x q : forall p,
    oeval h (q_rel q f t x p) = collect h p (flat_map (fun c => between c f t x) (leaves q)).
  Proof.
    induction q as [|a IHa b IHb|c]; intros p; cbn [q_rel leaves flat_map]; [reflexivity| |].
    - rewrite oeval_pbind, flat_map_app, collect_app, IHa. apply obind_ext. exact IHb.
    - rewrite app_nil_r. unfold between. destruct (c_get c f); [destruct (c_get c t)|]; try reflexivity.
      unfold collect. cbn. symmetry. apply obind_done.
  Qed.
  Lemma rel_body_collect (h : handler) (j : joined P Q) f t x p :
    oeval h (rel_body j f t x p) = collect h p (rel_sources j f t x).
  Proof.
    unfold rel_body, rel_sources. rewrite oeval_pbind, collect_app.
    replace (oeval h (match w_relations (j_world j) with Some l => relations_stream l (w_placeholder (j_world j)) x p | None => Ret p end))
      with (collect h p (map (fun g => g (w_placeholder (j_world j)) x) (or_nil (w_relations (j_world j))))).
    - apply obind_ext. intros p'. apply q_rel_collect.
    - destruct (w_relations (j_world j)); [symmetry; apply relations_collect|reflexivity].
  Qed.
  Lemma any_true_app (h : handler) l1 l2 : any_true h (l1 ++ l2) = let! b := any_true h l1 in if b then Done true else any_true h l2.
  Proof.
    induction l1 as [|p l IH]; cbn; [reflexivity|]. rewrite obind_assoc. apply obind_ext. intros [|]; [reflexivity|exact IH].
  Qed.
  Lemma leaf_attr (h : handler) (c : cstream P Q) e a es :
    oeval h (first_true (fun i => c_attr c e i a) (iter_many c es)) = any_true h (flat_map (fun d => attr_on c e d a) es).
  Proof.
    induction es as [|d es IH]; [reflexivity|]. cbn [iter_many flat_map].
    unfold attr_on at 1. destruct (c_get c d) as [i|]; cbn [app]; [|apply IH].
    cbn [first_true any_true]. rewrite oeval_pbind. apply obind_ext. intros [|]; [reflexivity|apply IH].
  Qed.
  Lemma q_attr_any (h : handler) e es a t :
    oeval h (q_attr t e es a) = any_true h (flat_map (fun c => flat_map (fun d => attr_on c e d a) es) (leaves t)).
  Proof.
    induction t as [|l IHl r IHr|c]; cbn [q_attr leaves flat_map]; [reflexivity| |].
    - rewrite oeval_pbind, flat_map_app, any_true_app, IHl. apply obind_ext. intros [|]; [reflexivity|exact IHr].
    - rewrite app_nil_r. apply leaf_attr.
  Qed.
  Lemma q_attr_one (h : handler) e a t :
    oeval h (q_attr t e [e] a) = any_true h (flat_map (fun c => attr_on c e e a) (leaves t)).
  Proof. rewrite q_attr_any. f_equal. apply flat_map_ext'. intros c. cbn. apply app_nil_r. Qed.
  Lemma attr_body_any (h : handler) (j : joined P Q) e a : oeval h (attr_body j e a) = any_true h (attr_sources j e a).
  Proof.
    unfold attr_body, attr_sources. rewrite oeval_pbind, q_attr_one, any_true_app.
    apply obind_ext. intros [|]; [reflexivity|]. rewrite oeval_pbind, q_attr_one, any_true_app.
    apply obind_ext. intros [|]; [reflexivity|].
    assert (Hn : flat_map (fun _ : cstream P Q => @nil (PR bool)) (leaves (j_child j)) = []) by (induction (leaves (j_child j)); cbn; auto).
    destruct (w_entities (j_world j) e) as [[ch|]|]; cbn [flat_map]; [|rewrite Hn; reflexivity..].
    rewrite oeval_pbind, q_attr_any. rewrite <- (obind_done (any_true h _)) at 2. apply obind_ext. intros [|]; reflexivity.
  Qed.

  Lemma start_initial (w : world P Q) s : omap fst (start_value w s) = initial w s.
  Proof.
    unfold start_value, initial, omap, d_get_dyn, d_get, vt_default, buf_from.
    destruct (w_defaults w) as [d|].
    - destruct (hget inst_eqb d s) as [[b|t op]|]; cbn [d_cast]; unfold buf_ref;
        destruct (validate_ty P (tyof s)); cbn [obind]; try reflexivity.
      destruct (cast_val P (tyof s) b); reflexivity.
    - cbn [obind]. destruct (validate_ty P (tyof s)); reflexivity.
  Qed.

  (** ** Depth *)
  Definition ole {A} (a b : outcome A) : Prop := a = NoFuel \/ a = b.
  Lemma ole_refl {A} (a : outcome A) : ole a a. Proof. right. reflexivity. Qed.
  Lemma ole_bind {A B} (m m' : outcome A) (f g : A -> outcome B) :
    ole m m' -> (forall a, ole (f a) (g a)) -> ole (obind m f) (obind m' g).
  Proof.
    intros [-> | ->] H; [left; reflexivity|]. destruct m'; cbn; [apply H|right; reflexivity..].
  Qed.
  Lemma ole_trans {A} (a b c : outcome A) : ole a b -> ole b c -> ole a c.
  Proof. intros [-> | ->]; [left; reflexivity|auto]. Qed.
  Lemma ole_stop {A} (a b : outcome A) : ole a b -> a <> NoFuel -> b = a.
  Proof. intros [H|H] Hn; congruence. Qed.
  Lemma oeval_mono (h h' : handler) {A} (p : PR A) : (forall r, ole (h r) (h' r)) -> ole (oeval h p) (oeval h' p).
  Proof.
    intros H. induction p as [a|o|r k IH|k IH]; cbn; [apply ole_refl..| |exact IH].
    apply ole_bind; [apply ole_refl|]. intros _. apply ole_bind; [apply H|]. intros o. apply ole_bind; [apply ole_refl|]. intros v. apply IH.
  Qed.
  Lemma collect_mono (h h' : handler) l : (forall r, ole (h r) (h' r)) -> forall p, ole (collect h p l) (collect h' p l).
  Proof.
    intros H. induction l as [|f l IH]; intros p; [apply ole_refl|]. unfold collect. cbn [ofold].
    apply ole_bind; [apply oeval_mono, H|]. exact IH.
  Qed.
  Lemma any_true_mono (h h' : handler) l : (forall r, ole (h r) (h' r)) -> ole (any_true h l) (any_true h' l).
  Proof.
    intros H. induction l as [|f l IH]; [apply ole_refl|]. cbn. apply ole_bind; [apply oeval_mono, H|].
    intros [|]; [apply ole_refl|exact IH].
  Qed.
  Lemma answer1_mono (j : joined P Q) (h h' : handler) : (forall r, ole (h r) (h' r)) -> forall r, ole (answer1 j h r) (answer1 j h' r).
  Proof.
    intros H [e x s|f t x s|e a]; cbn.
    - destruct (w_entities (j_world j) e); [|apply ole_refl]. apply ole_bind; [apply ole_refl|]. intros b.
      apply ole_bind; [apply collect_mono, H|]. intros p. apply ole_refl.
    - destruct (w_entities (j_world j) f); [|apply ole_refl]. destruct (w_entities (j_world j) t); [|apply ole_refl].
      apply ole_bind; [apply ole_refl|]. intros b. apply ole_bind; [apply collect_mono, H|]. intros p. apply ole_refl.
    - apply any_true_mono, H.
  Qed.
  Lemma answer_S (j : joined P Q) n : forall r, ole (answer j n r) (answer j (S n) r).
  Proof. induction n as [|n IH]; intros r; [left; reflexivity|]. cbn [answer]. apply answer1_mono, IH. Qed.
  Lemma answer_le (j : joined P Q) n m r : n <= m -> ole (answer j n r) (answer j m r).
  Proof. induction 1; [apply ole_refl|]. eapply ole_trans; [eassumption|apply answer_S]. Qed.
  Lemma ask_le (j : joined P Q) n m {A} (p : PR A) : n <= m -> ole (ask j n p) (ask j m p).
  Proof. intros H. apply oeval_mono. intros r. apply answer_le, H. Qed.
  Lemma answer_unique (j : joined P Q) n m r : answer j n r <> NoFuel -> answer j m r <> NoFuel -> answer j n r = answer j m r.
  Proof.
    intros Hn Hm. destruct (Nat.le_ge_cases n m) as [H|H].
    - symmetry. apply ole_stop; [apply answer_le, H|exact Hn].
    - apply ole_stop; [apply answer_le, H|exact Hm].
  Qed.
  Lemma answer_is (j : joined P Q) n m r o : answer j m r = o -> o <> NoFuel -> answer j n r <> NoFuel -> o = answer j n r.
  Proof. intros <- H1 H2. apply answer_unique; assumption. Qed.
  Lemma ask_unique (j : joined P Q) n m {A} (p : PR A) : ask j n p <> NoFuel -> ask j m p <> NoFuel -> ask j n p = ask j m p.
  Proof.
    intros Hn Hm. destruct (Nat.le_ge_cases n m) as [H|H].
    - symmetry. apply ole_stop; [apply ask_le, H|exact Hn].
    - apply ole_stop; [apply ask_le, H|exact Hm].
  Qed.

  (** ** Results that code can have *)
  Lemma oeval_returns (h : handler) {A} (R : A -> Prop) (p : PR A) a : returns R p -> oeval h p = Done a -> R a.
  Proof.
    induction p as [b|o|r k IH|k IH]; cbn.
    - intros H E. injection E as <-. exact H.
    - destruct o as [[]| | |]; cbn; discriminate.
    - intros H. destruct (check r); cbn; try discriminate. destruct (h r); cbn; try discriminate.
      destruct (typed r a1) as [v| | |] eqn:Ev; cbn; try discriminate. apply IH, H.
    - exact IH.
  Qed.
  Lemma collect_keeps (h : handler) l : (forall f, In f l -> keeps f) -> forall p p', pair_ok p -> collect h p l = Done p' ->
    p_stat p' = p_stat p /\ pair_ok p'.
  Proof.
    induction l as [|f l IH]; intros Hk p p' Hp; unfold collect; cbn [ofold].
    - intros E. injection E as <-. split; [reflexivity|exact Hp].
    - destruct (oeval h (f p)) as [p1| | |] eqn:E1; cbn [obind]; try discriminate. intros E.
      destruct (oeval_returns h _ _ p1 (Hk f (or_introl eq_refl) p Hp) E1) as [Hs1 Hp1].
      destruct (IH (fun g Hg => Hk g (or_intror Hg)) p1 p' Hp1 E) as [Hs2 Hp2]. split; [congruence|exact Hp2].
  Qed.
  Lemma initial_ty (w : world P Q) s b : initial w s = Done b -> b_ty b = tyof s /\ fits s.
  Proof.
    unfold initial. destruct (validate_ty P (tyof s)) as [[]| | |] eqn:Ev; cbn [obind]; try discriminate.
    destruct (match w_defaults w with Some d => _ | None => _ end); cbn [obind]; try discriminate.
    intros E. injection E as <-. split; [reflexivity|exact Ev].
  Qed.
  Lemma answer_stat_ty (j : joined P Q) n e x s b : stats_kept j -> answer j n (RStat e x s) = Done (Some b) -> b_ty b = tyof s /\ fits s.
  Proof.
    intros Hk. destruct n as [|n]; cbn [answer answer1]; [discriminate|].
    destruct (w_entities (j_world j) e) as [ch|]; [|discriminate].
    destruct (initial (j_world j) s) as [b0| | |] eqn:E0; cbn [obind]; try discriminate.
    destruct (collect _ _ _) as [p| | |] eqn:Ec; cbn [obind]; try discriminate. intros E. injection E as <-.
    destruct (initial_ty _ _ _ E0) as [H0 Hf].
    destruct (collect_keeps _ _ (fun f Hi => Hk e ch x f Hi) (Pair s b0) p H0 Ec) as [Hs Hp].
    unfold pair_ok in Hp. rewrite Hs in Hp. split; [exact Hp|exact Hf].
  Qed.

  (** ** Acts *)
  Lemma run_abind {A B} (m : act P Q A) (f : A -> act P Q B) : forall c,
    run (abind m f) c = match run m c with
                        | (Done a, c') => run (f a) c'
                        | (Panics p, c') => (Panics p, c')
                        | (UB, c') => (UB, c')
                        | (NoFuel, c') => (NoFuel, c')
                        end.
  Proof.
    induction m as [a|o|k g IH|k b g IH|g IH]; intros c; cbn; [reflexivity| |apply IH..].
    destruct o as [[]| | |]; reflexivity.
  Qed.
  Lemma run_outcome {A} (o : outcome A) c : run (a_outcome (P := P) (Q := Q) o) c = (o, c).
  Proof. destruct o; reflexivity. Qed.

  (** Without a cache the model computes the specified answers, and leaves any cache alone. *)
  Lemma interp_uncached (ha : forall r, act P Q (raw r)) (h : handler) {A} (p : PR A) c :
    (forall r c, run (ha r) c = (h r, c)) -> run (interp false ha p) c = (oeval h p, c).
  Proof.
    intros H. revert c. induction p as [a|o|r k IH|k IH]; intros c; cbn [interp oeval]; [reflexivity|reflexivity| |apply IH].
    rewrite run_abind, run_outcome. destruct (check r); cbn; try reflexivity.
    rewrite run_abind, H. destruct (h r) as [v| | |]; cbn; try reflexivity.
    rewrite run_abind, run_outcome. destruct (typed r v); cbn; try reflexivity. apply IH.
  Qed.
  Lemma start_run {B} (w : world P Q) s (f : buffer P * list (buffer P) -> act P Q B) (g : buffer P -> outcome B) c :
    (forall b, run (f b) c = (g (fst b), c)) ->
    run (abind (a_outcome (start_value w s)) f) c = (let! b := initial w s in g b, c).
  Proof.
    intros H. rewrite run_abind, run_outcome, <- start_initial. destruct (start_value w s); cbn; try reflexivity. apply H.
  Qed.
  Lemma erased_uncached (j : joined P Q) (ha : forall r, act P Q (raw r)) (h : handler) r c :
    j_cached j = false -> (forall r c, run (ha r) c = (h r, c)) -> run (erased j ha r) c = (answer1 j h r, c).
  Proof.
    intros Hc H. destruct r as [e x s|f t x s|e a]; cbn [erased answer1].
    - unfold query_stat_erased. rewrite Hc. destruct (w_entities (j_world j) e) as [ch|]; [|reflexivity].
      apply start_run. intros b. rewrite run_abind, (interp_uncached ha h) by exact H. rewrite stat_body_collect.
      destruct (collect _ _ _); reflexivity.
    - unfold query_relation_erased. rewrite Hc. destruct (w_entities (j_world j) f); [|reflexivity].
      destruct (w_entities (j_world j) t); [|reflexivity].
      apply start_run. intros b. rewrite run_abind, (interp_uncached ha h) by exact H. rewrite rel_body_collect.
      destruct (collect _ _ _); reflexivity.
    - unfold has_attribute_erased. rewrite Hc, (interp_uncached ha h) by exact H. rewrite attr_body_any. reflexivity.
  Qed.
  Lemma level_uncached (j : joined P Q) n : j_cached j = false -> forall r c, run (level j n r) c = (answer j n r, c).
  Proof.
    intros Hc. induction n as [|n IH]; intros r c; [reflexivity|]. cbn [level answer]. apply erased_uncached; assumption.
  Qed.
  Lemma client_uncached (j : joined P Q) n {A} (p : PR A) c : j_cached j = false -> run (client j n p) c = (ask j n p, c).
  Proof. intros Hc. unfold client, ask. rewrite Hc. apply interp_uncached. intros r c0. apply level_uncached, Hc. Qed.
  Lemma answer_uncached (j : joined P Q) n : forall r, answer (uncached j) n r = answer j n r.
  Proof. induction n as [|n IH]; intros r; [reflexivity|]. cbn [answer].
    assert (H : forall r, ole (answer (uncached j) n r) (answer j n r)) by (intros r0; right; apply IH).
    assert (H' : forall r, ole (answer j n r) (answer (uncached j) n r)) by (intros r0; right; symmetry; apply IH).
    change (answer1 (uncached j)) with (answer1 j).
    destruct (answer1_mono j _ _ H r) as [E|E]; [|exact E]. destruct (answer1_mono j _ _ H' r) as [E'|E']; congruence.
  Qed.
  Lemma ask_uncached (j : joined P Q) n {A} (p : PR A) : ask (uncached j) n p = ask j n p.
  Proof.
    assert (H : forall r, ole (answer (uncached j) n r) (answer j n r)) by (intros r0; right; apply answer_uncached).
    assert (H' : forall r, ole (answer j n r) (answer (uncached j) n r)) by (intros r0; right; symmetry; apply answer_uncached).
    unfold ask. destruct (oeval_mono _ _ p H) as [E|E]; [|exact E]. destruct (oeval_mono _ _ p H') as [E'|E']; congruence.
  Qed.

  (** ** The cache *)
  Hypothesis Hd : distinct_vtables P.
  Hypothesis Hq : flags_eq (Q := Q).
  Lemma qquery_eqb_ok (a b : qq) : qquery_eqb a b = true <-> a = b.
  Proof.
    destruct a, b; cbn; try (split; [discriminate|congruence]).
    - rewrite (Hq some_of some_of0). split; congruence.
    - rewrite andb_true_iff, (Hq any_of any_of0), (Hq all_of all_of0). split; [intros [-> ->]; reflexivity|]. intros E; injection E as -> ->. auto.
  Qed.
  Lemma key_eqb_ok (a b : key P Q) : key_eqb a b = true <-> a = b.
  Proof.
    destruct a as [[e x] s], b as [[e' x'] s']. cbn. rewrite !andb_true_iff, Nat.eqb_eq, qquery_eqb_ok, (inst_eqb_ok P Hd).
    split; [intros [[-> ->] ->]; reflexivity|]. intros E; injection E as -> -> ->. auto.
  Qed.

  Section Rely.
    Variable V : key P Q -> buffer P -> Prop.
    Definition valid (c : cache P Q) : Prop := forall k b, hget key_eqb c k = Some b -> V k b.
    (** Whatever valid answers the cache gives, the act only puts valid entries and ends with [R]. *)
    Fixpoint good {A} (m : act P Q A) (R : outcome A -> Prop) : Prop :=
      match m with
      | ARet a => R (Done a)
      | AFail o => R (abort o)
      | AGet k f => good (f None) R /\ forall b, V k b -> good (f (Some b)) R
      | APut k b f => V k b /\ good f R
      | AClear f => good f R
      end.
    Lemma good_bind {A B} (m : act P Q A) (f : A -> act P Q B) R R' :
      good m R -> (forall a, R (Done a) -> good (f a) R') -> (forall o, R (abort o) -> R' (abort o)) -> good (abind m f) R'.
    Proof.
      intros H Hf Ho. induction m as [a|o|k g IH|k b g IH|g IH]; cbn in *; [apply Hf, H|apply Ho, H| | |].
      - destruct H as [H1 H2]. split; [apply IH, H1|]. intros b Hb. apply IH, H2, Hb.
      - destruct H as [H1 H2]. split; [exact H1|apply IH, H2].
      - apply IH, H.
    Qed.
    Lemma good_weaken {A} (m : act P Q A) (R R' : outcome A -> Prop) : (forall o, R o -> R' o) -> good m R -> good m R'.
    Proof.
      intros H. induction m as [a|o|k g IH|k b g IH|g IH]; cbn; [apply H|apply H| | |exact IH].
      - intros [H1 H2]. split; [apply IH, H1|]. intros b Hb. apply IH, H2, Hb.
      - intros [H1 H2]. split; [exact H1|apply IH, H2].
    Qed.
    Lemma good_outcome {A} (o : outcome A) (R : outcome A -> Prop) : good (a_outcome o) R <-> R o.
    Proof. destruct o; cbn; reflexivity. Qed.
    Lemma valid_nil : valid [].
    Proof. intros k b H. discriminate. Qed.
    Lemma valid_put c k b : valid c -> V k b -> valid (fst (hput key_eqb c k b)).
    Proof.
      intros Hc Hb k' b' H. destruct (eqb_dec key_eqb key_eqb_ok k' k) as [-> |Hn].
      - rewrite (hget_hput_same key_eqb key_eqb_ok) in H. injection H as <-. exact Hb.
      - rewrite (hget_hput_other key_eqb key_eqb_ok) in H by exact Hn. apply Hc, H.
    Qed.
    Lemma good_astep {A} (m m' : act P Q A) R c c' : good m R -> valid c -> astep m c = Some (m', c') -> good m' R /\ valid c'.
    Proof.
      intros H Hc. destruct m as [a|o|k g|k b g|g]; cbn in *; try discriminate; intros E; injection E as <- <-.
      - destruct H as [H1 H2]. destruct (hget key_eqb c k) as [b|] eqn:Eb; (split; [|exact Hc]); [apply H2, Hc, Eb|exact H1].
      - destruct H as [H1 H2]. split; [exact H2|apply valid_put; assumption].
      - split; [exact H|exact valid_nil].
    Qed.
    Lemma good_run {A} (m : act P Q A) R : forall c, good m R -> valid c -> R (fst (run m c)) /\ valid (snd (run m c)).
    Proof.
      induction m as [a|o|k g IH|k b g IH|g IH]; intros c H Hc; cbn in *; [split; assumption|split; assumption| | |].
      - destruct H as [H1 H2]. destruct (hget key_eqb c k) as [b|] eqn:Eb; apply IH; try assumption. apply H2, Hc, Eb.
      - destruct H as [H1 H2]. apply IH; [exact H2|apply valid_put; assumption].
      - apply IH; [exact H|exact valid_nil].
    Qed.
    Lemma good_steps {A} (s s' : list (act P Q A) * cache P Q) (R : list (outcome A -> Prop)) :
      steps s s' -> Forall2 (fun m R => good m R) (fst s) R -> valid (snd s) -> Forall2 (fun m R => good m R) (fst s') R /\ valid (snd s').
    Proof.
      induction 1 as [s|l1 m l2 c m' c' s E _ IH]; intros Hg Hc; [split; assumption|]. apply IH; cbn in *.
      - apply Forall2_app_inv_l in Hg as (R1 & R2 & H1 & H2 & ->). inversion H2; subst.
        apply Forall2_app; [exact H1|]. constructor; [|assumption]. apply (good_astep m m' y c c' H3 Hc E).
      - apply Forall2_app_inv_l in Hg as (R1 & R2 & H1 & H2 & ->). inversion H2; subst.
        apply (good_astep m m' y c c' H3 Hc E).
    Qed.
  End Rely.

  (** An entry is right if it is the specified answer. *)
  Definition right (j : joined P Q) (k : key P Q) (b : buffer P) : Prop :=
    let '(e, x, s) := k in (exists n, answer j n (RStat e x s) = Done (Some b)) /\ b_ty b = tyof s /\ fits s.
  (** The result [o] of asking with depth [n]. *)
  Definition rightly {A} (spec : nat -> outcome A) (n : nat) (o : outcome A) : Prop :=
    (o <> NoFuel -> exists m, spec m = o) /\ (spec n <> NoFuel -> o = spec n).

  Lemma clone_same s (b : buffer P) : b_ty b = tyof s -> fits s -> vt_clone P (si_ty s) b = Done b.
  Proof.
    intros H Hf. destruct b as [t v]. cbn in H. subst t. unfold vt_clone, buf_ref, buf_from, fits in *. rewrite Hf. cbn [obind].
    rewrite cast_val_same. reflexivity.
  Qed.

  Lemma abort_cases {A} (o : outcome Empty_set) : (exists p, @abort A o = Panics p /\ o = Panics p) \/ (@abort A o = UB /\ o = UB) \/ (@abort A o = NoFuel /\ o = NoFuel).
  Proof. destruct o as [[]|p| |]; [left; exists p|right; left|right; right]; split; reflexivity. Qed.

  Lemma interp_good (j : joined P Q) n (ha : forall r, act P Q (raw r)) {A} (p : PR A) :
    (forall r, good (right j) (ha r) (rightly (fun n => answer j n r) n)) ->
    good (right j) (interp true ha p) (rightly (fun n => ask j n p) n).
  Proof.
    intros H. induction p as [a|o|r k IH|k IH]; cbn [interp].
    - split; cbn; [exists n; reflexivity|reflexivity].
    - split; cbn; [exists n; reflexivity|reflexivity].
    - destruct (check r) as [[]|pc| |] eqn:Ec; cbn [a_outcome abind].
      2,3,4: split; unfold ask; cbn [oeval]; rewrite Ec; cbn; [exists n; reflexivity|reflexivity].
      apply (good_bind _ _ _ _ _ (H r)).
      + intros v [H1 H2]. destruct (H1 ltac:(discriminate)) as [m1 E1]. clear H1.
        destruct (typed r v) as [w|pw| |] eqn:Ew; cbn [a_outcome abind].
        2,3: split; unfold ask; cbn [oeval]; [intros _; exists m1; rewrite Ec; cbn; rewrite E1; cbn; rewrite Ew; reflexivity|];
             rewrite Ec; cbn [obind]; intros Hn; rewrite <- H2; [cbn; rewrite Ew; reflexivity|]; intros E; rewrite E in Hn; apply Hn; reflexivity.
        2: { split; unfold ask; cbn [oeval]; cbn; [congruence|]. rewrite Ec; cbn [obind]. intros Hn. exfalso.
             assert (Ea : answer j n r <> NoFuel) by (intros E; rewrite E in Hn; apply Hn; reflexivity).
             rewrite <- (H2 Ea) in Hn. cbn in Hn. rewrite Ew in Hn. apply Hn. reflexivity. }
        eapply good_weaken; [|apply (IH w)]. intros o [G1 G2]. split.
        * intros Ho. destruct (G1 Ho) as [m2 E2]. exists (Nat.max m1 m2). unfold ask. cbn [oeval]. rewrite Ec. cbn [obind].
          rewrite (ole_stop _ _ (answer_le j m1 (Nat.max m1 m2) r ltac:(lia))) by (rewrite E1; discriminate). rewrite E1. cbn [obind].
          rewrite Ew. cbn [obind]. change (oeval (answer j (Nat.max m1 m2)) (k w)) with (ask j (Nat.max m1 m2) (k w)).
          rewrite <- E2. apply ole_stop; [apply ask_le; lia|]. congruence.
        * unfold ask. cbn [oeval]. rewrite Ec. cbn [obind]. intros Hn.
          assert (Ea : answer j n r <> NoFuel) by (intros E; rewrite E in Hn; apply Hn; reflexivity).
          rewrite <- (H2 Ea) in *. cbn [obind] in *. rewrite Ew in *. cbn [obind] in *. apply G2. exact Hn.
      + intros o [H1 H2]. destruct (@abort_cases (raw r) o) as [(pp & E & ->)|[[E ->]|[E ->]]]; cbn in *.
        1,2: split; unfold ask; cbn [oeval];
          [intros _; destruct (H1 ltac:(discriminate)) as [m Em]; exists m; rewrite Ec; cbn; rewrite Em; reflexivity
          |rewrite Ec; cbn [obind]; intros Hn; rewrite <- H2; [reflexivity|]; intros E0; rewrite E0 in Hn; apply Hn; reflexivity].
        split; [congruence|]. unfold ask. cbn [oeval]. rewrite Ec. cbn [obind]. intros Hn. exfalso.
        assert (Ea : answer j n r <> NoFuel) by (intros E0; rewrite E0 in Hn; apply Hn; reflexivity).
        rewrite <- (H2 Ea) in Hn. apply Hn. reflexivity.
    - cbn. exact IH.
  Qed.

  (** Transporting [rightly] along the start of a query. *)
  Lemma good_start {B} (w : world P Q) s (V : key P Q -> buffer P -> Prop) (f : buffer P * list (buffer P) -> act P Q B) (R : outcome B -> Prop) :
    (forall p, initial w s = Panics p -> R (Panics p)) -> (initial w s = UB -> R UB) -> (initial w s = NoFuel -> R NoFuel) ->
    (forall b, initial w s = Done (fst b) -> good V (f b) R) ->
    good V (abind (a_outcome (start_value w s)) f) R.
  Proof.
    intros H1 H2 H3 H4. rewrite <- start_initial in *. destruct (start_value w s); cbn in *; auto.
  Qed.

  Lemma level_good (j : joined P Q) : j_cached j = true -> stats_kept j -> forall n r, good (right j) (level j n r) (rightly (fun n => answer j n r) n).
  Proof.
    intros Hc Hk. induction n as [|n IH]; intros r.
    - cbn. split; cbn; congruence.
    - cbn [level]. destruct r as [e x s|f t x s|e a]; cbn [erased].
      + unfold query_stat_erased. rewrite Hc. destruct (w_entities (j_world j) e) as [ch|] eqn:Ee.
        2: { cbn. split; [exists 1; cbn; rewrite Ee; reflexivity|]. cbn. rewrite Ee. reflexivity. }
        cbn [good]. split.
        * apply good_start.
          1: intros p E. 2,3: intros E. 1,2,3: split; cbn [answer answer1]; rewrite ?Ee, ?E; cbn [obind]; [intros _; exists 1; cbn; rewrite Ee, E; reflexivity|reflexivity].
          intros b Eb. apply (good_bind _ _ _ _ _ (interp_good j n (level j n) (stat_body j e ch x (Pair s (fst b))) IH)).
          -- intros p [H1 H2]. destruct (H1 ltac:(discriminate)) as [m Em]. unfold ask in Em. rewrite stat_body_collect in Em.
             destruct (initial_ty _ _ _ Eb) as [Hty Hf].
             destruct (collect_keeps _ _ (fun f Hi => Hk e ch x f Hi) (Pair s (fst b)) p Hty Em) as [Hs Hp]. cbn in Hs.
             unfold pair_clone_buffer. unfold pair_ok in Hp. rewrite Hs in *. rewrite (clone_same s (p_buf p) Hp Hf). cbn [a_outcome abind good].
             assert (Ea : answer j (S m) (RStat e x s) = Done (Some (p_buf p))).
             { cbn [answer answer1]. rewrite Ee, Eb. cbn [obind]. rewrite Em. reflexivity. }
             split; [|split].
             ++ cbn. split; [exists (S m); exact Ea|split; assumption].
             ++ intros _. exists (S m). exact Ea.
             ++ intros Hn. apply (answer_is j (S n) (S m) _ _ Ea); [discriminate|exact Hn].
          -- intros o [H1 H2]. unfold ask in H1, H2. setoid_rewrite stat_body_collect in H1. rewrite stat_body_collect in H2. split.
             ++ intros Hn. destruct H1 as [m Em]; [destruct (@abort_cases (pair P) o) as [(? & E & ->)|[[E ->]|[E ->]]]; cbn in *; congruence|].
                exists (S m). cbn [answer answer1]. rewrite Ee, Eb. cbn [obind]. rewrite Em. destruct o as [[]| | |]; reflexivity.
             ++ cbn [answer answer1]. rewrite Ee, Eb. cbn [obind]. intros Hn.
                rewrite <- H2; [destruct o as [[]| | |]; reflexivity|]. intros E. rewrite E in Hn. apply Hn. reflexivity.
        * intros b ([m Em] & Hty & Hf). rewrite (clone_same s b Hty Hf). cbn. split; [exists m; exact Em|].
          intros Hn. apply (answer_is j (S n) m _ _ Em); [discriminate|exact Hn].
      + unfold query_relation_erased. rewrite Hc. destruct (w_entities (j_world j) f) as [cf|] eqn:Ef.
        2: { cbn. split; [exists 1; cbn; rewrite Ef; reflexivity|]. cbn. rewrite Ef. reflexivity. }
        destruct (w_entities (j_world j) t) as [ct|] eqn:Et.
        2: { cbn. split; [exists 1; cbn; rewrite Ef, Et; reflexivity|]. cbn. rewrite Ef, Et. reflexivity. }
        apply good_start.
        1: intros p E. 2,3: intros E. 1,2,3: split; cbn [answer answer1]; rewrite ?Ef, ?Et, ?E; cbn [obind]; [intros _; exists 1; cbn; rewrite Ef, Et, E; reflexivity|reflexivity].
        intros b Eb. apply (good_bind _ _ _ _ _ (interp_good j n (level j n) (rel_body j f t x (Pair s (fst b))) IH)).
        * intros p [H1 H2]. destruct (H1 ltac:(discriminate)) as [m Em]. unfold ask in Em. rewrite rel_body_collect in Em.
          assert (Ea : answer j (S m) (RRel f t x s) = Done (Some (p_buf p))).
          { cbn [answer answer1]. rewrite Ef, Et, Eb. cbn [obind]. rewrite Em. reflexivity. }
          cbn. split; [intros _; exists (S m); exact Ea|].
          intros Hn. apply (answer_is j (S n) (S m) _ _ Ea); [discriminate|exact Hn].
        * intros o [H1 H2]. unfold ask in H1, H2. setoid_rewrite rel_body_collect in H1. rewrite rel_body_collect in H2. split.
          -- intros Hn. destruct H1 as [m Em]; [destruct (@abort_cases (pair P) o) as [(? & E & ->)|[[E ->]|[E ->]]]; cbn in *; congruence|].
             exists (S m). cbn [answer answer1]. rewrite Ef, Et, Eb. cbn [obind]. rewrite Em. destruct o as [[]| | |]; reflexivity.
          -- cbn [answer answer1]. rewrite Ef, Et, Eb. cbn [obind]. intros Hn.
             rewrite <- H2; [destruct o as [[]| | |]; reflexivity|]. intros E. rewrite E in Hn. apply Hn. reflexivity.
      + unfold has_attribute_erased. rewrite Hc.
        eapply good_weaken; [|apply (interp_good j n (level j n) (attr_body j e a) IH)].
        intros o [H1 H2]. unfold ask in H1, H2. setoid_rewrite attr_body_any in H1. rewrite attr_body_any in H2. split.
        * intros Hn. destruct (H1 Hn) as [m Em]. exists (S m). exact Em.
        * exact H2.
  Qed.
  Lemma client_good (j : joined P Q) n {A} (p : PR A) : j_cached j = true -> stats_kept j ->
    good (right j) (client j n p) (rightly (fun n => ask j n p) n).
  Proof. intros Hc Hk. unfold client. rewrite Hc. apply interp_good. intros r. apply level_good; assumption. Qed.
End L.
