(** Worlds: histories of extension method calls. *)
From Coq Require Import ZArith List Bool String Lia.
From Verif Require Import M_Outcome M_Value M_Types M_Qualifier M_Search M_Stat M_StatMap M_HashMap M_Pair M_Defaults M_Registry M_Querier M_World
  S_Pair S_StatMap S_Defaults S_Querier S_Demo S_DemoDefaults S_DemoQuery S_World S_Registry L_StatMap3 L_HashMap L_Demo L_Defaults L_Outcome L_Querier L_Querier2 L_Querier3 L_Querier4 L_DemoQuery
  L_DefaultsProofs L_CacheProofs.
Import ListNotations.

Section L.
  Context {P : Prog} {Q : QFlag} (N : StatNames P) (o_size o_align : vty P -> Z).
  Notation wr := (w_run (Q := Q) N o_size o_align).
  Notation ws := (w_step (Q := Q) N o_size o_align).

  Lemma w_run_app l1 : forall r l2, wr r (l1 ++ l2) = let! r' := wr r l1 in wr r' l2.
  Proof.
    induction l1 as [|o l1 IH]; intros r l2; [reflexivity|].
    cbn [app w_run]. destruct (ws r o); cbn [obind]; auto.
  Qed.

  Lemma d_run_app l1 : forall d l2, d_run o_size o_align d (l1 ++ l2) =
    let! a := d_run o_size o_align d l1 in
    let! b := d_run o_size o_align (fst a) l2 in Done (fst b, snd a ++ snd b).
  Proof.
    induction l1 as [|c l1 IH]; intros d l2.
    - cbn. destruct (d_run o_size o_align d l2) as [[? ?]| | |]; reflexivity.
    - cbn [app d_run]. destruct (d_step o_size o_align d c) as [a| | |]; cbn [obind]; auto.
      rewrite IH. destruct (d_run o_size o_align (fst a) l1) as [b| | |]; cbn [obind]; auto.
      cbn [fst snd]. destruct (d_run o_size o_align (fst b) l2) as [c'| | |]; cbn [obind]; auto.
      cbn [fst snd]. rewrite <- app_assoc. reflexivity.
  Qed.
  Lemma rops_app l1 l2 : rops_run N (l1 ++ l2) = fold_left (rop_run N) l2 (rops_run N l1).
  Proof. unfold rops_run. apply fold_left_app. Qed.

  (** The invariant: every resource is what its own calls made of it. *)
  Record faithful (l : list (wop P Q)) (r : resources P Q) : Prop := {
    fa_defaults : exists lost, d_run o_size o_align [] (default_calls l) = Done (content (r_defaults r), lost);
    fa_dnone : r_defaults r = None <-> default_calls l = [];
    fa_relations : content (r_relations r) = relations_pushed l;
    fa_rnone : r_relations r = None <-> relations_pushed l = [];
    fa_names : content (r_names r) = rops_run N (types_registered l);
    fa_nnone : r_names r = None <-> types_registered l = [];
    fa_cache : r_cache r = None <-> ~ In WCache l
  }.
  Lemma app_nil_iff {A} (l : list A) a : l ++ [a] = [] <-> False.
  Proof. split; [|tauto]. destruct l; discriminate. Qed.
  Lemma in_snoc {A} (l : list A) a b : In a (l ++ [b]) <-> In a l \/ b = a.
  Proof. rewrite in_app_iff. simpl. tauto. Qed.

  Lemma faithful_step l r o r' : faithful l r -> ws r o = Done r' -> faithful (l ++ [o]) r'.
  Proof.
    intros [[lost Hd] Hdn Hr Hrn Hn Hnn Hc] Hs.
    assert (Ed : default_calls (l ++ [o]) = default_calls l ++ default_calls [o]) by apply flat_map_app.
    assert (Er : relations_pushed (l ++ [o]) = relations_pushed l ++ relations_pushed [o]) by apply flat_map_app.
    assert (En : types_registered (l ++ [o]) = types_registered l ++ types_registered [o]) by apply flat_map_app.
    destruct o as [T|s v|s b|s b|g| | |sc n p| |e x p]; cbn [w_step] in Hs.
    - destruct (register N (or_insert (r_names r)) T) as [m [u| | |]] eqn:Em; try discriminate.
      injection Hs as <-.
      constructor; rewrite ?Ed, ?Er, ?En; simpl; rewrite ?app_nil_r, ?app_nil_iff; auto.
      + exists lost. exact Hd.
      + rewrite rops_app. cbn [fold_left rop_run]. rewrite <- Hn.
        change (content (r_names r)) with (or_insert (r_names r)). rewrite Em. reflexivity.
      + split; [discriminate|tauto].
      + rewrite Hc. rewrite in_snoc. split; [intros A [B|B]; [tauto|discriminate]|tauto].
    - destruct (d_insert (or_insert (r_defaults r)) s v) as [d| | |] eqn:Em; try discriminate.
      injection Hs as <-.
      constructor; rewrite ?Ed, ?Er, ?En; simpl; rewrite ?app_nil_r, ?app_nil_iff; auto.
      + rewrite d_run_app, Hd. cbn [obind fst snd d_run d_step]. change (content (r_defaults r)) with (or_insert (r_defaults r)). rewrite Em.
        cbn [obind fst snd]. eauto.
      + split; [discriminate|tauto].
      + rewrite Hc. rewrite in_snoc. split; [intros A [B|B]; [tauto|discriminate]|tauto].
    - unfold d_step, register_min in Hs. cbn [obind] in Hs. destruct (d_patch o_size o_align (or_insert (r_defaults r)) s (OMin b)) as [d| | |] eqn:Em; try discriminate. cbn [obind fst] in Hs.
      injection Hs as <-.
      constructor; rewrite ?Ed, ?Er, ?En; simpl; rewrite ?app_nil_r, ?app_nil_iff; auto.
      + rewrite d_run_app, Hd. cbn [obind fst snd d_run d_step]. change (content (r_defaults r)) with (or_insert (r_defaults r)). rewrite Em.
        cbn [obind fst snd]. eauto.
      + split; [discriminate|tauto].
      + rewrite Hc. rewrite in_snoc. split; [intros A [B|B]; [tauto|discriminate]|tauto].
    - unfold d_step, register_max in Hs. cbn [obind] in Hs. destruct (d_patch o_size o_align (or_insert (r_defaults r)) s (OMax b)) as [d| | |] eqn:Em; try discriminate. cbn [obind fst] in Hs.
      injection Hs as <-.
      constructor; rewrite ?Ed, ?Er, ?En; simpl; rewrite ?app_nil_r, ?app_nil_iff; auto.
      + rewrite d_run_app, Hd. cbn [obind fst snd d_run d_step]. change (content (r_defaults r)) with (or_insert (r_defaults r)). rewrite Em.
        cbn [obind fst snd]. eauto.
      + split; [discriminate|tauto].
      + rewrite Hc. rewrite in_snoc. split; [intros A [B|B]; [tauto|discriminate]|tauto].
    - injection Hs as <-.
      constructor; rewrite ?Ed, ?Er, ?En; simpl; rewrite ?app_nil_r, ?app_nil_iff; auto.
      + exists lost. exact Hd.
      + rewrite <- Hr. reflexivity.
      + split; [discriminate|tauto].
      + rewrite Hc. rewrite in_snoc. split; [intros A [B|B]; [tauto|discriminate]|tauto].
    - destruct (r_cache r) as [c|] eqn:Ec; [|discriminate].
      destruct (cache_drop c); try discriminate. injection Hs as <-.
      constructor; rewrite ?Ed, ?Er, ?En; simpl; rewrite ?app_nil_r; auto.
      + exists lost. exact Hd.
      + split; [discriminate|]. intros A. exfalso.
        assert (Some c = None) by (apply Hc; rewrite in_snoc in A; tauto). discriminate.
    - destruct (match r_cache r with Some c => cache_drop c | None => Done tt end); try discriminate. injection Hs as <-.
      constructor; rewrite ?Ed, ?Er, ?En; simpl; rewrite ?app_nil_r; auto.
      + exists lost. exact Hd.
      + split; [discriminate|]. rewrite in_snoc. tauto.
    - destruct (fst (w_query r sc n p)); try discriminate. cbn [obind] in Hs. injection Hs as <-.
      constructor; rewrite ?Ed, ?Er, ?En; simpl; rewrite ?app_nil_r.
      + exists lost. destruct (r_cache r); exact Hd.
      + destruct (r_cache r); exact Hdn.
      + destruct (r_cache r); exact Hr.
      + destruct (r_cache r); exact Hrn.
      + destruct (r_cache r); exact Hn.
      + destruct (r_cache r); exact Hnn.
      + rewrite in_snoc. destruct (r_cache r) as [c|] eqn:Ec.
        * cbn [set_cache r_cache]. split; [discriminate|]. intros A. exfalso. assert (Some c = None) by (apply Hc; tauto). discriminate.
        * rewrite Ec. split; [|reflexivity]. intros _ [B|B]; [|discriminate]. apply Hc in B; auto.
    - destruct (r_cache r) as [c|] eqn:Ec.
      + destruct (cache_drop c); try discriminate. injection Hs as <-.
        constructor; rewrite ?Ed, ?Er, ?En; simpl; rewrite ?app_nil_r; auto.
        * exists lost. exact Hd.
        * split; [discriminate|]. intros A. exfalso.
          assert (Some c = None) by (apply Hc; rewrite in_snoc in A; tauto). discriminate.
      + injection Hs as <-.
        constructor; rewrite ?Ed, ?Er, ?En; simpl; rewrite ?app_nil_r; auto.
        * exists lost. exact Hd.
        * rewrite Ec, in_snoc. split; [intros _ [A|A]; [apply Hc in A; auto|discriminate]|reflexivity].
    - destruct (r_cache r) as [c|] eqn:Ec; [|discriminate].
      destruct (pair_clone_buffer p); try discriminate. injection Hs as <-.
      constructor; rewrite ?Ed, ?Er, ?En; simpl; rewrite ?app_nil_r; auto.
      + exists lost. exact Hd.
      + split; [discriminate|]. intros A. exfalso.
        assert (Some c = None) by (apply Hc; rewrite in_snoc in A; tauto). discriminate.
  Qed.
  Lemma faithful_run l : forall l0 r r', faithful l0 r -> wr r l = Done r' -> faithful (l0 ++ l) r'.
  Proof.
    induction l as [|o l IH]; intros l0 r r' Hf Hw.
    - injection Hw as <-. rewrite app_nil_r. exact Hf.
    - cbn [w_run] in Hw. destruct (ws r o) as [r1| | |] eqn:Es; try discriminate.
      change (o :: l) with ([o] ++ l). rewrite app_assoc. apply (IH _ r1); [|exact Hw]. eapply faithful_step; eassumption.
  Qed.
  Lemma faithful_new : faithful [] no_resources.
  Proof.
    constructor; simpl; try tauto; try reflexivity.
    exists []. reflexivity.
  Qed.
  Lemma faithful_after l r : wr no_resources l = Done r -> faithful l r.
  Proof. intros H. exact (faithful_run l [] _ _ faithful_new H). Qed.

  (** Every entry of every cache is a value of the type of its stat. *)
  Lemma cache_good_step (Hd : distinct_vtables P) (Hq : flags_eq (Q := Q)) r o r' :
    (forall k b, In (k, b) (content (r_cache r)) -> entry_ok k b) -> ws r o = Done r' ->
    (forall k b, In (k, b) (content (r_cache r')) -> entry_ok k b).
  Proof.
    intros Hg Hs.
    destruct o as [T|s v|s b|s b|g| | |sc n p| |e x p]; cbn [w_step] in Hs.
    - destruct (register N (or_insert (r_names r)) T) as [m [u| | |]] eqn:Em; try discriminate. injection Hs as <-. exact Hg.
    - destruct (d_insert (or_insert (r_defaults r)) s v) as [d| | |] eqn:Em; try discriminate. injection Hs as <-. exact Hg.
    - unfold d_step, register_min in Hs. cbn [obind] in Hs. destruct (d_patch o_size o_align (or_insert (r_defaults r)) s (OMin b)) as [d| | |] eqn:Em; try discriminate. cbn [obind fst] in Hs. injection Hs as <-. exact Hg.
    - unfold d_step, register_max in Hs. cbn [obind] in Hs. destruct (d_patch o_size o_align (or_insert (r_defaults r)) s (OMax b)) as [d| | |] eqn:Em; try discriminate. cbn [obind fst] in Hs. injection Hs as <-. exact Hg.
    - injection Hs as <-. exact Hg.
    - destruct (r_cache r) as [c|] eqn:Ec; [|discriminate].
      destruct (cache_drop c); try discriminate. injection Hs as <-. intros k b [].
    - destruct (match r_cache r with Some c => cache_drop c | None => Done tt end); try discriminate. injection Hs as <-. intros k b [].
    - destruct (fst (w_query r sc n p)) eqn:Er; try discriminate. cbn [obind] in Hs. injection Hs as <-.
      destruct (r_cache r) as [c|] eqn:Ec; [|exact (fun k b H => Hg k b ltac:(rewrite Ec in H; exact H))].
      cbn [set_cache r_cache content]. unfold w_query. rewrite Ec. cbn [or_insert].
      intros k b. apply (puts_run Hd Hq _ (puts_interp _ _ _ (puts_level _ _))).
      exact Hg.
    - destruct (r_cache r) as [c|] eqn:Ec; [|injection Hs as <-; rewrite Ec; exact Hg].
      destruct (cache_drop c); try discriminate. injection Hs as <-. intros k b [].
    - destruct (r_cache r) as [c|] eqn:Ec; [|discriminate].
      destruct (pair_clone_buffer p) as [b0| | |] eqn:Ep; try discriminate. injection Hs as <-.
      cbn [set_cache r_cache content]. intros k b Hin.
      apply in_hput in Hin. destruct Hin as [Hin|[[-> Hk]|Hin]].
      + apply Hg. exact Hin.
      + apply (key_eqb_ok Hd Hq) in Hk. subst k.
        unfold pair_clone_buffer in Ep. apply clone_cast in Ep. destruct Ep as (v & E1 & E2 & Hf).
        subst b0. rewrite E1. split; [reflexivity|exact Hf].
      + injection Hin as -> ->.
        unfold pair_clone_buffer in Ep. apply clone_cast in Ep. destruct Ep as (v & E1 & E2 & Hf).
        subst b0. rewrite E1. split; [reflexivity|exact Hf].
  Qed.
End L.

Section L2.
  Context {P : Prog} {Q : QFlag} (N : StatNames P) (o_size o_align : vty P -> Z).
  Notation wr := (w_run (Q := Q) N o_size o_align).
  Notation ws := (w_step (Q := Q) N o_size o_align).
  Notation tyof s := (vt_value P (si_ty s)).

  Lemma cache_good_run (Hd : distinct_vtables P) (Hq : flags_eq (Q := Q)) l : forall r r',
    (forall k b, In (k, b) (content (r_cache r)) -> entry_ok k b) -> wr r l = Done r' ->
    (forall k b, In (k, b) (content (r_cache r')) -> entry_ok k b).
  Proof.
    induction l as [|o l IH]; intros r r' Hg Hw.
    - injection Hw as <-. exact Hg.
    - cbn [w_run] in Hw. destruct (ws r o) as [r1| | |] eqn:Es; try discriminate.
      apply (IH r1); [|exact Hw]. eapply cache_good_step; eassumption.
  Qed.
  Lemma cache_good_after (Hd : distinct_vtables P) (Hq : flags_eq (Q := Q)) l r : wr no_resources l = Done r ->
    cache_drop (content (r_cache r)) = Done tt.
  Proof.
    intros Hw. apply drop_ok. eapply cache_good_run; [exact Hd|exact Hq| |exact Hw]. intros k b [].
  Qed.

  Lemma plain_sources (r : resources P Q) sc e ch x : plain sc ->
    stat_sources (querier_of r sc) e ch x = map (fun g => g e x) (content (r_relations r)).
  Proof.
    intros (H1 & H2 & H3). unfold stat_sources, querier_of. cbn [j_world j_comp j_child j_rel w_relations].
    rewrite H1, H2, H3. cbn [leaves flat_map]. rewrite !app_nil_r. reflexivity.
  Qed.

  Lemma plain_relations_l (r : resources P Q) sc n e x s : plain sc -> sc_entities sc e <> None -> r_cache r = None ->
    fst (w_query r sc (S n) (p_query e x s)) =
      let! _ := validate_ty P (tyof s) in
      let! b := initial (j_world (querier_of r sc)) s in
      let! p := collect (answer (querier_of r sc) n) (Pair s b) (map (fun g => g e x) (content (r_relations r))) in
      let! v := buf_into P (tyof s) (p_buf p) in Done (Some v).
  Proof.
    intros Hp He Hc. unfold w_query. rewrite client_uncached by (unfold querier_of; rewrite Hc; reflexivity).
    cbn [fst]. unfold ask, p_query. cbn [oeval check answer answer1].
    change (w_entities (j_world (querier_of r sc)) e) with (sc_entities sc e).
    destruct (sc_entities sc e) as [ch|]; [|congruence].
    rewrite (plain_sources r sc e ch x Hp).
    destruct (validate_ty P (tyof s)) as [[]| | |]; cbn [obind]; auto.
    destruct (initial (j_world (querier_of r sc)) s) as [b| | |]; cbn [obind]; auto.
    destruct (collect (answer (querier_of r sc) n) (Pair s b) (map (fun g => g e x) (content (r_relations r)))) as [p| | |]; cbn [obind]; auto.
    cbn [typed]. destruct (buf_into P (tyof s) (p_buf p)); cbn [obind]; reflexivity.
  Qed.

  Lemma plain_query_l (Hd : distinct_vtables P) (r : resources P Q) sc n e x s v : plain sc -> sc_entities sc e <> None -> fits s ->
    content (r_relations r) = [] -> content (r_cache r) = [] ->
    match r_defaults r with Some d => d_get d s | None => Done (sv_default (VT P (tyof s))) end = Done v ->
    fst (w_query r sc (S n) (p_query e x s)) = Done (Some v).
  Proof.
    intros Hp He Hf Hr Hc Hv.
    assert (Hi : initial (j_world (querier_of r sc)) s = Done (Buf (tyof s) v)).
    { unfold initial. unfold fits in Hf. rewrite Hf. cbn [obind]. cbn [querier_of j_world w_defaults]. rewrite Hv. reflexivity. }
    unfold fits in Hf.
    assert (He' : exists ch, w_entities (j_world (querier_of r sc)) e = Some ch).
    { cbn [querier_of j_world w_entities]. destruct (sc_entities sc e) as [ch|]; [eauto|congruence]. }
    destruct He' as (ch & He'). destruct Hp as (H1 & H2 & H3).
    unfold w_query. destruct (r_cache r) as [c|] eqn:Ec.
    - cbn [content] in Hc. subst c. cbn [or_insert]. rewrite run_query, Hf.
      rewrite (run_miss _ n e x s [] ch); [|cbn [querier_of j_cached]; rewrite Ec; reflexivity|exact He'|reflexivity].
      rewrite Hi. unfold stat_body. cbn [querier_of j_world j_comp j_child j_rel w_relations]. rewrite H1, H2, H3.
      assert (Hb : pbind match r_relations r with Some l => relations_stream l e x (Pair s (Buf (tyof s) v)) | None => Ret (Pair s (Buf (tyof s) v)) end
        (fun p => pbind (q_stream QUnit e [e] x p) (fun p => pbind (q_stream QUnit e [e] x p) (fun p =>
          match ch with Some ch => q_stream QUnit e ch x p | None => Ret p end))) = Ret (Pair s (Buf (tyof s) v))).
      { destruct (r_relations r) as [l|]; [cbn [content] in Hr; subst l|]; destruct ch; reflexivity. }
      rewrite Hb. cbn [interp run]. unfold pair_clone_buffer. cbn [p_stat p_buf].
      rewrite (clone_same s (Buf (tyof s) v) eq_refl Hf). cbn [fst]. rewrite cast_val_same. reflexivity.
    - rewrite client_uncached by (cbn [querier_of j_cached]; rewrite Ec; reflexivity).
      cbn [fst]. unfold ask, p_query. cbn [oeval check answer answer1]. rewrite Hf, He'. cbn [obind]. rewrite Hi. cbn [obind].
      rewrite (plain_sources r sc e ch x (conj H1 (conj H2 H3))), Hr. cbn [map collect ofold obind typed p_buf].
      unfold buf_into, buf_ref. rewrite Hf. cbn [obind]. rewrite cast_val_same. reflexivity.
  Qed.

  (** The part of the world a query reads, with a cache. *)
  Definition with_cache (r : resources P Q) (sc : scene P Q) : joined P Q := querier_of (set_cache r (Some [])) sc.
  Lemma querier_cached (r : resources P Q) sc c : r_cache r = Some c -> querier_of r sc = with_cache r sc.
  Proof. intros H. unfold with_cache, querier_of. rewrite H. reflexivity. Qed.
  Lemma after_snoc (j : joined P Q) l : forall c n p, snd (run (client j n p) (after j l c)) = after j (l ++ [(n, p)]) c.
  Proof. induction l as [|[m q] l IH]; intros c n p; [reflexivity|]. cbn [after app]. apply IH. Qed.
  Lemma after_all_snoc l : forall (c : cache P Q) j n p, snd (run (client j n p) (after_all l c)) = after_all (l ++ [(j, n, p)]) c.
  Proof. induction l as [|[[k m] q] l IH]; intros c j n p; [reflexivity|]. cbn [after_all app]. apply IH. Qed.

  Definition of_queries (jc : joined P Q) (r : resources P Q) : Prop :=
    r_cache r = None \/ exists l, r_cache r = Some (after jc l []).
  Lemma fresh_run sc l : Forall (changes_nothing sc) l -> forall r r', of_queries (with_cache r sc) r -> wr r l = Done r' ->
    with_cache r' sc = with_cache r sc /\ of_queries (with_cache r sc) r'.
  Proof.
    induction 1 as [|o l Ho Hl IH]; intros r r' Hq Hw.
    - injection Hw as <-. auto.
    - cbn [w_run] in Hw. destruct (ws r o) as [r1| | |] eqn:Es; try discriminate. cbn [obind] in Hw.
      enough (Hr1 : with_cache r1 sc = with_cache r sc /\ of_queries (with_cache r sc) r1).
      { destruct Hr1 as [E Hr1]. rewrite <- E in Hr1. destruct (IH r1 r' Hr1 Hw) as [E' Hr']. rewrite E in E', Hr'. auto. }
      destruct o as [T|s v|s b|s b|g| | |sc' n p| |e x p]; cbn [changes_nothing] in Ho; try contradiction; cbn [w_step] in Es.
      + destruct (register N (or_insert (r_names r)) T) as [m [u| | |]]; try discriminate. injection Es as <-.
        split; [reflexivity|]. destruct Hq as [Hq|Hq]; [left; exact Hq|right; exact Hq].
      + destruct (r_cache r) as [c|]; [|discriminate]. destruct (cache_drop c); try discriminate. injection Es as <-.
        split; [reflexivity|]. right. exists []. reflexivity.
      + destruct (match r_cache r with Some c => cache_drop c | None => Done tt end); try discriminate. injection Es as <-.
        split; [reflexivity|]. right. exists []. reflexivity.
      + subst sc'. destruct (fst (w_query r sc n p)); try discriminate. injection Es as <-.
        destruct Hq as [Hq|[lq Hq]]; rewrite Hq.
        * split; [reflexivity|left; exact Hq].
        * split; [reflexivity|]. right. exists (lq ++ [(n, p)]). cbn [set_cache r_cache]. f_equal.
          unfold w_query. rewrite Hq. cbn [or_insert]. rewrite (querier_cached r sc _ Hq). apply after_snoc.
      + destruct (r_cache r) as [c|] eqn:Ec; [|injection Es as <-; split; [reflexivity|left; exact Ec]].
        destruct (cache_drop c); try discriminate. injection Es as <-. split; [reflexivity|]. right. exists []. reflexivity.
  Qed.
  Lemma emptied r o r' : empties o -> ws r o = Done r' -> r_cache r' = None \/ r_cache r' = Some [].
  Proof.
    destruct o; cbn [empties]; try contradiction; intros _; cbn [w_step].
    - destruct (r_cache r) as [c|]; [|discriminate]. destruct (cache_drop c); try discriminate. intros H. injection H as <-. auto.
    - destruct (match r_cache r with Some c => cache_drop c | None => Done tt end); try discriminate. intros H. injection H as <-. auto.
    - destruct (r_cache r) as [c|] eqn:Ec; [|intros H; injection H as <-; auto].
      destruct (cache_drop c); try discriminate. intros H. injection H as <-. auto.
  Qed.
  Lemma same_as_refl {A} (u : nat -> outcome A) n : same_as u n (u n).
  Proof. split; [eauto|reflexivity]. Qed.

  Lemma fresh_after_l (Hd : distinct_vtables P) (Hf : flags_eq (Q := Q)) l1 l2 o r sc n {A} (p : prog P Q A) :
    wr no_resources (l1 ++ o :: l2) = Done r ->
    empties o -> Forall (changes_nothing sc) l2 -> stats_kept (querier_of r sc) ->
    same_as (fun n => fst (run (client (uncached (querier_of r sc)) n p) [])) n (fst (w_query r sc n p)).
  Proof.
    intros Hw Ho Hl Hk. rewrite w_run_app in Hw. destruct (wr no_resources l1) as [r0| | |]; try discriminate.
    cbn [obind w_run] in Hw. destruct (ws r0 o) as [r1| | |] eqn:Es; try discriminate. cbn [obind] in Hw.
    assert (Hq : of_queries (with_cache r1 sc) r1).
    { destruct (emptied _ _ _ Ho Es) as [E|E]; [left; exact E|right; exists []; exact E]. }
    destruct (fresh_run sc l2 Hl r1 r Hq Hw) as [E Hr]. rewrite <- E in Hr.
    unfold w_query. destruct Hr as [Hr|[lq Hr]].
    - rewrite client_uncached by (cbn [querier_of j_cached]; rewrite Hr; reflexivity). cbn [fst].
      rewrite <- (uncached_ask (querier_of r sc) n p). apply same_as_refl with (u := fun n => fst (run (client (uncached (querier_of r sc)) n p) [])).
    - rewrite Hr. cbn [or_insert]. rewrite (querier_cached r sc _ Hr) in Hk |- *.
      apply C27_transparent_proof; auto.
  Qed.

  Lemma stale_run c1 r1 l : forall l0 r r',
    Forall (fun t => j_cached (fst (fst t)) = true /\ stats_kept (fst (fst t)) /\ all_code (fun A p => no_wipe p) (fst (fst t)) /\ no_wipe (snd t)) l0 ->
    r_cache r = Some (after_all l0 c1) ->
    Forall not_clearing l ->
    (forall la sc n p lb r', l = la ++ WQuery sc n p :: lb -> wr r la = Done r' ->
       stats_kept (querier_of r' sc) /\ all_code (fun A p => no_wipe p) (querier_of r' sc) /\ no_wipe p) ->
    r1 = r -> wr r l = Done r' ->
    exists lq, Forall (fun t => j_cached (fst (fst t)) = true /\ stats_kept (fst (fst t)) /\ all_code (fun A p => no_wipe p) (fst (fst t)) /\ no_wipe (snd t)) lq /\
      r_cache r' = Some (after_all lq c1).
  Proof.
    revert r1. induction l as [|o l IH]; intros r1 l0 r r' H0 Hc Hn Hk E Hw.
    - injection Hw as <-. eauto.
    - inversion Hn as [|o' l' Ho Hn']. subst o' l'. cbn [w_run] in Hw.
      destruct (ws r o) as [r2| | |] eqn:Es; try discriminate. cbn [obind] in Hw.
      assert (Hk2 : forall la sc n p lb r', l = la ++ WQuery sc n p :: lb -> wr r2 la = Done r' ->
        stats_kept (querier_of r' sc) /\ all_code (fun A p => no_wipe p) (querier_of r' sc) /\ no_wipe p).
      { intros la sc n p lb r3 -> Hla. apply (Hk (o :: la) sc n p lb r3); [reflexivity|]. cbn [w_run]. rewrite Es. exact Hla. }
      enough (Hr2 : exists lq, Forall (fun t => j_cached (fst (fst t)) = true /\ stats_kept (fst (fst t)) /\ all_code (fun A p => no_wipe p) (fst (fst t)) /\ no_wipe (snd t)) lq /\
        r_cache r2 = Some (after_all lq c1)).
      { destruct Hr2 as (lq & Hlq & Hr2). exact (IH r2 lq r2 r' Hlq Hr2 Hn' Hk2 eq_refl Hw). }
      destruct o as [T|s v|s b|s b|g| | |sc n p| |e x p]; cbn [not_clearing] in Ho; try contradiction; cbn [w_step] in Es.
      + destruct (register N (or_insert (r_names r)) T) as [m [u| | |]]; try discriminate. injection Es as <-. eauto.
      + destruct (d_insert (or_insert (r_defaults r)) s v) as [d| | |]; try discriminate. injection Es as <-. eauto.
      + unfold d_step, register_min in Es. cbn [obind] in Es. destruct (d_patch o_size o_align (or_insert (r_defaults r)) s (OMin b)) as [d| | |]; try discriminate. cbn [obind fst] in Es. injection Es as <-. eauto.
      + unfold d_step, register_max in Es. cbn [obind] in Es. destruct (d_patch o_size o_align (or_insert (r_defaults r)) s (OMax b)) as [d| | |]; try discriminate. cbn [obind fst] in Es. injection Es as <-. eauto.
      + injection Es as <-. eauto.
      + destruct (Hk [] sc n p l r eq_refl eq_refl) as (K1 & K2 & K3).
        destruct (fst (w_query r sc n p)); try discriminate. cbn [obind] in Es. rewrite Hc in Es. injection Es as <-.
        exists (l0 ++ [(querier_of r sc, n, p)]). split.
        * apply Forall_app. split; [exact H0|]. constructor; [|constructor]. cbn [fst snd].
          split; [cbn [querier_of j_cached]; rewrite Hc; reflexivity|]. exact (conj K1 (conj K2 K3)).
        * cbn [set_cache r_cache]. f_equal. unfold w_query. rewrite Hc. cbn [or_insert]. apply after_all_snoc.
  Qed.
End L2.

Lemma resources_after (P : Prog) (Q : QFlag) (N : StatNames P) (o_size o_align : vty P -> Z) (l : list (wop P Q)) (r : resources P Q) :
  w_run N o_size o_align no_resources l = Done r ->
  ((exists lost, d_run o_size o_align [] (default_calls l) = Done (content (r_defaults r), lost)) /\ (r_defaults r = None <-> default_calls l = [])) /\
  (content (r_relations r) = relations_pushed l /\ (r_relations r = None <-> relations_pushed l = [])) /\
  (content (r_names r) = rops_run N (types_registered l) /\ (r_names r = None <-> types_registered l = [])) /\
  (r_cache r = None <-> ~ In WCache l).
Proof. intros H. destruct (faithful_after N o_size o_align l r H). tauto. Qed.

Lemma clear_after (P : Prog) (Q : QFlag) (N : StatNames P) (o_size o_align : vty P -> Z) (l : list (wop P Q)) (r : resources P Q) :
  distinct_vtables P -> flags_eq (Q := Q) ->
  w_run N o_size o_align no_resources l = Done r ->
  (~ In WCache l -> w_run N o_size o_align no_resources (l ++ [WClear]) = Panics PUnwrap /\ w_run N o_size o_align no_resources (l ++ [WQueryClear]) = Done r) /\
  (In WCache l -> exists r', w_run N o_size o_align no_resources (l ++ [WClear]) = Done r' /\ w_run N o_size o_align no_resources (l ++ [WQueryClear]) = Done r' /\
     r_cache r' = Some [] /\ r_names r' = r_names r /\ r_defaults r' = r_defaults r /\ r_relations r' = r_relations r).
Proof.
  intros Hd Hf Hw. destruct (resources_after P Q N o_size o_align l r Hw) as (_ & _ & _ & Hc).
  pose proof (cache_good_after N o_size o_align Hd Hf l r Hw) as Hg.
  rewrite !w_run_app, Hw. cbn [obind w_run w_step]. split; intros H.
  - assert (E : r_cache r = None) by tauto. rewrite E. split; reflexivity.
  - destruct (r_cache r) as [c|] eqn:E; [|exfalso; apply Hc in H; auto].
    cbn [content] in Hg. rewrite Hg. cbn [obind]. exists (set_cache r (Some [])). repeat split; reflexivity.
Qed.

Lemma stale_until_clear (P : Prog) (Q : QFlag) (N : StatNames P) (o_size o_align : vty P -> Z) (r1 r2 : resources P Q) (c0 c1 : cache P Q)
    (sc1 sc2 : scene P Q) n1 n2 e x s v (l : list (wop P Q)) :
  distinct_vtables P -> flags_eq (Q := Q) ->
  r_cache r1 = Some c0 -> stats_kept (querier_of r1 sc1) ->
  w_query r1 sc1 n1 (p_query e x s) = (Done (Some v), c1) ->
  Forall not_clearing l ->
  (forall la sc n p lb r, l = la ++ WQuery sc n p :: lb -> w_run N o_size o_align (set_cache r1 (Some c1)) la = Done r ->
     stats_kept (querier_of r sc) /\ all_code (fun A p => no_wipe p) (querier_of r sc) /\ no_wipe p) ->
  w_run N o_size o_align (set_cache r1 (Some c1)) l = Done r2 -> sc_entities sc2 e <> None ->
  fst (w_query r2 sc2 (S n2) (p_query e x s)) = Done (Some v).
Proof.
  intros Hd Hf Hc0 Hk Hq Hn Hl Hw He.
  destruct (stale_run N o_size o_align c1 (set_cache r1 (Some c1)) l [] (set_cache r1 (Some c1)) r2 (Forall_nil _) eq_refl Hn Hl eq_refl Hw) as (lq & Hlq & Hr2).
  unfold w_query. rewrite Hr2. cbn [or_insert].
  unfold w_query in Hq. rewrite Hc0 in Hq. cbn [or_insert] in Hq.
  apply (C29_stale_proof P Q (querier_of r1 sc1) (querier_of r2 sc2) n1 n2 e x s v c0 c1 lq); auto.
  - cbn [querier_of j_cached]. rewrite Hc0. reflexivity.
  - cbn [querier_of j_cached]. rewrite Hr2. reflexivity.
Qed.

Lemma seeded (P : Prog) (Q : QFlag) (N : StatNames P) (o_size o_align : vty P -> Z) (r r' : resources P Q) (sc : scene P Q) n e x s v :
  distinct_vtables P -> flags_eq (Q := Q) ->
  w_step N o_size o_align r (WSeed e x (Pair s (Buf (vt_value P (si_ty s)) v))) = Done r' -> sc_entities sc e <> None ->
  fst (w_query r' sc (S n) (p_query e x s)) = Done (Some v).
Proof.
  intros Hd Hf Hs He. cbn [w_step] in Hs. destruct (r_cache r) as [c|] eqn:Ec; [|discriminate].
  destruct (pair_clone_buffer (Pair s (Buf (vt_value P (si_ty s)) v))) as [b| | |] eqn:Eb; try discriminate.
  injection Hs as <-. unfold pair_clone_buffer in Eb. cbn [p_stat p_buf] in Eb. apply clone_cast in Eb. destruct Eb as (w & E1 & -> & Hfit).
  cbn [p_stat]. unfold w_query. cbn [set_cache r_cache or_insert].
  erewrite hit_returns; [reflexivity|reflexivity|exact He| |exact Hfit].
  rewrite (hget_hput_same key_eqb (key_eqb_ok Hd Hf)). reflexivity.
Qed.

Lemma reflects_refuted :
  exists (P : Prog) (Q : QFlag) (N : StatNames P) (o_size o_align : vty P -> Z) (l : list (wop P Q)) (r : resources P Q) (sc : scene P Q) n e x s v w,
    distinct_vtables P /\ flags_eq (Q := Q) /\ w_run N o_size o_align no_resources l = Done r /\ stats_kept (querier_of r sc) /\
    fst (w_query r sc n (p_query e x s)) = Done (Some v) /\
    fst (run (client (uncached (querier_of r sc)) n (p_query e x s)) []) = Done (Some w) /\ v <> w.
Proof.
  exists demo, intQ, demoN, (fun _ => 24%Z), (fun _ => 8%Z), [WCache; w_hp 5; @WQuery demo intQ plain_scene 3 (pbind (ask_hp 0%nat any) (fun _ => Ret tt)); w_hp 7].
  eexists. exists plain_scene, 1%nat, 0%nat, any, hp, (num 5), (num 7).
  split; [exact demo_distinct|]. split; [exact intQ_flags|]. split; [reflexivity|].
  split; [intros e ch x f Hin; rewrite plain_sources in Hin; [destruct Hin|repeat split]|].
  split; [reflexivity|]. split; [reflexivity|]. discriminate.
Qed.

Lemma defaults_reach : forall (P : Prog) (Q : QFlag) (N : StatNames P) (o_size o_align : vty P -> Z) (l : list (wop P Q)) (r : resources P Q)
    (sc : scene P Q) (n : nat) e x s,
  distinct_vtables P -> inserted_first (default_calls l) -> relations_pushed l = [] -> plain sc -> sc_entities sc e <> None -> fits s ->
  w_run N o_size o_align no_resources l = Done r -> content (r_cache r) = [] ->
  exists sp, dspec_run no_defaults (default_calls l) sp /\
    fst (w_query r sc (S n) (p_query e x s)) = Done (Some (or_default s (sp s))).
Proof.
  intros P Q N o_size o_align l r sc n e x s Hd Hi Hr [Hc [Hch Hrel]] He Hf Hw Hcache.
  destruct (resources_after P Q N o_size o_align l r Hw) as (((lost & Hdr) & Hdn) & (Hrr & _) & _).
  destruct (C23_defaults_map_proof P o_size o_align _ _ _ Hd Hi Hdr) as (sp & Hsp & Hget).
  exists sp. split; [exact Hsp|].
  apply (plain_query_l Hd r sc n e x s); auto; [split; auto|rewrite Hrr; exact Hr|].
  specialize (Hget s Hf). destruct Hget as (Hg & _).
  destruct (r_defaults r) as [d|] eqn:Ed; [exact Hg|].
  simpl in Hg. exact Hg.
Qed.

Lemma relations_reach : forall (P : Prog) (Q : QFlag) (N : StatNames P) (o_size o_align : vty P -> Z) (l : list (wop P Q)) (r : resources P Q)
    (sc : scene P Q) (n : nat) e x s,
  plain sc -> sc_entities sc e <> None -> r_cache r = None ->
  w_run N o_size o_align no_resources l = Done r ->
  fst (w_query r sc (S n) (p_query e x s)) =
    let! _ := validate_ty P (vt_value P (si_ty s)) in
    let! b := initial (j_world (querier_of r sc)) s in
    let! p := collect (answer (querier_of r sc) n) (Pair s b) (map (fun g => g e x) (relations_pushed l)) in
    let! v := buf_into P (vt_value P (si_ty s)) (p_buf p) in Done (Some v).
Proof.
  intros P Q N o_size o_align l r sc n e x s Hp He Hc Hw.
  destruct (resources_after P Q N o_size o_align l r Hw) as (_ & (Hrr & _) & _).
  rewrite <- Hrr. apply plain_relations_l; assumption.
Qed.
