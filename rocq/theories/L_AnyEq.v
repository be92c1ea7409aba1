From Coq Require Import ZArith List Bool Permutation PeanoNat Lia.
From Verif Require Import M_Outcome M_Value M_Types M_Qualifier M_Stat M_HashMap M_Pair M_Defaults M_Querier M_Poison M_AnyEq
  S_Pair S_StatMap S_Querier S_Demo S_DemoQuery S_AnyEq L_StatMap3 L_HashMap L_Defaults L_Querier L_Querier2 L_Querier3 L_Querier4 L_Query L_Poison.
Import ListNotations.

Section L.
  Context {P : Prog} {Q : QFlag}.
  Notation qq := (qquery Q).
  Notation PR := (prog P Q).
  Notation tyof s := (vt_value P (si_ty s)).
  Variables cp dp : buffer P -> bool.
  Implicit Types (st : pcache P Q) (c : cache P Q) (w : whim Q) (j : joined P Q).

  (** ** What a search finds *)
  Lemma any_entry_eq_true w i e x s e' x' s' i' : any_entry_eq (P := P) w i (e, x, s) (e', x', s') = (Some true, i') -> e = e' /\ inst_eqb s s' = true.
  Proof.
    cbn. destruct (Nat.eqb e e') eqn:E; [|discriminate]. apply Nat.eqb_eq in E.
    destruct (any_query_eq w i x x') as [[[|]|] n]; try discriminate. intros H. injection H as H _. auto.
  Qed.
  Lemma any_find_hit w c e x s l : forall i n, any_find w i c (e, x, s) l = Some (Some n) ->
    exists x' s' b, nth_error c n = Some ((e, x', s'), b) /\ inst_eqb s s' = true.
  Proof.
    induction l as [|m l IH]; intros i n; cbn [any_find]; [discriminate|].
    destruct (nth_error c m) as [[[[e' x'] s'] b]|] eqn:En; [|apply IH].
    destruct (any_entry_eq w i (e, x, s) (e', x', s')) as [[[|]|] i'] eqn:Ee; try discriminate; [|apply IH].
    intros H. injection H as <-. apply any_entry_eq_true in Ee as [<- Es]. eauto.
  Qed.
  Lemma in_set_slot c n b k b' : In (k, b') (set_slot c n b) ->
    In (k, b') c \/ (exists b0, nth_error c n = Some (k, b0)) /\ b' = b.
  Proof.
    revert n. induction c as [|[k0 b0] c IH]; intros n; [destruct n; intros []|]. destruct n as [|n]; cbn.
    - intros [H|H]; [injection H as <- <-; right; eauto|left; auto].
    - intros [H|H]; [auto|]. destruct (IH n H) as [H1|H1]; auto.
  Qed.
  Lemma in_left_in c l k : In k (left_in c l) -> In k c.
  Proof.
    unfold left_in. rewrite in_flat_map. intros (n & _ & H). destruct (nth_error c n) as [kb|] eqn:E; [|destruct H].
    destruct H as [<- |[]]. eapply nth_error_In; exact E.
  Qed.
  Lemma slot_value_in c n b : hd_error (slot_value c n) = Some b -> exists k, nth_error c n = Some (k, b).
  Proof. unfold slot_value. destruct (nth_error c n) as [[k b0]|]; [|discriminate]. intros H. injection H as <-. eauto. Qed.

  (** ** One step *)
  Hypothesis Hd : distinct_vtables P.
  Lemma hit_same w c e x s l n : any_find w 0 c (e, x, s) l = Some (Some n) ->
    exists x' b, nth_error c n = Some ((e, x', s), b).
  Proof.
    intros H. apply any_find_hit in H as (x' & s' & b & En & Es). apply (inst_eqb_ok P Hd) in Es. subst s'. eauto.
  Qed.
  (** Entries come from stores for the same entity and stat. *)
  Lemma step_entries w {A} (m : act P Q A) st m' st' lg : whim_step cp dp w m st = Some (m', st', lg) ->
    forall e x s b, In ((e, x, s), b) (pc_map st') -> (exists x', In ((e, x', s), b) (pc_map st)) \/ In (e, s, b) (storing m).
  Proof.
    intros E e x s b Hi. destruct m as [a|o|k f|k b0 f|f]; cbn [whim_step] in E; try discriminate E.
    - assert (st' = st) as ->; [|left; eauto].
      destruct (pc_poisoned st); [congruence|]. destruct (w_clone w (key_query k)); [|congruence]. destruct (w_slots w); [|congruence].
      destruct (any_find _ _ _ _ _); [|congruence]. destruct (_ || _) in E; congruence.
    - destruct k as [[e0 x0] s0]. cbn [key_query with_query storing] in *. destruct (w_clone w x0) as [x1|]; [|injection E as <- <- <-; left; eauto].
      destruct (pc_poisoned st); [injection E as <- <- <-; left; eauto|].
      destruct (cp b0); [injection E as <- <- <-; left; eauto|].
      destruct (w_slots w) as [l|]; [|injection E as <- <- <-; left; eauto].
      destruct (w_rehash w) as [r|]; [injection E as <- <- <-; left; exists x; eapply in_left_in; exact Hi|].
      destruct (any_find w 0 (pc_map st) (e0, x1, s0) l) as [[n|]|] eqn:Ef; [| |injection E as <- <- <-; left; eauto].
      + assert (Hi' : In ((e, x, s), b) (set_slot (pc_map st) n b0)) by (destruct (w_drop w); injection E as <- <- <-; exact Hi).
        apply in_set_slot in Hi' as [H|[[b1 H] ->]]; [left; eauto|right].
        apply hit_same in Ef as (x' & b2 & E2). rewrite H in E2. injection E2 as -> -> -> ->. left. reflexivity.
      + injection E as <- <- <-. cbn in Hi. apply in_app_or in Hi as [H|[H|[]]]; [left; eauto|]. injection H as <- <- <- <-. right. left. reflexivity.
    - destruct (pc_poisoned st); [injection E as <- <- <-; left; eauto|].
      destruct (snd (drop_loop dp (map snd (pc_map st)))); [injection E as <- <- <-; left; eauto|].
      destruct (w_drop w); injection E as <- <- <-; destruct Hi.
  Qed.
  (** A look-up fails, misses, or finds something stored for the entity and the stat. *)
  Lemma step_get w {A} e x s (f : option (buffer P) -> act P Q A) st m' st' lg : whim_step cp dp w (AGet (e, x, s) f) st = Some (m', st', lg) ->
    (exists p, m' = AFail (Panics p)) \/ m' = f None \/ exists b x', m' = f (Some b) /\ In ((e, x', s), b) (pc_map st).
  Proof.
    cbn [whim_step key_query with_query]. intros E.
    destruct (pc_poisoned st); [injection E as <- <- <-; eauto|]. destruct (w_clone w x) as [x1|]; [|injection E as <- <- <-; eauto].
    destruct (w_slots w) as [l|]; [|injection E as <- <- <-; eauto].
    destruct (any_find w 0 (pc_map st) (e, x1, s) l) as [[n|]|] eqn:Ef; [| |injection E as <- <- <-; eauto].
    - destruct (hd_error (slot_value (pc_map st) n)) as [b|] eqn:Eb.
      + destruct (cp b || w_drop w); injection E as <- <- <-; eauto. right; right.
        apply slot_value_in in Eb as [k En]. destruct (hit_same _ _ _ _ _ _ _ Ef) as (x' & b2 & E2). rewrite En in E2. injection E2 as -> ->.
        exists b2, x'. split; [reflexivity|]. eapply nth_error_In; exact En.
      + cbn in E. destruct (w_drop w); injection E as <- <- <-; eauto.
    - cbn in E. destruct (w_drop w); injection E as <- <- <-; eauto.
  Qed.
  Lemma step_put w {A} k b (f : act P Q A) st m' st' lg : whim_step cp dp w (APut k b f) st = Some (m', st', lg) ->
    (exists p, m' = AFail (Panics p)) \/ m' = f.
  Proof.
    cbn [whim_step]. intros E.
    destruct (w_clone w (key_query k)) as [x1|]; [|injection E as <- <- <-; eauto]. destruct (pc_poisoned st); [injection E as <- <- <-; eauto|].
    destruct (cp b); [injection E as <- <- <-; eauto|]. destruct (w_slots w) as [l|]; [|injection E as <- <- <-; eauto].
    destruct (w_rehash w); [injection E as <- <- <-; eauto|].
    destruct (any_find _ _ _ _ _) as [[n|]|]; [| |injection E as <- <- <-; eauto].
    - destruct (w_drop w); injection E as <- <- <-; eauto.
    - injection E as <- <- <-; eauto.
  Qed.
  Lemma step_clear w {A} (f : act P Q A) st m' st' lg : whim_step cp dp w (AClear f) st = Some (m', st', lg) ->
    (exists p, m' = AFail (Panics p)) \/ m' = f.
  Proof.
    cbn [whim_step]. intros E. destruct (pc_poisoned st); [injection E as <- <- <-; eauto|].
    destruct (snd (drop_loop dp (map snd (pc_map st)))); [injection E as <- <- <-; eauto|].
    destruct (w_drop w); injection E as <- <- <-; eauto.
  Qed.

  (** ** Rely-guarantee, for facts about entries that do not mention the query *)
  Section Rely.
    Variable V : key P Q -> buffer P -> Prop.
    Hypothesis Hx : forall e x x' s b, V (e, x, s) b -> V (e, x', s) b.
    Definition entries_ok c : Prop := forall k b, In (k, b) c -> V k b.
    Lemma good_whim_step w {A} (m : act P Q A) (R : outcome A -> Prop) st m' st' lg : (forall p, R (Panics p)) ->
      good V m R -> entries_ok (pc_map st) -> whim_step cp dp w m st = Some (m', st', lg) -> good V m' R /\ entries_ok (pc_map st').
    Proof.
      intros HR H Hc E. split.
      - destruct m as [a|o|[[e x] s] g|k b g|g]; [discriminate E|discriminate E| | |].
        + destruct H as [H1 H2]. apply step_get in E as [[p ->]|[-> |(b & x' & -> & Hi)]]; [apply HR|exact H1|].
          apply H2. eapply Hx. apply Hc. exact Hi.
        + apply step_put in E as [[p ->]| ->]; [apply HR|apply H].
        + apply step_clear in E as [[p ->]| ->]; [apply HR|apply H].
      - intros [[e x] s] b Hi. destruct (step_entries _ _ _ _ _ _ E e x s b Hi) as [[x' H1]|H1]; [eapply Hx; apply Hc; exact H1|].
        destruct m as [a|o|k g|[[e0 x0] s0] b0 g|g]; cbn in H1; try (destruct H1; fail).
        destruct H1 as [H1|[]]. injection H1 as -> -> ->. eapply Hx. apply H.
    Qed.
    Lemma good_whim_steps {A} (s s' : list (act P Q A) * pcache P Q) lg (R : outcome A -> Prop) : (forall p, R (Panics p)) ->
      whim_steps cp dp s lg s' -> Forall (fun m => good V m R) (fst s) -> entries_ok (pc_map (snd s)) ->
      Forall (fun m => good V m R) (fst s') /\ entries_ok (pc_map (snd s')).
    Proof.
      intros HR. induction 1 as [s|w l1 m l2 st m' st' lg lg' s E _ IH]; intros Hg Hc; [split; assumption|]. cbn in *.
      apply Forall_app in Hg as [H1 H2]. inversion H2; subst.
      destruct (good_whim_step w m R st m' st' lg HR) as [G1 G2]; [assumption|exact Hc|exact E|]. apply IH; [|exact G2].
      apply Forall_app. split; [exact H1|]. constructor; assumption.
    Qed.
  End Rely.

  (** ** Code that is sound on well typed pairs *)
  Fixpoint ends {A} (R : A -> Prop) (p : PR A) : Prop :=
    match p with
    | Ret a => R a
    | Stop o => o <> UB
    | Ask r k => forall v, ends R (k v)
    | Wipe k => ends R k
    end.
  Lemma ends_of {A} (R : A -> Prop) (p : PR A) : returns R p -> stops (fun o => o <> UB) p -> ends R p.
  Proof. induction p; cbn; auto. Qed.
  Lemma ends_pbind {A B} (R : A -> Prop) (R' : B -> Prop) (p : PR A) (f : A -> PR B) :
    ends R p -> (forall a, R a -> ends R' (f a)) -> ends R' (pbind p f).
  Proof. intros H Hf. induction p; cbn in *; auto. Qed.
  Definition kept (p p' : pair P) : Prop := p_stat p' = p_stat p /\ pair_ok p'.
  Definition sound_source (f : pair P -> PR (pair P)) : Prop := forall p, pair_ok p -> ends (kept p) (f p).
  Lemma ends_leaf (cs : cstream P Q) e x es : (forall d f, In d es -> In f (on cs e d x) -> sound_source f) ->
    sound_source (fun p => pfold (fun p i => c_stream cs e i x p) p (iter_many cs es)).
  Proof.
    induction es as [|d es IH]; intros Hk p Hp; cbn [iter_many flat_map]; [split; [reflexivity|exact Hp]|].
    assert (Hk' : forall d0 f, In d0 es -> In f (on cs e d0 x) -> sound_source f) by (intros d0 f Hi; apply Hk; right; exact Hi).
    specialize (Hk d). unfold on in Hk. destruct (c_get cs d) as [i|]; cbn [app]; [|apply IH; assumption].
    cbn [pfold]. eapply ends_pbind; [apply (Hk _ (or_introl eq_refl) (or_introl eq_refl) p Hp)|].
    intros p1 [Hs1 Hp1]. unfold kept. rewrite <- Hs1. apply IH; assumption.
  Qed.
  Lemma ends_stream (t : qstream P Q) e es x : (forall cs d f, In cs (leaves t) -> In d es -> In f (on cs e d x) -> sound_source f) ->
    sound_source (q_stream t e es x).
  Proof.
    induction t as [|a IHa b IHb|cs]; intros Hk p Hp; cbn [q_stream].
    - split; [reflexivity|exact Hp].
    - eapply ends_pbind; [apply IHa; [|exact Hp]|].
      + intros cs d f Hc. apply Hk. cbn. apply in_or_app. left. exact Hc.
      + intros p1 [Hs1 Hp1]. unfold kept. rewrite <- Hs1. apply IHb; [|exact Hp1]. intros cs d f Hc. apply Hk. cbn. apply in_or_app. right. exact Hc.
    - apply (ends_leaf cs e x es); [|exact Hp]. intros d f Hdd. apply Hk; [left; reflexivity|exact Hdd].
  Qed.
  Lemma ends_relations (l : list (gstream P Q)) e x : (forall g, In g l -> sound_source (g e x)) ->
    sound_source (relations_stream (P := P) (Q := Q) l e x).
  Proof.
    unfold relations_stream. induction l as [|g l IH]; intros Hk p Hp; cbn [pfold]; [split; [reflexivity|exact Hp]|].
    eapply ends_pbind; [apply (Hk g (or_introl eq_refl) p Hp)|]. intros p1 [Hs1 Hp1]. unfold kept. rewrite <- Hs1. apply IH; [|exact Hp1].
    intros g' Hg. apply Hk. right. exact Hg.
  Qed.
  Lemma ends_stat_body j e ch x : (forall f, In f (stat_sources j e ch x) -> sound_source f) -> sound_source (stat_body j e ch x).
  Proof.
    intros Hk p Hp. unfold stat_sources in Hk. unfold stat_body.
    eapply (ends_pbind (kept p)).
    { destruct (w_relations (j_world j)) as [l|]; [|split; [reflexivity|exact Hp]]. apply ends_relations; [|exact Hp].
      intros g Hg. apply Hk. apply in_or_app. left. apply (in_map (fun g => g e x)). exact Hg. }
    intros p1 [Hs1 Hp1]. unfold kept. rewrite <- Hs1.
    eapply ends_pbind.
    { apply ends_stream; [|exact Hp1]. intros cs d f Hc [<- |[]] Hf. apply Hk. apply in_or_app. right. apply in_or_app. left.
      apply in_flat_map. exists cs. split; assumption. }
    intros p2 [Hs2 Hp2]. cbv beta. rewrite <- Hs2.
    eapply ends_pbind.
    { apply ends_stream; [|exact Hp2]. intros cs d f Hc [<- |[]] Hf. apply Hk. do 2 (apply in_or_app; right). apply in_or_app. left.
      apply in_flat_map. exists cs. split; assumption. }
    intros p3 [Hs3 Hp3]. cbv beta. rewrite <- Hs3. destruct ch as [ch|]; [|split; [reflexivity|exact Hp3]].
    apply ends_stream; [|exact Hp3]. intros cs d f Hc Hdd Hf. apply Hk. do 3 (apply in_or_app; right).
    apply in_flat_map. exists cs. split; [exact Hc|]. apply in_flat_map. exists d. split; assumption.
  Qed.
  Lemma ends_rel (t : qstream P Q) f g x : (forall cs h, In cs (leaves t) -> In h (between cs f g x) -> sound_source h) ->
    sound_source (q_rel t f g x).
  Proof.
    induction t as [|a IHa b IHb|cs]; intros Hk p Hp; cbn [q_rel].
    - split; [reflexivity|exact Hp].
    - eapply ends_pbind; [apply IHa; [|exact Hp]|].
      + intros cs h Hc. apply Hk. cbn. apply in_or_app. left. exact Hc.
      + intros p1 [Hs1 Hp1]. unfold kept. rewrite <- Hs1. apply IHb; [|exact Hp1]. intros cs h Hc. apply Hk. cbn. apply in_or_app. right. exact Hc.
    - specialize (Hk cs). unfold between in Hk. destruct (c_get cs f) as [i|]; [|split; [reflexivity|exact Hp]].
      destruct (c_get cs g) as [i'|]; [|split; [reflexivity|exact Hp]]. apply (Hk _ (or_introl eq_refl) (or_introl eq_refl)). exact Hp.
  Qed.
  Lemma ends_rel_body j f t x : (forall g, In g (rel_sources j f t x) -> sound_source g) -> sound_source (rel_body j f t x).
  Proof.
    intros Hk p Hp. unfold rel_sources in Hk. unfold rel_body.
    eapply (ends_pbind (kept p)).
    { destruct (w_relations (j_world j)) as [l|]; [|split; [reflexivity|exact Hp]]. apply ends_relations; [|exact Hp].
      intros g Hg. apply Hk. apply in_or_app. left. apply (in_map (fun g => g (w_placeholder (j_world j)) x)). exact Hg. }
    intros p1 [Hs1 Hp1]. unfold kept. rewrite <- Hs1. apply ends_rel; [|exact Hp1].
    intros cs h Hc Hh. apply Hk. apply in_or_app. right. apply in_flat_map. exists cs. split; assumption.
  Qed.
  Notation any_result := (fun _ : bool => True).
  Lemma ends_first {B} (f : B -> PR bool) l : (forall b, In b l -> ends any_result (f b)) -> ends any_result (first_true f l).
  Proof.
    induction l as [|b l IH]; intros H; cbn; [exact I|]. eapply ends_pbind; [apply H; left; reflexivity|].
    intros [|] _; [exact I|]. apply IH. intros b' Hb. apply H. right. exact Hb.
  Qed.
  Lemma ends_attr (t : qstream P Q) e es a : (forall cs d p, In cs (leaves t) -> In d es -> In p (attr_on cs e d a) -> ends any_result p) ->
    ends any_result (q_attr t e es a).
  Proof.
    induction t as [|l IHl r IHr|cs]; intros Hk; cbn [q_attr]; [exact I| |].
    - eapply ends_pbind; [apply IHl; intros cs d p Hc; apply Hk; cbn; apply in_or_app; left; exact Hc|].
      intros [|] _; [exact I|]. apply IHr. intros cs d p Hc. apply Hk. cbn. apply in_or_app. right. exact Hc.
    - apply ends_first. intros i Hi. unfold iter_many in Hi. apply in_flat_map in Hi as (d & Hdd & Hi).
      apply (Hk cs d); [left; reflexivity|exact Hdd|]. unfold attr_on. destruct (c_get cs d) as [i0|]; [|destruct Hi]. destruct Hi as [<- |[]]. left. reflexivity.
  Qed.
  Lemma ends_attr_body j e a : (forall p, In p (attr_sources j e a) -> ends any_result p) -> ends any_result (attr_body j e a).
  Proof.
    intros Hk. unfold attr_sources in Hk. unfold attr_body.
    eapply ends_pbind.
    { apply ends_attr. intros cs d p Hc [<- |[]] Hp. apply Hk. apply in_or_app. left. apply in_flat_map. eauto. }
    intros [|] _; [exact I|]. eapply ends_pbind.
    { apply ends_attr. intros cs d p Hc [<- |[]] Hp. apply Hk. apply in_or_app. right. apply in_or_app. left. apply in_flat_map. eauto. }
    intros [|] _; [exact I|]. destruct (w_entities (j_world j) e) as [[ch|]|]; try exact I. eapply ends_pbind.
    { apply ends_attr. intros cs d p Hc Hdd Hp. apply Hk. do 2 (apply in_or_app; right). apply in_flat_map. exists cs. split; [exact Hc|].
      apply in_flat_map. exists d. split; assumption. }
    intros [|] _; exact I.
  Qed.

  (** ** Queries *)
  Definition typed_entry (k : key P Q) (b : buffer P) : Prop := let '(_, _, s) := k in b_ty b = tyof s /\ fits s.
  Definition typed_answer (r : request P Q) (o : outcome (raw r)) : Prop := good_answer r o.
  Lemma interp_typed (cached : bool) (h : forall r, act P Q (raw r)) {A} (R : A -> Prop) (p : PR A) :
    (forall r, check r = Done tt -> good typed_entry (h r) (good_answer r)) -> ends R p ->
    good typed_entry (interp cached h p) (fun o => o <> UB /\ forall a, o = Done a -> R a).
  Proof.
    intros Hh. induction p as [a|o|r k IH|k IH]; cbn [interp ends]; intros He.
    - cbn. split; [discriminate|]. intros a' E. injection E as <-. exact He.
    - cbn. split; [destruct o as [[]| | |]; cbn; congruence|]. intros a E. destruct o as [[]| | |]; discriminate E.
    - destruct (check_cases r) as [Ec|[pp Ec]]; rewrite Ec; cbn [a_outcome abind]; [|split; [discriminate|intros a E; discriminate E]].
      eapply good_bind; [apply (Hh r Ec)| |].
      + intros o [_ H2]. assert (Ht : typed r o <> UB /\ typed r o <> NoFuel /\ forall p, typed r o <> Panics p).
        { destruct r as [e x s|f t x s|e a]; cbn in *; [| |repeat split; discriminate]; destruct o as [b|]; try (repeat split; discriminate);
            unfold buf_into, buf_ref; rewrite Ec; cbn [obind]; destruct b as [t0 v0]; cbn in H2; subst t0; rewrite cast_val_same; repeat split; discriminate. }
        destruct (typed r o) as [v|pp| |]; cbn [a_outcome abind]; [apply IH, He| | |]; destruct Ht as (T1 & T2 & T3); [|congruence|congruence].
        exfalso. exact (T3 pp eq_refl).
      + intros o [Hu _]. split; [destruct o as [[]| | |]; cbn in *; congruence|]. intros a E. destruct o as [[]| | |]; discriminate E.
    - destruct cached; cbn; apply IH; exact He.
  Qed.
  Record sound_querier j : Prop := {
    sq_stat : forall e ch x f, In f (stat_sources j e ch x) -> sound_source f;
    sq_rel : forall f t x g, In g (rel_sources j f t x) -> sound_source g;
    sq_attr : forall e a p, In p (attr_sources j e a) -> ends any_result p;
    sq_initial : defaults_typed (j_world j)
  }.
  Lemma sound_querier_of j : stats_kept j -> relations_kept j -> defaults_typed (j_world j) -> code_sound j -> sound_querier j.
  Proof.
    intros Hs Hr Hdt Hc. constructor.
    - intros e ch x f Hf p Hp. apply ends_of; [apply (Hs e ch x f Hf p Hp)|apply (sound_stat _ Hc e ch x f p Hf Hp)].
    - intros f t x g Hg p Hp. apply ends_of; [apply (Hr f t x g Hg p Hp)|apply (sound_rel _ Hc f t x g p Hg Hp)].
    - intros e a p Hp. pose proof (sound_attr _ Hc e a p Hp) as H. clear Hp. induction p; cbn in *; auto.
    - exact Hdt.
  Qed.
  Lemma level_typed j : sound_querier j -> forall n r, good typed_entry (level j n r) (good_answer r).
  Proof.
    intros Hj. induction n as [|n IH]; intros r.
    { cbn. split; [discriminate|destruct r; exact I]. }
    cbn [level]. destruct r as [e x s|f t x s|e a]; cbn [erased].
    - unfold query_stat_erased. destruct (w_entities (j_world j) e) as [ch|]; [|split; [discriminate|exact I]].
      assert (G : good typed_entry (abind (a_outcome (start_value (j_world j) s)) (fun b =>
            abind (interp (j_cached j) (level j n) (stat_body j e ch x (Pair s (fst b)))) (fun p =>
            if j_cached j
            then abind (a_outcome (pair_clone_buffer p)) (fun b1 => APut (e, x, p_stat p) b1 (ARet (Some (p_buf p))))
            else ARet (Some (p_buf p))))) (good_answer (RStat e x s))).
      { apply good_start.
        - intros p E. split; [discriminate|exact I].
        - intros E. destruct (initial_ub _ _ (sq_initial _ Hj) E).
        - intros E. split; [discriminate|exact I].
        - intros b Eb. destruct (initial_ty _ _ _ Eb) as [Hty Hf].
          eapply good_bind; [apply (interp_typed (j_cached j) (level j n) (kept (Pair s (fst b)))); [intros r _; apply IH|]| |].
          + apply ends_stat_body; [apply (sq_stat _ Hj)|exact Hty].
          + intros p [_ Hp]. destruct (Hp p eq_refl) as [Hs Hok]. cbn in Hs. unfold pair_ok in Hok.
            destruct (j_cached j).
            * unfold pair_clone_buffer. rewrite Hs in *. rewrite (clone_same s (p_buf p) Hok Hf). cbn. auto.
              split; [split; assumption|]. split; [discriminate|exact Hok].
            * cbn. split; [discriminate|]. rewrite Hs in Hok. exact Hok.
          + intros o [Hu _]. split; [destruct o as [[]| | |]; cbn in *; congruence|]. destruct o as [[]| | |]; exact I. }
      destruct (j_cached j); [|exact G]. cbn [good]. split; [exact G|].
      intros b [Hty Hf]. rewrite (clone_same s b Hty Hf). cbn. split; [discriminate|exact Hty].
    - unfold query_relation_erased. destruct (w_entities (j_world j) f); [|split; [discriminate|exact I]].
      destruct (w_entities (j_world j) t); [|split; [discriminate|exact I]]. apply good_start.
      + intros p E. split; [discriminate|exact I].
      + intros E. destruct (initial_ub _ _ (sq_initial _ Hj) E).
      + intros E. split; [discriminate|exact I].
      + intros b Eb. destruct (initial_ty _ _ _ Eb) as [Hty Hf].
        eapply good_bind; [apply (interp_typed (j_cached j) (level j n) (kept (Pair s (fst b)))); [intros r _; apply IH|]| |].
        * apply ends_rel_body; [apply (sq_rel _ Hj)|exact Hty].
        * intros p [_ Hp]. destruct (Hp p eq_refl) as [Hs Hok]. cbn in Hs. unfold pair_ok in Hok. rewrite Hs in Hok.
          cbn. split; [discriminate|exact Hok].
        * intros o1 [Hu _]. split; [destruct o1 as [[]| | |]; cbn in *; congruence|]. destruct o1 as [[]| | |]; exact I.
    - unfold has_attribute_erased. eapply good_weaken; [|apply (interp_typed (j_cached j) (level j n) any_result); [intros r _; apply IH|]].
      + intros o [Hu _]. split; [exact Hu|exact I].
      + apply ends_attr_body. apply (sq_attr _ Hj).
  Qed.
  Lemma client_typed j n {A} (p : PR A) : sound_querier j -> stops (fun o => o <> UB) p ->
    good typed_entry (client j n p) (fun o => o <> UB).
  Proof.
    intros Hj Hp. unfold client. eapply good_weaken; [|apply (interp_typed (j_cached j) (level j n) (fun _ => True)); [intros r _; apply level_typed; exact Hj|]].
    - intros o [Hu _]. exact Hu.
    - apply ends_of; [|exact Hp]. clear Hp. induction p; cbn; auto.
  Qed.
End L.
