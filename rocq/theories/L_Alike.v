From Coq Require Import ZArith List Bool Permutation PeanoNat Lia.
From Verif Require Import M_Outcome M_Value M_Types M_Qualifier M_Search M_Stat M_StatMap M_HashMap M_Pair M_Defaults M_Querier M_Poison M_AnyEq M_VTable
  S_Pair S_StatMap S_Defaults S_Querier S_Demo S_DemoQuery S_AnyEq S_VTable S_Alike L_VTable2 L_StatMap3 L_HashMap L_Defaults L_Querier L_Querier2 L_Querier3 L_Querier4 L_Query L_Poison L_AnyEq L_AnyEq2.
Import ListNotations.

Lemma alike_eqb {P : Prog} (a b : inst P) : inst_eqb a b = true <-> alike a b.
Proof. unfold inst_eqb, alike. rewrite andb_true_iff, !Z.eqb_eq. reflexivity. Qed.
Lemma alike_refl {P : Prog} (a : inst P) : alike a a.
Proof. split; reflexivity. Qed.
Lemma alike_sym {P : Prog} (a b : inst P) : alike a b -> alike b a.
Proof. intros [H1 H2]. split; congruence. Qed.
Lemma alike_trans {P : Prog} (a b c : inst P) : alike a b -> alike b c -> alike a c.
Proof. intros [H1 H2] [H3 H4]. split; congruence. Qed.

Section Cache.
  Context {P : Prog} {Q : QFlag}.
  Notation tyof s := (vt_value P (si_ty s)).
  Variables cp dp : buffer P -> bool.
  Implicit Types (st : pcache P Q) (w : whim Q).

  Lemma alike_entries w {A} (m : act P Q A) st m' st' lg : whim_step cp dp w m st = Some (m', st', lg) ->
    forall e x s b, In ((e, x, s), b) (pc_map st') -> (exists x', In ((e, x', s), b) (pc_map st)) \/ exists s', alike s' s /\ In (e, s', b) (storing m).
  Proof.
    intros E e x s b Hi. destruct m as [a|o|k f|k b0 f|f]; cbn [whim_step] in E; try discriminate E.
    - assert (st' = st) as ->; [|left; eauto].
      destruct (pc_poisoned st); [congruence|]. destruct (w_clone w (key_query k)); [|congruence]. destruct (w_slots w); [|congruence].
      destruct (any_find _ _ _ _ _); [|congruence]. destruct (_ || _) in E; congruence.
    - destruct k as [[e0 x0] s0]. cbn [key_query with_query storing] in *. destruct (w_clone w x0) as [x1|]; [|injection E as <- <- <-; left; eauto].
      destruct (pc_poisoned st); [injection E as <- <- <-; left; eauto|].
      destruct (cp b0); [injection E as <- <- <-; left; eauto|].
      destruct (w_slots w) as [l|]; [|injection E as <- <- <-; left; eauto].
      destruct (w_rehash w) as [r|]; [injection E as <- <- <-; left; exists x; eapply in_left_in; exact Hi|].
      destruct (any_find w 0 (pc_map st) (e0, x1, s0) l) as [[n|]|] eqn:Ef; [| |injection E as <- <- <-; left; eauto].
      + assert (Hi' : In ((e, x, s), b) (set_slot (pc_map st) n b0)) by (destruct (w_drop w); injection E as <- <- <-; exact Hi).
        apply in_set_slot in Hi' as [H|[[b1 H] ->]]; [left; eauto|right].
        apply any_find_hit in Ef as (x' & s' & b2 & E2 & Es). rewrite H in E2. injection E2 as -> -> -> ->. exists s0. split; [apply alike_eqb, Es|left; reflexivity].
      + injection E as <- <- <-. cbn in Hi. apply in_app_or in Hi as [H|[H|[]]]; [left; eauto|]. injection H as <- <- <- <-. right. exists s0. split; [apply alike_refl|left; reflexivity].
    - destruct (pc_poisoned st); [injection E as <- <- <-; left; eauto|].
      destruct (snd (drop_loop dp (map snd (pc_map st)))); [injection E as <- <- <-; left; eauto|].
      destruct (w_drop w); injection E as <- <- <-; destruct Hi.
  Qed.
  Lemma alike_get w {A} e x s (f : option (buffer P) -> act P Q A) st m' st' lg : whim_step cp dp w (AGet (e, x, s) f) st = Some (m', st', lg) ->
    (exists p, m' = AFail (Panics p)) \/ m' = f None \/ exists b x' s', m' = f (Some b) /\ alike s s' /\ In ((e, x', s'), b) (pc_map st).
  Proof.
    cbn [whim_step key_query with_query]. intros E.
    destruct (pc_poisoned st); [injection E as <- <- <-; eauto|]. destruct (w_clone w x) as [x1|]; [|injection E as <- <- <-; eauto].
    destruct (w_slots w) as [l|]; [|injection E as <- <- <-; eauto].
    destruct (any_find w 0 (pc_map st) (e, x1, s) l) as [[n|]|] eqn:Ef; [| |injection E as <- <- <-; eauto].
    - destruct (hd_error (slot_value (pc_map st) n)) as [b|] eqn:Eb.
      + destruct (cp b || w_drop w); injection E as <- <- <-; eauto. right; right.
        apply slot_value_in in Eb as [k En]. apply any_find_hit in Ef as (x' & s' & b2 & E2 & Es). rewrite En in E2. injection E2 as -> ->.
        exists b2, x', s'. split; [reflexivity|]. split; [apply alike_eqb, Es|]. eapply nth_error_In; exact En.
      + cbn in E. destruct (w_drop w); injection E as <- <- <-; eauto.
    - cbn in E. destruct (w_drop w); injection E as <- <- <-; eauto.
  Qed.
  Lemma alike_hist {A} (s s' : list (act P Q A) * pcache P Q) l : any_hist cp dp s l s' ->
    forall e x t b, In ((e, x, t), b) (pc_map (snd s')) -> (exists x', In ((e, x', t), b) (pc_map (snd s))) \/ exists t', alike t' t /\ In (e, t', b) l.
  Proof.
    induction 1 as [s|w l1 m l2 st m' st' lg l s E _ IH]; intros e x t b Hi; [left; eauto|]. cbn in *.
    destruct (IH e x t b Hi) as [[x' H]|(t' & Ha & H)]; [|right; exists t'; split; [exact Ha|apply in_or_app; auto]].
    destruct (alike_entries w m st m' st' lg E e x' t b H) as [H1|(t' & Ha & H1)]; [left; exact H1|right; exists t'; split; [exact Ha|apply in_or_app; auto]].
  Qed.

  Hypothesis Hl : like_tables P.
  Lemma alike_type (a b : inst P) : alike a b -> tyof a = tyof b.
  Proof. intros [_ H]. apply Hl, H. Qed.
  Lemma alike_fits (a b : inst P) : alike a b -> fits a -> fits b.
  Proof. intros H. unfold fits. rewrite (alike_type _ _ H). auto. Qed.
  Lemma typed_alike e x s b e' x' s' : alike s s' -> typed_entry (P := P) (Q := Q) (e, x, s) b -> typed_entry (P := P) (Q := Q) (e', x', s') b.
  Proof. intros H [H1 H2]. split; [rewrite H1; apply alike_type, H|apply (alike_fits _ _ H H2)]. Qed.

  Lemma alike_good w {A} (m : act P Q A) (R : outcome A -> Prop) st m' st' lg : (forall p, R (Panics p)) ->
    good typed_entry m R -> entries_ok typed_entry (pc_map st) -> whim_step cp dp w m st = Some (m', st', lg) -> good typed_entry m' R /\ entries_ok typed_entry (pc_map st').
  Proof.
    intros HR H Hc E. split.
    - destruct m as [a|o|[[e x] s] g|k b g|g]; [discriminate E|discriminate E| | |].
      + destruct H as [H1 H2]. apply alike_get in E as [[p ->]|[-> |(b & x' & s' & -> & Ha & Hi)]]; [apply HR|exact H1|].
        apply H2. eapply typed_alike; [apply alike_sym, Ha|]. apply (Hc _ _ Hi).
      + apply step_put in E as [[p ->]| ->]; [apply HR|apply H].
      + apply step_clear in E as [[p ->]| ->]; [apply HR|apply H].
    - intros [[e x] s] b Hi. destruct (alike_entries _ _ _ _ _ _ E e x s b Hi) as [[x' H1]|(s' & Ha & H1)]; [eapply (typed_alike e x' s b e x s); [apply alike_refl|apply (Hc _ _ H1)]|].
      destruct m as [a|o|k g|[[e0 x0] s0] b0 g|g]; cbn in H1; try (destruct H1; fail).
      destruct H1 as [H1|[]]. injection H1 as -> -> ->. eapply typed_alike; [exact Ha|]. apply H.
  Qed.
  Lemma alike_goods {A} (s s' : list (act P Q A) * pcache P Q) lg (R : outcome A -> Prop) : (forall p, R (Panics p)) ->
    whim_steps cp dp s lg s' -> Forall (fun m => good typed_entry m R) (fst s) -> entries_ok typed_entry (pc_map (snd s)) ->
    Forall (fun m => good typed_entry m R) (fst s') /\ entries_ok typed_entry (pc_map (snd s')).
  Proof.
    intros HR. induction 1 as [s|w l1 m l2 st m' st' lg lg' s E _ IH]; intros Hg Hc; [split; assumption|]. cbn in *.
    apply Forall_app in Hg as [H1 H2]. inversion H2; subst.
    destruct (alike_good w m R st m' st' lg HR) as [G1 G2]; [assumption|exact Hc|exact E|]. apply IH; [|exact G2].
    apply Forall_app. split; [exact H1|]. constructor; assumption.
  Qed.
  Lemma alike_puts w {A} (m : act P Q A) st m' st' lg : whim_step cp dp w m st = Some (m', st', lg) ->
    puts_ok m -> (forall k b, In (k, b) (pc_map st) -> entry_ok k b) ->
    puts_ok m' /\ forall k b, In (k, b) (pc_map st') -> entry_ok k b.
  Proof.
    intros E Hm Hc. split.
    - destruct m as [a|o|[[e x] s] g|k b g|g]; [discriminate E|discriminate E| | |].
      + apply alike_get in E as [[p ->]|[-> |(b & x' & s' & -> & _ & Hi)]]; [exact I|apply Hm|apply Hm].
      + apply step_put in E as [[p ->]| ->]; [exact I|apply Hm].
      + apply step_clear in E as [[p ->]| ->]; [exact I|apply Hm].
    - intros [[e x] s] b Hi. destruct (alike_entries w m st m' st' lg E e x s b Hi) as [[x' H]|(s' & Ha & H)]; [apply (Hc (e, x', s) b H)|].
      destruct m as [a|o|k g|[[e0 x0] s0] b0 g|g]; cbn in H; try (destruct H; fail). destruct H as [H|[]]. injection H as -> -> ->.
      destruct (proj1 Hm) as [H1 H2]. split; cbn [snd] in *; [rewrite H1; apply alike_type, Ha|apply (alike_fits _ _ Ha H2)].
  Qed.
  Lemma alike_all_puts {A} (s s' : list (act P Q A) * pcache P Q) lg : whim_steps cp dp s lg s' ->
    Forall puts_ok (fst s) -> (forall k b, In (k, b) (pc_map (snd s)) -> entry_ok k b) ->
    forall k b, In (k, b) (pc_map (snd s')) -> entry_ok k b.
  Proof.
    induction 1 as [s|w l1 m l2 st m' st' lg lg' s E _ IH]; intros Hf Hc; [exact Hc|]. cbn in *.
    apply Forall_app in Hf as [H1 H2]. inversion H2; subst. destruct (alike_puts w m st m' st' lg E) as [G1 G2]; [assumption|exact Hc|].
    apply IH; [|exact G2]. apply Forall_app. split; [exact H1|]. constructor; assumption.
  Qed.
End Cache.

Lemma C67_cache_safe_proof : forall (P : Prog) (Q : QFlag) (cp dp : buffer P -> bool) (A : Type) (ts : list (@asker P Q A)) ms st lg,
  like_tables P -> whim_steps cp dp (map asking ts, PCache [] false) lg (ms, st) ->
  (Forall asks_soundly ts -> forall m o, In m ms -> finished m o -> o <> UB) /\ cache_drop (pc_map st) = Done tt.
Proof.
  intros P Q cp dp A ts ms st lg Hl Hs. split.
  - intros Ht m o Hi Hf.
    destruct (alike_goods cp dp Hl (map asking ts, PCache [] false) (ms, st) lg (fun o : outcome A => o <> UB)) as [G _].
    + discriminate.
    + exact Hs.
    + cbn. clear Hs. induction Ht as [|t ts (H1 & H2 & H3 & H4 & H5) _ IH]; cbn; constructor; [|exact IH].
      apply client_typed; [apply sound_querier_of; assumption|exact H5].
    + intros k b [].
    + cbn in G. rewrite Forall_forall in G. exact (good_done _ m _ o (G m Hi) Hf).
  - apply drop_ok. apply (alike_all_puts cp dp Hl _ _ _ Hs); [|intros k b []]. cbn. apply Forall_forall. intros m Hm. apply in_map_iff in Hm as (t & <- & _).
    apply puts_interp. apply puts_level.
Qed.
Lemma C67_cache_origin_proof : forall (P : Prog) (Q : QFlag) (cp dp : buffer P -> bool) (A : Type) (ts ms : list (act P Q A)) st l,
  any_hist cp dp (ts, PCache [] false) l (ms, st) ->
  (forall e x s b, In ((e, x, s), b) (pc_map st) -> exists s', alike s' s /\ In (e, s', b) l) /\
  forall w e x s (f : option (buffer P) -> act P Q A) m' st' lg, whim_step cp dp w (AGet (e, x, s) f) st = Some (m', st', lg) ->
    (exists p, m' = AFail (Panics p)) \/ m' = f None \/ exists b s', m' = f (Some b) /\ alike s' s /\ In (e, s', b) l.
Proof.
  intros P Q cp dp A ts ms st l H.
  assert (G : forall e x s b, In ((e, x, s), b) (pc_map st) -> exists s', alike s' s /\ In (e, s', b) l).
  { intros e x s b Hi. destruct (alike_hist cp dp _ _ _ H e x s b Hi) as [[x' []]|H']. exact H'. }
  split; [exact G|]. intros w e x s f m' st' lg E. apply alike_get in E as [E|[E|(b & x' & s' & E & Ha & Hi)]]; auto.
  right; right. destruct (G _ _ _ _ Hi) as (t & Ht & Hi'). exists b, t. split; [exact E|]. split; [|exact Hi']. eapply alike_trans; [exact Ht|apply alike_sym, Ha].
Qed.

Section Defaults.
  Context {P : Prog} (o_size o_align : vty P -> Z).
  Notation tyof s := (vt_value P (si_ty s)).
  Hypothesis Hl : like_tables P.
  Implicit Types d : defaults P.

  Definition all_typed d : Prop := forall s b, In (s, b) d -> fits s /\ exists v, b = DVal (Buf (tyof s) v).
  Lemma found_alike d s b : hget inst_eqb d s = Some b -> exists s', alike s' s /\ In (s', b) d.
  Proof.
    induction d as [|[s0 b0] d IH]; cbn [hget]; [discriminate|]. destruct (inst_eqb s0 s) eqn:E.
    - intros H. injection H as <-. exists s0. split; [apply alike_eqb, E|left; reflexivity].
    - intros H. destruct (IH H) as (s' & Ha & Hi). exists s'. split; [exact Ha|right; exact Hi].
  Qed.
  Lemma typed_found d s b : all_typed d -> hget inst_eqb d s = Some b -> fits s /\ exists v, b = DVal (Buf (tyof s) v).
  Proof.
    intros Ht H. destruct (found_alike d s b H) as (s' & Ha & Hi). destruct (Ht s' b Hi) as (F & v & ->).
    split; [apply (alike_fits Hl _ _ Ha F)|]. rewrite <- (alike_type Hl _ _ Ha). eauto.
  Qed.
  Lemma put_typed d s v : all_typed d -> fits s -> all_typed (fst (hput inst_eqb d s (DVal (Buf (tyof s) v)))).
  Proof.
    intros Ht F. induction d as [|[s0 b0] d IH]; cbn [hput].
    - intros s' b [H|[]]. injection H as <- <-. eauto.
    - destruct (inst_eqb s0 s) eqn:E.
      + apply alike_eqb in E. intros s' b [H|H]; [|apply Ht; right; exact H]. injection H as <- <-.
        split; [apply (alike_fits Hl _ _ (alike_sym _ _ E) F)|]. rewrite (alike_type Hl _ _ E). eauto.
      + destruct (hput inst_eqb d s (DVal (Buf (tyof s) v))) as [r old] eqn:Er. cbn [fst] in *. intros s' b [H|H].
        * apply Ht. left. exact H.
        * apply IH; [|exact H]. intros s1 b1 H1. apply Ht. right. exact H1.
  Qed.
  Lemma set_typed d s v : all_typed d -> fits s -> all_typed (hset inst_eqb d s (DVal (Buf (tyof s) v))).
  Proof.
    intros Ht F. induction d as [|[s0 b0] d IH]; cbn [hset]; [intros s' b []|].
    destruct (inst_eqb s0 s) eqn:E.
    - apply alike_eqb in E. intros s' b [H|H]; [|apply Ht; right; exact H]. injection H as <- <-.
      split; [apply (alike_fits Hl _ _ (alike_sym _ _ E) F)|]. rewrite (alike_type Hl _ _ E). eauto.
    - intros s' b [H|H]; [apply Ht; left; exact H|]. apply IH; [|exact H]. intros s1 b1 H1. apply Ht. right. exact H1.
  Qed.
  Lemma eqb_alike (a b c : inst P) : alike a b -> inst_eqb c a = inst_eqb c b.
  Proof. intros [H1 H2]. unfold inst_eqb. rewrite H1, H2. reflexivity. Qed.
  Lemma found_eq d a b : alike a b -> hget inst_eqb d a = hget inst_eqb d b.
  Proof. intros H. induction d as [|[s0 b0] d IH]; cbn [hget]; [reflexivity|]. rewrite (eqb_alike _ _ _ H), IH. reflexivity. Qed.
  Lemma put_found d s v : hget inst_eqb (fst (hput inst_eqb d s v)) s <> None.
  Proof.
    induction d as [|[s0 b0] d IH]; cbn [hput].
    - cbn [fst hget]. rewrite (proj2 (alike_eqb s s) (alike_refl s)). discriminate.
    - destruct (inst_eqb s0 s) eqn:E; [cbn [fst hget]; rewrite E; discriminate|].
      destruct (hput inst_eqb d s v) as [r old]. cbn [fst hget] in *. rewrite E. exact IH.
  Qed.
  Lemma put_keeps d s v s' : hget inst_eqb d s' <> None -> hget inst_eqb (fst (hput inst_eqb d s v)) s' <> None.
  Proof.
    induction d as [|[s0 b0] d IH]; cbn [hput hget]; [congruence|].
    destruct (inst_eqb s0 s) eqn:E; [cbn [fst hget]; destruct (inst_eqb s0 s'); [discriminate|auto]|].
    destruct (hput inst_eqb d s v) as [r old]. cbn [fst hget] in *. destruct (inst_eqb s0 s'); [discriminate|exact IH].
  Qed.
  Lemma set_keeps d s v s' : hget inst_eqb d s' <> None -> hget inst_eqb (hset inst_eqb d s v) s' <> None.
  Proof.
    induction d as [|[s0 b0] d IH]; cbn [hset hget]; [congruence|].
    destruct (inst_eqb s0 s) eqn:E; cbn [hget]; destruct (inst_eqb s0 s'); try discriminate; auto.
  Qed.
  Definition prepared d (l : list (dcall P)) : Prop :=
    forall l1 s op l2, l = l1 ++ DPatch s op :: l2 -> hget inst_eqb d s <> None \/ exists c, In c l1 /\ is_insert c /\ alike (call_stat c) s.
  Lemma step_alike d c l : all_typed d -> prepared d (c :: l) -> sound_call c ->
    d_step o_size o_align d c <> UB /\ forall r, d_step o_size o_align d c = Done r -> all_typed (fst r) /\ prepared (fst r) l.
  Proof.
    intros Ht Hp Hs. destruct c as [s v|s op]; cbn [d_step sound_call] in *.
    - unfold d_insert, buf_from. destruct (validate_ty P (tyof s)) as [[]|p| |] eqn:F; cbn [obind].
      + pose proof (put_typed d s v Ht F) as H1. pose proof (put_found d s (DVal (Buf (tyof s) v))) as H2.
        pose proof (put_keeps d s (DVal (Buf (tyof s) v))) as H3.
        destruct (hput inst_eqb d s (DVal (Buf (tyof s) v))) as [d1 old]. cbn [fst] in *. split; [discriminate|]. intros r E. injection E as <-. cbn [fst].
        split; [exact H1|]. intros l1 s' op' l2 ->. destruct (Hp (DInsert s v :: l1) s' op' l2 eq_refl) as [H|(c & [Hc|Hc] & Hi & Ha)].
        * left. apply H3, H.
        * subst c. left. cbn [call_stat] in Ha. rewrite <- (found_eq d1 _ _ Ha). exact H2.
        * right. exists c. auto.
      + split; [discriminate|]. intros r E. discriminate.
      + unfold validate_ty in F. pose proof (validate_unit (v_size P (tyof s)) (v_align P (tyof s))) as Hu. rewrite F in Hu. destruct Hu.
      + split; discriminate.
    - destruct (hget inst_eqb d s) as [b|] eqn:Eb.
      + destruct (typed_found d s b Ht Eb) as (F & v & ->). unfold d_patch. rewrite Eb. cbn [d_cast]. unfold buf_ref. pose proof F as F'. unfold fits in F'. rewrite F'. cbn [obind].
        rewrite cast_val_same. cbn [obind]. destruct (write_to op v) as [v'|p| |] eqn:Ew; cbn [obind]; try (split; discriminate).
        * split; [discriminate|]. intros r E. injection E as <-. cbn [fst]. split; [apply set_typed; assumption|].
          intros l1 s' op' l2 ->. destruct (Hp (DPatch s op :: l1) s' op' l2 eq_refl) as [H|(c & [Hc|Hc] & Hi & Ha)].
          -- left. apply set_keeps, H.
          -- subst c. destruct Hi.
          -- right. exists c. auto.
        * destruct (Hs _ Ew).
      + destruct (Hp [] s op l eq_refl) as [H|(c & [] & _)]. contradiction.
  Qed.
  Lemma run_alike l : forall d, all_typed d -> prepared d l -> Forall sound_call l ->
    d_run o_size o_align d l <> UB /\ forall r, d_run o_size o_align d l = Done r -> all_typed (fst r).
  Proof.
    induction l as [|c l IH]; intros d Ht Hp Hs; cbn [d_run].
    - split; [discriminate|]. intros r E. injection E as <-. exact Ht.
    - inversion_clear Hs as [|? ? Hc Hs']. destruct (step_alike d c l Ht Hp Hc) as [H1 H2].
      destruct (d_step o_size o_align d c) as [r| | |]; cbn [obind]; try (split; discriminate); [|contradiction].
      destruct (H2 r eq_refl) as [T1 P1]. destruct (IH (fst r) T1 P1 Hs') as [G1 G2].
      destruct (d_run o_size o_align (fst r) l) as [r'| | |]; cbn [obind]; try (split; discriminate); [|contradiction].
      split; [discriminate|]. intros r0 E. injection E as <-. cbn [fst]. apply (G2 r' eq_refl).
  Qed.
  Lemma drop_alike d : all_typed d -> exists r, d_drop d = Done r /\ map DVal r = map snd d.
  Proof.
    induction d as [|[s b] d IH]; intros Ht; [exists []; split; reflexivity|].
    destruct (Ht s b (or_introl eq_refl)) as (F & v & ->). destruct IH as (r & E & Em); [intros s' b' H; apply Ht; right; exact H|].
    cbn [d_drop d_cast]. unfold buf_ref. unfold fits in F. rewrite F. cbn [obind]. rewrite cast_val_same. cbn [obind]. rewrite E. cbn [obind].
    eexists. split; [reflexivity|]. cbn [map snd]. rewrite Em. reflexivity.
  Qed.
End Defaults.

Lemma C67_defaults_safe_proof : forall (P : Prog) (o_size o_align : vty P -> Z) (l : list (dcall P)),
  like_tables P -> alike_first l -> Forall sound_call l ->
  d_run o_size o_align [] l <> UB /\
  forall d lost, d_run o_size o_align [] l = Done (d, lost) ->
  (forall s, d_get d s <> UB /\ (fits s -> exists v, d_get d s = Done v) /\ (forall s', alike s s' -> (hget inst_eqb d s = None <-> hget inst_eqb d s' = None))) /\
  (exists dropped, d_drop d = Done dropped /\ map DVal dropped = map snd d) /\
  forall (Q : QFlag) (w : world P Q), w_defaults w = Some d -> defaults_typed w.
Proof.
  intros P o_size o_align l Hl Hf Hs.
  destruct (run_alike o_size o_align Hl l []) as [H1 H2]; [intros s b []|intros l1 s op l2 E; right; apply (Hf l1 s op l2 E)|exact Hs|].
  split; [exact H1|]. intros d lost E. pose proof (H2 _ E) as Ht. cbn [fst] in Ht. split; [|split].
  - intros s. split; [|split].
    + unfold d_get. destruct (hget inst_eqb d s) as [b|] eqn:Eb; [|discriminate]. destruct (typed_found Hl d s b Ht Eb) as (F & v & ->).
      cbn [d_cast]. unfold buf_ref. unfold fits in F. rewrite F. cbn [obind]. rewrite cast_val_same. discriminate.
    + intros F. unfold d_get. destruct (hget inst_eqb d s) as [b|] eqn:Eb; [|eauto]. destruct (typed_found Hl d s b Ht Eb) as (_ & v & ->).
      cbn [d_cast]. unfold buf_ref. unfold fits in F. rewrite F. cbn [obind]. rewrite cast_val_same. eauto.
    + intros s' Ha. rewrite (found_eq d _ _ Ha). reflexivity.
  - apply drop_alike, Ht.
  - intros Q w Ew. unfold defaults_typed. rewrite Ew. intros s b Eb. apply (typed_found Hl d s b Ht Eb).
Qed.
Lemma C67_alike_crates_proof : forall c : crate, like_tables (prog_of c) <-> same_values c.
Proof. intros c. reflexivity. Qed.
Lemma merged_alike : like_tables (prog_of merged).
Proof.
  apply C67_alike_crates_proof. intros [t n] [u k]. unfold merged, shop, cr_addr, cr_value. cbn [fst snd]. intros H. apply far_inj in H. inversion H as [[H1 H2]].
  destruct (rty_dec t (Named 1)) as [-> |Ht], (rty_dec u (Named 1)) as [-> |Hu]; subst; reflexivity.
Qed.
