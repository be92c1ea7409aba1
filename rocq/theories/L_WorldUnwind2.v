(** Defaults of worlds after any calls, caught panics included. *)
From Coq Require Import ZArith List Bool String Lia.
From Verif Require Import M_Outcome M_Value M_Types M_Qualifier M_Search M_Stat M_StatMap M_Unwind M_HashMap M_Pair M_Defaults M_Registry M_Querier M_World M_WorldUnwind
  S_Pair S_StatMap S_Defaults S_Querier S_Demo S_DemoDefaults S_DemoQuery S_World S_Registry S_WorldUnwind S_WorldUnwind2 L_StatMap3 L_HashMap L_Demo L_Defaults L_Defaults2 L_Outcome L_Querier L_Querier2 L_Querier3 L_Querier4 L_DemoQuery
  L_DefaultsProofs L_CacheProofs L_World L_RegistryProofs L_WorldUnwind.
Import ListNotations.

Section D.
  Context {P : Prog} (o_size o_align : vty P -> Z).
  Hypothesis Hd : distinct_vtables P.
  Notation tyof s := (vt_value P (si_ty s)).
  Let eqb_ok := inst_eqb_ok P Hd.
  Implicit Types d : defaults P.

  Definition stands d (sp : slots P) : Prop := forall s, 
    match sp s with
    | Untouched => hget inst_eqb d s = None
    | Holds v => fits s /\ hget inst_eqb d s = Some (DVal (Buf (tyof s) v))
    | Misused => op_fits o_size o_align s /\ exists op, hget inst_eqb d s = Some (DOp (tyof s) op)
    end.
  Definition upd (sp : slots P) (s : inst P) (x : slot P s) : slots P :=
    fun s' => match inst_dec Hd s s' with Specif.left E => eq_rect s (slot P) x s' E | Specif.right _ => sp s' end.
  Lemma upd_sets sp s x : sets sp (upd sp s x) s x.
  Proof.
    unfold upd. split.
    - destruct (inst_dec Hd s s) as [E|E]; [|contradiction]. rewrite (Eqdep_dec.UIP_dec (inst_dec Hd) E eq_refl). reflexivity.
    - intros s' H. destruct (inst_dec Hd s s') as [E|E]; [subst; contradiction|reflexivity].
  Qed.
  Lemma stands_sets d d' sp sp' s x : stands d sp -> sets sp sp' s x ->
    (forall s', s' <> s -> hget inst_eqb d' s' = hget inst_eqb d s') ->
    match x with
    | Untouched => hget inst_eqb d' s = None
    | Holds v => fits s /\ hget inst_eqb d' s = Some (DVal (Buf (tyof s) v))
    | Misused => op_fits o_size o_align s /\ exists op, hget inst_eqb d' s = Some (DOp (tyof s) op)
    end -> stands d' sp'.
  Proof.
    intros H [E O] Ho Hs s'. destruct (inst_dec Hd s' s) as [-> |Hn]; [rewrite E; exact Hs|].
    rewrite O, Ho by exact Hn. apply H.
  Qed.
  Lemma op_fits_dec (s : inst P) : op_fits o_size o_align s \/ (~ op_fits o_size o_align s /\ exists p, validate (o_size (tyof s)) (o_align (tyof s)) = Panics p).
  Proof.
    unfold op_fits. pose proof (validate_unit (o_size (tyof s)) (o_align (tyof s))) as H.
    destruct (validate _ _) as [[]|p| |]; try contradiction; [left; reflexivity|right]. split; [discriminate|eauto].
  Qed.
  (** What [d_caught] does, given the slots. *)
  Lemma slot_caught d sp c d' : stands d sp -> d_caught o_size o_align d c = Done d' ->
    exists sp', slot_step o_size o_align sp c sp' /\ stands d' sp'.
  Proof.
    destruct c as [c u]. unfold d_caught, slot_step. cbn [fst snd]. intros H.
    destruct c as [s v|s op]; cbn [d_step call_stat d_unwound] in *.
    - unfold d_insert, buf_from. destruct (fits_dec s) as [F|[F [p E]]].
      + pose proof F as F'. unfold fits in F'. rewrite F'. cbn [obind].
        pose proof (hget_hput_same inst_eqb eqb_ok d s (DVal (Buf (tyof s) v))) as H1.
        pose proof (hget_hput_other inst_eqb eqb_ok d s (DVal (Buf (tyof s) v))) as H2.
        destruct (hput inst_eqb d s (DVal (Buf (tyof s) v))) as [d1 old]. cbn [fst] in H1, H2. cbn [fst]. intros E. injection E as <-.
        exists (upd sp s (Holds v)). split; [left; split; [exact F|apply upd_sets]|].
        apply (stands_sets d d1 sp _ s (Holds v) H (upd_sets _ _ _) H2). split; assumption.
      + rewrite E. cbn [obind]. intros X. injection X as <-. exists sp. split; [right; split; [exact F|reflexivity]|exact H].
    - pose proof (H s) as Hs. unfold d_patch. destruct (sp s) as [|v|].
      + rewrite Hs. destruct (write_to op (sv_default (VT P (tyof s)))) as [w|p| |] eqn:Ew; cbn [obind]; try discriminate.
        * destruct (op_fits_dec s) as [F|[F [p E]]].
          -- pose proof F as F'. unfold op_fits in F'. rewrite F'. cbn [obind fst]. intros E. injection E as <-.
             exists (upd sp s Misused). split; [left; split; [eauto|split; [exact F|apply upd_sets]]|].
             apply (stands_sets d _ sp _ s Misused H (upd_sets _ _ _)).
             ++ apply (hget_hput_other inst_eqb eqb_ok).
             ++ split; [exact F|]. exists op. apply (hget_hput_same inst_eqb eqb_ok).
          -- rewrite E. cbn [obind]. intros X. injection X as <-. exists sp. split; [right; split; [right; exact F|reflexivity]|exact H].
        * intros X. injection X as <-. exists sp. split; [right; split; [left; eauto|reflexivity]|exact H].
      + destruct Hs as [F Hs]. rewrite Hs. cbn [d_cast]. unfold buf_ref. pose proof F as F'. unfold fits in F'. rewrite F'. cbn [obind]. rewrite cast_val_same. cbn [obind].
        assert (G : forall w, stands (hset inst_eqb d s (DVal (Buf (tyof s) w))) (upd sp s (Holds w))).
        { intros w. apply (stands_sets d _ sp _ s (Holds w) H (upd_sets _ _ _)).
          - apply (hget_hset_other inst_eqb eqb_ok).
          - split; [exact F|]. exact (hget_hset_same inst_eqb d s _ _ Hs). }
        destruct (write_to op v) as [v'|p| |] eqn:Ew; cbn [obind fst]; try discriminate; intros X; injection X as <-.
        * exists (upd sp s (Holds v')). split; [left; exists v'; split; [reflexivity|apply upd_sets]|apply G].
        * exists (upd sp s (Holds (u s))). split; [right; split; [eauto|apply upd_sets]|apply G].
      + destruct Hs as (_ & op' & Hs). rewrite Hs. cbn [d_cast]. destruct (fits_dec s) as [F|[F [p E]]].
        * unfold fits in F. rewrite F. discriminate.
        * rewrite E. cbn [obind]. intros X. injection X as <-. exists sp. split; [split; [exact F|reflexivity]|exact H].
  Qed.
  (** And when it is undefined. *)
  Lemma slot_ub d sp c : stands d sp -> sound_call (fst c) ->
    (d_caught o_size o_align d c = UB <-> exists s op, fst c = DPatch s op /\ fits s /\ sp s = Misused).
  Proof.
    destruct c as [c u]. unfold d_caught. cbn [fst snd]. intros H Hs. split.
    - destruct c as [s v|s op]; cbn [d_step sound_call] in *.
      + unfold d_insert, buf_from. destruct (fits_dec s) as [F|[F [p E]]].
        * unfold fits in F. rewrite F. cbn [obind]. destruct (hput _ _ _ _). discriminate.
        * rewrite E. discriminate.
      + pose proof (H s) as Hp. unfold d_patch. intros E. exists s, op. split; [reflexivity|]. destruct (sp s) as [|v|].
        * rewrite Hp in E. destruct (write_to op (sv_default (VT P (tyof s)))) as [w|p| |] eqn:Ew; cbn [obind] in E; try discriminate; [|destruct (Hs _ Ew)].
          destruct (op_fits_dec s) as [F|[F [p E']]]; [unfold op_fits in F; rewrite F in E|rewrite E' in E]; discriminate.
        * destruct Hp as [F Hp]. rewrite Hp in E. cbn [d_cast] in E. unfold buf_ref in E. unfold fits in F. rewrite F in E. cbn [obind] in E. rewrite cast_val_same in E. cbn [obind] in E.
          destruct (write_to op v) as [w|p| |] eqn:Ew; cbn [obind] in E; try discriminate. destruct (Hs _ Ew).
        * destruct Hp as (_ & op' & Hp). rewrite Hp in E. cbn [d_cast] in E. destruct (fits_dec s) as [F|[F [p E']]]; [auto|rewrite E' in E; discriminate].
    - intros (s & op & -> & F & M). pose proof (H s) as Hp. rewrite M in Hp. destruct Hp as (_ & op' & Hp).
      cbn [d_step]. unfold d_patch. rewrite Hp. cbn [d_cast]. unfold fits in F. rewrite F. reflexivity.
  Qed.
  Lemma slots_caught l : forall d sp d', stands d sp -> d_caughts o_size o_align d l = Done d' ->
    exists sp', slot_run o_size o_align sp l sp' /\ stands d' sp'.
  Proof.
    induction l as [|c l IH]; intros d sp d' H; cbn [d_caughts].
    - intros E. injection E as <-. exists sp. split; [constructor|exact H].
    - destruct (d_caught o_size o_align d c) as [d1| | |] eqn:E1; cbn [obind]; try discriminate. intros E2.
      destruct (slot_caught d sp c d1 H E1) as (sp1 & S1 & H1). destruct (IH d1 sp1 d' H1 E2) as (sp2 & S2 & H2).
      exists sp2. split; [econstructor; eassumption|exact H2].
  Qed.
  Lemma stands_read d sp s : stands d sp -> fits s -> d_get d s = read_slot s (sp s).
  Proof.
    intros H F. specialize (H s). unfold d_get. unfold fits in F. destruct (sp s) as [|v|].
    - rewrite H. reflexivity.
    - destruct H as [_ ->]. cbn [d_cast read_slot]. unfold buf_ref. rewrite F. cbn [obind]. apply cast_val_same.
    - destruct H as (_ & op & ->). cbn [d_cast read_slot]. rewrite F. reflexivity.
  Qed.
  Lemma slot_fits l : forall sp sp', slot_run o_size o_align sp l sp' -> (forall s, sp s <> Untouched -> fits s) -> Forall (fun c => fits (call_stat (fst c))) l ->
    forall s, sp' s <> Untouched -> fits s.
  Proof.
    induction 1 as [sp|sp c sp1 l sp2 S1 S2 IH]; intros H F; [exact H|]. inversion_clear F as [|? ? F1 F2]. apply IH; [|exact F2].
    intros s. destruct (inst_dec Hd s (call_stat (fst c))) as [-> |Hn]; [intros _; exact F1|].
    assert (E : sp1 s = sp s); [|rewrite E; apply H].
    unfold slot_step in S1. destruct (fst c) as [s0 v|s0 op]; cbn [call_stat] in *.
    - destruct S1 as [[_ [_ O]]|[_ O]]; auto.
    - destruct (sp s0); [destruct S1 as [(_ & _ & _ & O)|[_ O]]|destruct S1 as [(v' & _ & _ & O)|[_ [_ O]]]|destruct S1 as [_ O]]; auto.
  Qed.
  Lemma stands_drop d sp : NoDup (map fst d) -> stands d sp -> (forall s, sp s <> Untouched -> fits s) ->
    (d_drop d = UB <-> exists s, sp s = Misused) /\
    ((forall s, sp s <> Misused) -> exists dropped, d_drop d = Done dropped /\ map DVal dropped = map snd d).
  Proof.
    intros Hn H F.
    assert (G : forall s b, In (s, b) d -> hget inst_eqb d s = Some b) by (intros s b Hi; apply (hget_nodup inst_eqb eqb_ok); assumption).
    destruct (drop_two d) as [[Ed (s & op & Hi)]|(N & r & Ed & Em)].
    - intros s b Hi. pose proof (G _ _ Hi) as E. pose proof (H s) as Hs. pose proof (F s) as Fs. destruct (sp s) as [|v|].
      + congruence.
      + destruct Hs as [Hf Hs]. split; [exact Hf|]. left. exists v. congruence.
      + destruct Hs as (_ & op & Hs). split; [apply Fs; discriminate|]. right. exists op. congruence.
    - split; [split; [intros _|intros _; exact Ed]|].
      + exists s. pose proof (G _ _ Hi) as E. pose proof (H s) as Hs. destruct (sp s) as [|v|]; [congruence|destruct Hs; congruence|reflexivity].
      + intros M. exfalso. apply (M s). pose proof (G _ _ Hi) as E. pose proof (H s) as Hs. destruct (sp s) as [|v|]; [congruence|destruct Hs; congruence|reflexivity].
    - split; [|intros _; eauto]. split; [rewrite Ed; discriminate|]. intros [s M]. exfalso. pose proof (H s) as Hs. rewrite M in Hs. destruct Hs as (_ & op & Hs).
      apply (N s op). apply (hget_in inst_eqb eqb_ok) in Hs. exact Hs.
  Qed.
End D.

Lemma stands_empty {P : Prog} (o_size o_align : vty P -> Z) : stands o_size o_align [] untouched.
Proof. intros s. reflexivity. Qed.
Lemma after_stands {P : Prog} {Q : QFlag} (N : StatNames P) (o_size o_align : vty P -> Z) (l : list (wop P Q * residue P)) (r : resources P Q) :
  distinct_vtables P -> c_run N o_size o_align no_resources l = Done r ->
  exists sp, slot_run o_size o_align untouched (caught_defaults l) sp /\ stands o_size o_align (content (r_defaults r)) sp /\ NoDup (map fst (content (r_defaults r))).
Proof.
  intros Hd Hr. apply faithful_c_after in Hr. destruct Hr as [Hr _ _ _ _ _ _].
  destruct (slots_caught o_size o_align Hd _ [] untouched _ (stands_empty o_size o_align) Hr) as (sp & S1 & S2).
  exists sp. split; [exact S1|]. split; [exact S2|]. apply (caughts_nodup o_size o_align Hd (caught_defaults l) [] _); [constructor|exact Hr].
Qed.
(** The slots are determined. *)
Section Det.
  Context {P : Prog} (o_size o_align : vty P -> Z).
  Hypothesis Hd : distinct_vtables P.
  Lemma slot_det l : forall sp sp0 sp1 sp2, (forall s : inst P, sp s = sp0 s) -> slot_run o_size o_align sp l sp1 -> slot_run o_size o_align sp0 l sp2 -> forall s, sp1 s = sp2 s.
  Proof.
    induction l as [|c l IH]; intros sp sp0 sp1 sp2 E H1 H2.
    { inversion H1; subst. inversion H2; subst. exact E. }
    inversion H1 as [|? ? x1 ? ? S1 R1]; subst. inversion H2 as [|? ? x2 ? ? S2 R2]; subst.
    apply (IH x1 x2 sp1 sp2); [|assumption|assumption]. intros s. clear IH H1 H2 R1 R2.
    unfold slot_step in S1, S2. destruct (fst c) as [s0 v|s0 op].
    - destruct S1 as [[F [A O]]|[F O]], S2 as [[F' [A' O']]|[F' O']]; try contradiction; [|rewrite O, O'; apply E].
      destruct (inst_dec Hd s s0) as [-> |Hn]; [congruence|rewrite O, O' by exact Hn; apply E].
    - rewrite (E s0) in S1. 
      assert (K : forall x y z z', sets sp z s0 x -> sets sp0 z' s0 y -> x = y -> z s = z' s).
      { intros x y z z' [A O] [A' O'] <-. destruct (inst_dec Hd s s0) as [-> |Hn]; [congruence|rewrite O, O' by exact Hn; apply E]. }
      destruct (sp0 s0) as [|v|].
      + destruct S1 as [((w & Ew) & F & A)|[F O]], S2 as [((w' & Ew') & F' & A')|[F' O']].
        * eapply K; eauto.
        * exfalso. destruct F' as [[p Ep]|F']; [congruence|contradiction].
        * exfalso. destruct F as [[p Ep]|F]; [congruence|contradiction].
        * rewrite O, O'. apply E.
      + destruct S1 as [(w & Ew & A)|[[p Ew] A]], S2 as [(w' & Ew' & A')|[[p' Ew'] A']]; try congruence; eapply K; eauto; congruence.
      + destruct S1 as [_ O], S2 as [_ O']. rewrite O, O'. apply E.
  Qed.
End Det.

Lemma C73_defaults_any_proof : forall (P : Prog) (Q : QFlag) (N : StatNames P) (o_size o_align : vty P -> Z) (l : list (wop P Q * residue P)) (r : resources P Q),
  distinct_vtables P -> c_run N o_size o_align no_resources l = Done r ->
  exists sp, slot_run o_size o_align untouched (caught_defaults l) sp /\
  (forall s, fits s -> d_get (content (r_defaults r)) s = read_slot s (sp s)) /\
  (Forall (fun c => fits (call_stat c)) (default_calls (map fst l)) ->
   (d_drop (content (r_defaults r)) = UB <-> exists s, sp s = Misused) /\
   ((forall s, sp s <> Misused) -> exists dropped, d_drop (content (r_defaults r)) = Done dropped /\ map DVal dropped = map snd (content (r_defaults r)))).
Proof.
  intros P Q N o_size o_align l r Hd Hr. destruct (after_stands N o_size o_align l r Hd Hr) as (sp & S1 & S2 & Hn).
  exists sp. split; [exact S1|]. split; [intros s; apply (stands_read o_size o_align); exact S2|].
  intros F. apply (stands_drop o_size o_align Hd); [exact Hn|exact S2|].
  apply (slot_fits o_size o_align Hd (caught_defaults l) untouched sp S1); [intros s H; contradiction H; reflexivity|].
  rewrite <- caught_calls in F. rewrite Forall_forall in F |- *. intros c Hc. apply (F (fst c)). apply in_map, Hc.
Qed.

(** Undefined behaviour, exactly. *)
Lemma C73_ub_iff_proof : forall (P : Prog) (Q : QFlag) (N : StatNames P) (o_size o_align : vty P -> Z) (l : list (wop P Q * residue P)),
  distinct_vtables P -> flags_eq (Q := Q) -> Forall (fun c => decent (fst c)) l ->
  (c_run N o_size o_align no_resources l = UB <->
   exists l1 o u l2 r, l = l1 ++ (o, u) :: l2 /\ c_run N o_size o_align no_resources l1 = Done r /\
   ((exists sc n p, o = WQuery sc n p /\ fst (w_query r sc n p) = UB) \/
    (exists s op sp, default_calls [o] = [DPatch s op] /\ fits s /\ slot_run o_size o_align untouched (caught_defaults l1) sp /\ sp s = Misused))).
Proof.
  intros P Q N o_size o_align l Hd Hq Hs. split.
  - induction l as [|c l IH] using rev_ind; [discriminate|]. rewrite c_run_app. apply Forall_app in Hs. destruct Hs as [Hs Hc]. inversion_clear Hc as [|? ? Hc' _].
    destruct (c_run N o_size o_align no_resources l) as [r|p| |] eqn:El; cbn [obind]; try discriminate.
    2: { intros _. destruct (IH Hs eq_refl) as (l1 & o & u & l2 & r & -> & H). exists l1, o, u, (l2 ++ [c]), r. split; [rewrite <- app_assoc; reflexivity|exact H]. }
    cbn [c_run]. intros U. assert (U' : w_step N o_size o_align r (fst c) = UB) by (unfold c_step in U; destruct (w_step _ _ _ _ _); cbn [obind] in U; congruence).
    destruct (after_stands N o_size o_align l r Hd El) as (sp & S1 & S2 & _).
    assert (G : cache_drop (content (r_cache r)) = Done tt).
    { apply drop_ok. eapply cache_good_cs; [exact Hd|exact Hq| |exact El]. intros k b []. }
    destruct c as [o u]. exists l, o, u, [], r. split; [reflexivity|]. split; [exact El|]. cbn [fst] in *.
    assert (Rd : forall d, default_calls [o] = [d] -> d_step o_size o_align (content (r_defaults r)) d = UB ->
      exists s op sp, default_calls [o] = [DPatch s op] /\ fits s /\ slot_run o_size o_align untouched (caught_defaults l) sp /\ sp s = Misused).
    { intros d D E. destruct (proj1 (slot_ub o_size o_align _ sp (d, u) S2 (sound_of_decent _ _ Hc' D))) as (s & op & Ed & F & M).
      - unfold d_caught. cbn [fst]. rewrite E. reflexivity.
      - cbn [fst] in Ed. subst d. eauto 10. }
    change (content (r_defaults r)) with (or_insert (r_defaults r)) in Rd.
    destruct o as [T'|s v|s b|s b|g| | |sc n q| |e x q]; cbn [w_step] in U'.
    + destruct (proj2 (C37_register_panics_exactly_proof P N Hd (or_insert (r_names r)) T')) as [E|E]; rewrite E in U'; discriminate.
    + right. apply (Rd _ eq_refl). cbn [d_step]. destruct (d_insert _ s v); cbn [obind] in *; congruence.
    + right. apply (Rd _ eq_refl). unfold register_min in U'. destruct (d_step _ _ _ _); cbn [obind] in *; congruence.
    + right. apply (Rd _ eq_refl). unfold register_max in U'. destruct (d_step _ _ _ _); cbn [obind] in *; congruence.
    + discriminate.
    + destruct (r_cache r) as [c0|]; [|discriminate]. cbn [content] in G. rewrite G in U'. discriminate.
    + destruct (r_cache r) as [c0|]; [|discriminate]. cbn [content] in G. rewrite G in U'. discriminate.
    + left. exists sc, n, q. split; [reflexivity|]. destruct (fst (w_query r sc n q)); cbn [obind] in U'; congruence.
    + destruct (r_cache r) as [c0|]; [|discriminate]. cbn [content] in G. rewrite G in U'. discriminate.
    + destruct (r_cache r) as [c0|]; [|discriminate]. cbn [decent] in Hc'. destruct q as [s [t v]]. cbn [p_buf p_stat b_ty] in Hc'. destruct Hc' as [-> Fs].
      unfold pair_clone_buffer in U'. cbn [p_stat p_buf] in U'. rewrite (clone_same s (Buf (vt_value P (si_ty s)) v) eq_refl Fs) in U'. discriminate.
  - intros (l1 & o & u & l2 & r & -> & El & H). rewrite c_run_app, El. cbn [obind c_run]. 
    assert (U : w_step N o_size o_align r o = UB).
    { destruct H as [(sc & n & p & -> & E)|(s & op & sp & D & F & S1 & M)].
      - cbn [w_step]. rewrite E. reflexivity.
      - destruct (after_stands N o_size o_align l1 r Hd El) as (sp' & S1' & S2 & _).
        pose proof (slot_det o_size o_align Hd _ untouched untouched sp sp' (fun s => eq_refl) S1 S1' s) as Es. rewrite M in Es.
        assert (E : d_step o_size o_align (or_insert (r_defaults r)) (DPatch s op) = UB).
        { pose proof (S2 s) as Hp. rewrite <- Es in Hp. destruct Hp as (_ & op' & Hp). cbn [d_step]. unfold d_patch. change (or_insert (r_defaults r)) with (content (r_defaults r)). rewrite Hp.
          cbn [d_cast]. unfold fits in F. rewrite F. reflexivity. }
        generalize dependent (DPatch s op). clear -P. intros d D E.
        destruct o as [T'|s0 v|s0 b|s0 b|g| | |sc n q| |e x q]; try discriminate D; injection D as <-; cbn [w_step]; [cbn [d_step] in E|unfold register_min|unfold register_max]; rewrite E; reflexivity. }
    unfold c_step. cbn [fst]. rewrite U. reflexivity.
Qed.
