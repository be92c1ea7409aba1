From Coq Require Import ZArith String List Bool Sorted Lia.
From Verif Require Import M_Outcome M_Value M_Types M_Qualifier M_Search M_Stat M_HashMap M_StatMap M_Pair M_Defaults M_Registry M_Querier M_Poison M_Debug
  S_Search S_StatMap S_Pair S_Defaults S_Demo S_DemoDefaults S_Registry S_Querier S_DemoQuery S_Poison S_Debug
  L_Outcome L_HashMap L_StatMap L_StatMap2 L_StatMap3 L_StatMap4 L_StatMap5 L_Defaults L_Registry L_Querier L_Querier2 L_Querier3 L_Querier4 L_Poison.
Import ListNotations.

Section L.
  Context {P : Prog} {Q : QFlag} (N : StatNames P) (show : forall t : vty P, val (VT P t) -> outcome string).
  Notation tyof s := (vt_value P (si_ty s)).
  Notation lst := (listing N show).

  Lemma debug_ok (s : inst P) v : ok_ty P (tyof s) -> vt_debug show s (Buf (tyof s) v) = show _ v.
  Proof. intros H. unfold vt_debug. rewrite (buf_ref_ok P _ v H). reflexivity. Qed.
  Lemma debug_safe (s : inst P) b : (forall t v, show t v <> UB) -> ok_buf P s b -> vt_debug show s b <> UB.
  Proof. intros H Hb. destruct (ok_buf_inv P s b Hb) as (v & -> & Hok). rewrite debug_ok by exact Hok. apply H. Qed.

  Lemma listing_done {K} (l : list (shown (P := P) K)) : printable N show ->
    exists r, lst l = Done r /\ length r = length l /\ map (fun p => fst (fst p)) r = map i_key l.
  Proof.
    intros [H1 H2]. induction l as [|i l (r & E & El & Em)]; [exists []; repeat split|]. cbn.
    destruct (H1 (si_ty (i_stat i)) (si_index (i_stat i))) as [n ->]. destruct (H2 _ (i_val i)) as [d ->]. cbn. rewrite E. cbn.
    eexists. split; [reflexivity|]. cbn. rewrite El, Em. split; reflexivity.
  Qed.
  Lemma listing_safe {K} (l : list (shown (P := P) K)) : printing_safe N show -> lst l <> UB.
  Proof.
    intros [H1 H2]. induction l as [|i l IH]; [discriminate|]. cbn. pose proof (H1 (si_ty (i_stat i)) (si_index (i_stat i))) as Hn.
    destruct (sn_name N _ _); cbn; try congruence. pose proof (H2 _ (i_val i)) as Hs. destruct (show _ (i_val i)); cbn; try congruence.
    destruct (lst l); cbn; congruence.
  Qed.

  (** ** Maps *)
  Lemma map_items (m : map_t P Q) : typed m -> exists items : list (shown (qualifier Q)),
    map_debug N show m = lst items /\ m = map (fun i => Entry (i_stat i) (i_key i) (Buf (tyof (i_stat i)) (i_val i))) items.
  Proof.
    induction 1 as [|e m He _ (items & E & Em)]; [exists []; split; reflexivity|].
    destruct e as [s q b]. destruct (ok_buf_inv P s b He) as (v & -> & Hok).
    exists (Shown q s v :: items). cbn. rewrite (debug_ok s v Hok), <- E, <- Em. split; reflexivity.
  Qed.

  (** ** Defaults *)
  Lemma defaults_items (Hd : distinct_vtables P) (d : defaults P) : NoDup (map fst d) -> dtyped d -> (forall s b, hget inst_eqb d s = Some b -> fits s) ->
    exists items : list (shown unit), defaults_debug N show d = (let! r := lst items in Done (map (fun p => (snd (fst p), snd p)) r)) /\
      d = map (fun i => (i_stat i, DVal (Buf (tyof (i_stat i)) (i_val i)))) items.
  Proof.
    pose proof (inst_eqb_ok P Hd) as eqb_ok.
    induction d as [|[s b] d IH]; intros Hn Ht Hf; [exists []; split; reflexivity|]. inversion Hn; subst.
    assert (Hh : hget inst_eqb ((s, b) :: d) s = Some b) by (cbn; rewrite (eqb_refl inst_eqb eqb_ok); reflexivity).
    destruct (Ht s b Hh) as [v ->]. pose proof (Hf s _ Hh) as Hfit.
    assert (Ho : forall s' b', hget inst_eqb d s' = Some b' -> hget inst_eqb ((s, DVal (Buf (tyof s) v)) :: d) s' = Some b').
    { intros s' b' H. cbn. rewrite (eqb_neq inst_eqb eqb_ok); [exact H|]. intros ->. apply H1.
      apply (hget_in inst_eqb eqb_ok) in H. apply (in_map fst) in H. exact H. }
    destruct IH as (items & E & Em); [assumption| | |].
    - intros s' b' H. apply (Ht s' b'), Ho, H.
    - intros s' b' H. apply (Hf s' b'), Ho, H.
    - exists (Shown tt s v :: items). cbn [defaults_debug d_cast listing i_stat i_key i_val map]. unfold buf_ref. unfold fits in Hfit. rewrite Hfit. cbn [obind].
      rewrite cast_val_same. cbn [obind]. unfold inst_name. rewrite E. split; [|rewrite <- Em; reflexivity].
      destruct (sn_name N _ _); cbn; try reflexivity. destruct (show _ v); cbn; try reflexivity. destruct (lst items); reflexivity.
  Qed.

  (** ** The cache *)
  Lemma cache_items (c : cache P Q) : (forall k b, In (k, b) c -> entry_ok k b) -> exists items : list (shown (entity * qquery Q)),
    entries_debug N show c = (let! r := lst items in Done (map (fun p => (fst (fst (fst p)), snd (fst (fst p)), snd (fst p), snd p)) r)) /\
    c = map (fun i => (fst (i_key i), snd (i_key i), i_stat i, Buf (tyof (i_stat i)) (i_val i))) items.
  Proof.
    induction c as [|[[[e x] s] b] c IH]; intros H; [exists []; split; reflexivity|].
    destruct IH as (items & E & Em); [intros k b' Hi; apply H; right; exact Hi|].
    destruct (H (e, x, s) b (or_introl eq_refl)) as [H1 H2]. cbn in H1, H2. destruct b as [t v]. cbn in H1. subst t.
    exists (Shown (e, x) s v :: items). cbn [entries_debug listing i_stat i_key i_val map fst snd]. rewrite (debug_ok s v H2), E, <- Em. split; [|reflexivity].
    unfold inst_name. destruct (sn_name N _ _); cbn; try reflexivity. destruct (show _ v); cbn; try reflexivity. destruct (lst items); reflexivity.
  Qed.
  Variables cp dp : buffer P -> bool.
  Lemma puts_psteps (Hd : distinct_vtables P) (Hq : flags_eq (Q := Q)) {A} (s s' : list (act P Q A) * pcache P Q) lg :
    psteps cp dp s lg s' -> Forall puts_ok (fst s) -> (forall k b, In (k, b) (pc_map (snd s)) -> entry_ok k b) -> NoDup (map fst (pc_map (snd s))) ->
    (forall k b, In (k, b) (pc_map (snd s')) -> entry_ok k b) /\ NoDup (map fst (pc_map (snd s'))).
  Proof.
    induction 1 as [s|l1 m l2 st m' st' lg lg' s E _ IH]; intros Hp Hc Hn; [split; assumption|]. cbn in *.
    apply Forall_app in Hp as [Hp1 Hp2]. inversion Hp2 as [|? ? Hm Hp3]; subst.
    assert (G : puts_ok m' /\ (forall k b, In (k, b) (pc_map st') -> entry_ok k b) /\ NoDup (map fst (pc_map st'))).
    { destruct m as [a|o|k g|k b g|g]; cbn in E; try discriminate.
      - destruct (pc_poisoned st); [injection E as <- <- <-; cbn; auto|]. destruct (hget key_eqb (pc_map st) k) as [b|]; [destruct (cp b)|]; injection E as <- <- <-; cbn in *; auto.
      - destruct (pc_poisoned st); [injection E as <- <- <-; cbn; auto|]. destruct (cp b); injection E as <- <- <-; cbn in *; [auto|].
        destruct Hm as [H1 H2]. split; [exact H2|]. split; [|apply (hput_nodup key_eqb (key_eqb_ok Hd Hq)), Hn].
        intros k0 b0 Hi. destruct (in_hput _ _ _ _ _ Hi) as [Hi'|[[-> Ek]|Ek]]; [apply Hc, Hi'| |].
        + apply (key_eqb_ok Hd Hq) in Ek. subst k0. exact H1.
        + injection Ek as -> ->. exact H1.
      - destruct (pc_poisoned st); [injection E as <- <- <-; cbn; auto|]. destruct (snd (drop_loop dp _)); injection E as <- <- <-; cbn in *; [auto|].
        split; [exact Hm|]. split; [contradiction|constructor]. }
    destruct G as (G1 & G2 & G3). apply IH; [|exact G2|exact G3]. apply Forall_app. split; [exact Hp1|constructor; assumption].
  Qed.
End L.

Lemma C60_map_proof : forall (P : Prog) (Q : QFlag) (bs : list comparison -> bsres) (N : StatNames P) (show : forall t : vty P, val (VT P t) -> outcome string),
  bs_contract bs -> distinct_vtables P -> lawful_ord (q_cmp Q) ->
  forall (l : list (mop P Q)) (m : map_t P Q), Forall tsingle l -> mops_run bs [] l = Done m ->
  exists (sp : tmap P Q) (items : list (shown (qualifier Q))), tspec_run empty_tmap l sp /\
    map_debug N show m = listing N show items /\
    StronglySorted (fun a b => key_cmp (i_stat a) (i_key a) (i_stat b) (i_key b) = Lt) items /\
    forall s q v, In (Shown q s v) items <-> sp s q = Some v.
Proof.
  intros P Q bs N show C D OQ l m S R.
  destruct (run_correct bs C D OQ l [] m wf_nil typed_nil (single_fresh _ l S) R) as [W [T H]].
  destruct (map_items N show m T) as (items & E & Em). exists (tabs m), items. split; [exact H|]. split; [exact E|]. split.
  - clear - W Em. unfold wf in W. revert m W Em. induction items as [|i items IH]; intros m W Em; [constructor|]. subst m. cbn in W. inversion W as [|? ? W1 W2]; subst.
    constructor; [eapply IH; [exact W1|reflexivity]|]. rewrite Forall_forall in *. intros j Hj.
    apply (W2 (Entry (i_stat j) (i_key j) (Buf (vt_value P (si_ty (i_stat j))) (i_val j)))). apply in_map_iff. exists j. auto.
  - intros s q v. rewrite (tabs_some D OQ m s q v W T). rewrite Em. split; intros Hin.
    + apply in_map_iff. exists (Shown q s v). auto.
    + apply in_map_iff in Hin as ([q' s' v'] & Ei & Hi). cbn in Ei. injection Ei as E1 E2 E3 E4. subst s' q'. cbn in *.
      apply Eqdep_dec.inj_pair2_eq_dec in E4; [subst; exact Hi|apply (vty_dec P)].
Qed.

Lemma C60_map_safe_proof : forall (P : Prog) (Q : QFlag) (bs : list comparison -> bsres) (N : StatNames P) (show : forall t : vty P, val (VT P t) -> outcome string),
  bs_contract bs -> distinct_vtables P -> lawful_ord (q_cmp Q) -> printing_safe N show ->
  forall (l : list (mop P Q)) (m : map_t P Q), Forall sound_op l -> mops_run bs [] l = Done m ->
  map_debug N show m <> UB /\
  (printable N show -> exists r, map_debug N show m = Done r /\ map (fun p => fst (fst p)) r = map e_qual m).
Proof.
  intros P Q bs N show C D OQ Hs l m S R. destruct (mops_safe bs C D OQ l [] sorted_nil typed_nil S) as [_ K]. destruct (K m R) as [_ T].
  destruct (map_items N show m T) as (items & E & Em). rewrite E. split; [apply listing_safe, Hs|].
  intros Hp. destruct (listing_done N show items Hp) as (r & Er & _ & Ek). exists r. split; [exact Er|]. rewrite Ek, Em, map_map. reflexivity.
Qed.

Lemma run_fits (P : Prog) (o_size o_align : vty P -> Z) (Hd : distinct_vtables P) l : forall (d d' : defaults P) lost, dtyped d -> dfits d -> ready d l ->
  d_run o_size o_align d l = Done (d', lost) -> dfits d'.
Proof.
  induction l as [|c l IH]; intros d d' lost Ht Hf Hr; cbn [d_run].
  - intros E. injection E as <- <-. exact Hf.
  - destruct (d_step o_size o_align d c) as [[d1 l1]| | |] eqn:E1; cbn [obind]; try discriminate. cbn [fst snd].
    destruct (d_run o_size o_align d1 l) as [[d2 l2]| | |] eqn:E2; cbn [obind]; try discriminate.
    intros E. injection E as <- <-. cbn [fst].
    destruct (step_typed o_size o_align Hd d c d1 l1 Ht (ready_hd d c l Hr) E1) as (T1 & S1 & Hc & Ho).
    refine (IH d1 d2 l2 T1 _ (ready_tl Hd d d1 c l Hr Hc Ho) E2).
    intros s b Hb. destruct (eqb_dec inst_eqb (inst_eqb_ok P Hd) s (call_stat c)) as [-> |Hne]; [|rewrite (Ho s Hne) in Hb; exact (Hf s b Hb)].
    destruct c as [s v|s op]; cbn in E1 |- *.
    + unfold d_insert in E1. destruct (buf_from P _ v) as [b'| | |] eqn:Eb; cbn [obind] in E1; try discriminate. apply (buf_from_inv P) in Eb as [_ Ok]. exact Ok.
    + pose proof (ready_hd d _ l Hr) as H. cbn in H. destruct (hget inst_eqb d s) as [b0|] eqn:E0; [exact (Hf s b0 E0)|contradiction].
Qed.

Lemma C60_defaults_proof : forall (P : Prog) (o_size o_align : vty P -> Z) (N : StatNames P) (show : forall t : vty P, val (VT P t) -> outcome string)
    (l : list (dcall P)) (d : defaults P) (lost : list (dbuf P)),
  distinct_vtables P -> inserted_first l -> d_run o_size o_align [] l = Done (d, lost) ->
  exists (sp : dmap P) (items : list (shown unit)), dspec_run no_defaults l sp /\
    defaults_debug N show d = (let! r := listing N show items in Done (map (fun p => (snd (fst p), snd p)) r)) /\
    NoDup (map i_stat items) /\ forall s v, In (Shown tt s v) items <-> sp s = Some v.
Proof.
  intros P o_size o_align N show l d lost Hd Hi E. pose proof (inst_eqb_ok P Hd) as eqb_ok.
  destruct (run_typed o_size o_align Hd l [] d lost (dtyped_nil) (ready_nil l Hi) E) as [HT Hs].
  assert (Hf : dfits d) by (eapply (run_fits P o_size o_align Hd l []); [apply dtyped_nil|intros ? ? H; discriminate H|apply ready_nil, Hi|exact E]).
  assert (Hn : NoDup (map fst d)) by (eapply (run_nodup o_size o_align Hd l []); [constructor|exact E]).
  destruct (defaults_items N show Hd d Hn HT Hf) as (items & Ed & Em). exists (dabs d), items. split; [exact Hs|]. split; [exact Ed|]. split.
  - replace (map i_stat items) with (map fst d); [exact Hn|]. rewrite Em, map_map. reflexivity.
  - intros s v. split; intros H.
    + apply dabs_at. apply (hget_nodup inst_eqb eqb_ok _ _ _ Hn). rewrite Em. apply in_map_iff. exists (Shown tt s v). auto.
    + destruct (hget inst_eqb d s) as [b|] eqn:Eb; [|rewrite (dabs_none d s Eb) in H; discriminate].
      destruct (HT s b Eb) as [w ->]. rewrite (dabs_at d s w Eb) in H. injection H as ->.
      apply (hget_in inst_eqb eqb_ok) in Eb. rewrite Em in Eb. apply in_map_iff in Eb as ([[] s' v'] & Ei & Hin). cbn in Ei.
      injection Ei as E1 E2 E3. subst s'. cbn in *. apply Eqdep_dec.inj_pair2_eq_dec in E3; [subst; exact Hin|apply (vty_dec P)].
Qed.

Lemma defaults_debug_app (P : Prog) (N : StatNames P) (show : forall t : vty P, val (VT P t) -> outcome string) (d d' : defaults P) :
  defaults_debug N show (d ++ d') = let! r := defaults_debug N show d in let! r' := defaults_debug N show d' in Done (r ++ r').
Proof.
  induction d as [|[s b] d IH]; cbn; [destruct (defaults_debug N show d'); reflexivity|]. rewrite IH.
  destruct (inst_name N s); cbn; try reflexivity. destruct (d_cast _ b); cbn; try reflexivity. destruct (show _ _); cbn; try reflexivity.
  destruct (defaults_debug N show d); cbn; try reflexivity. destruct (defaults_debug N show d'); reflexivity.
Qed.
Lemma hput_absent {K V} (eqb : K -> K -> bool) (m : hmap K V) k v : hget eqb m k = None -> fst (hput eqb m k v) = m ++ [(k, v)].
Proof.
  induction m as [|[k' v'] m IH]; cbn; [reflexivity|]. destruct (eqb k' k); [discriminate|]. intros H. specialize (IH H).
  destruct (hput eqb m k v). cbn in *. rewrite IH. reflexivity.
Qed.
Lemma C60_defaults_refuted_proof : forall (P : Prog) (o_size o_align : vty P -> Z) (N : StatNames P) (show : forall t : vty P, val (VT P t) -> outcome string)
    (l : list (dcall P)) (d : defaults P) (lost : list (dbuf P)) (s : inst P) (op : stat_op (VT P (vt_value P (si_ty s)))) v',
  distinct_vtables P -> inserted_first l -> d_run o_size o_align [] l = Done (d, lost) -> printable N show ->
  hget inst_eqb d s = None -> fits s ->
  write_to op (sv_default (VT P (vt_value P (si_ty s)))) = Done v' ->
  validate (o_size (vt_value P (si_ty s))) (o_align (vt_value P (si_ty s))) = Done tt ->
  exists d', d_patch o_size o_align d s op = Done d' /\ defaults_debug N show d' = UB.
Proof.
  intros P o_size o_align N show l d lost s op v' Hd Hi E Hp Ha Hf Hw Hv.
  destruct (C60_defaults_proof P o_size o_align N show l d lost Hd Hi E) as (sp & items & _ & Ed & _).
  destruct (listing_done N show items Hp) as (r & Er & _). rewrite Er in Ed. cbn in Ed.
  unfold d_patch. rewrite Ha, Hw. cbn [obind]. rewrite Hv. cbn [obind]. eexists. split; [reflexivity|].
  rewrite (hput_absent _ _ _ _ Ha), defaults_debug_app, Ed. cbn [obind defaults_debug d_cast].
  destruct Hp as [H1 _]. unfold inst_name. destruct (H1 (si_ty s) (si_index s)) as [n ->]. cbn [obind]. unfold fits in Hf. rewrite Hf. reflexivity.
Qed.

Lemma C60_cache_proof : forall (P : Prog) (Q : QFlag) (N : StatNames P) (show : forall t : vty P, val (VT P t) -> outcome string)
    (cp dp : buffer P -> bool) (j : joined P Q) (A : Type) (ts : list (nat * prog P Q A)) ms st lg,
  distinct_vtables P -> flags_eq (Q := Q) -> j_cached j = true -> stats_kept j ->
  psteps cp dp (map (fun t => client j (fst t) (snd t)) ts, PCache [] false) lg (ms, st) ->
  if pc_poisoned st then cache_debug N show st = Panics PUnwrap
  else exists items : list (shown (entity * qquery Q)),
    cache_debug N show st = (let! r := listing N show items in Done (map (fun p => (fst (fst (fst p)), snd (fst (fst p)), snd (fst p), snd p)) r)) /\
    NoDup (map (fun i => (i_key i, i_stat i)) items) /\
    (forall e x s, hget key_eqb (pc_map st) (e, x, s) <> None <-> exists v, In (Shown (e, x) s v) items) /\
    forall e x s v, In (Shown (e, x) s v) items -> exists n, fst (run (client (uncached j) n (p_query e x s)) []) = Done (Some v).
Proof.
  intros P Q N show cp dp j A ts ms st lg Hd Hq Hc Hk H. unfold cache_debug. destruct (pc_poisoned st); [reflexivity|].
  destruct (puts_psteps cp dp Hd Hq _ _ _ H) as [He Hn].
  { cbn. apply Forall_forall. intros m Hm. apply in_map_iff in Hm as (t & <- & _). apply puts_interp, puts_level. }
  { intros k b []. } { constructor. }
  cbn in He, Hn.
  assert (V : valid (right j) (pc_map st)).
  { eapply (good_psteps cp dp Hd Hq (right j) (map (fun t => client j (fst t) (snd t)) ts, PCache [] false) (ms, st) lg (map (fun _ => fun _ => True) ts)); [|exact H| |].
    - apply Forall_forall. intros R HR. apply in_map_iff in HR as (t' & <- & _). exact (fun _ => I).
    - cbn. clear -Hc Hk Hd Hq. induction ts as [|t ts IH]; cbn; constructor; [|exact IH].
      eapply good_weaken; [|apply (client_good j (fst t) (snd t) Hc Hk)]. intros; exact I.
    - apply valid_nil. }
  destruct (cache_items N show (pc_map st) He) as (items & Ed & Em). exists items. split; [exact Ed|].
  assert (Hin : forall e x s v, In (Shown (e, x) s v) items -> hget key_eqb (pc_map st) (e, x, s) = Some (Buf (vt_value P (si_ty s)) v)).
  { intros e x s v Hi. apply (hget_nodup key_eqb (key_eqb_ok Hd Hq) _ _ _ Hn). rewrite Em. apply in_map_iff. exists (Shown (e, x) s v). auto. }
  split; [|split].
  - rewrite Em, map_map in Hn. clear - Hn. induction items as [|i items IH]; cbn in *; [constructor|]. inversion Hn; subst. constructor; [|apply IH; assumption].
    intros H. apply H1. apply in_map_iff in H as (i' & E & Hi). apply in_map_iff. exists i'. split; [|exact Hi].
    injection E as E1 E2. rewrite E1, E2. reflexivity.
  - intros e x s. split.
    + intros Hg. destruct (hget key_eqb (pc_map st) (e, x, s)) as [b|] eqn:Eb; [|contradiction].
      apply (hget_in key_eqb (key_eqb_ok Hd Hq)) in Eb. rewrite Em in Eb. apply in_map_iff in Eb as ([[e' x'] s' v'] & Ei & Hi). cbn in Ei.
      injection Ei as E1 E2 E3 _. subst. exists v'. exact Hi.
    + intros [v Hi]. rewrite (Hin e x s v Hi). discriminate.
  - intros e x s v Hi. destruct (V (e, x, s) _ (Hin e x s v Hi)) as ((n & En) & Hty & Hf). exists n.
    destruct n as [|n]; [discriminate|]. rewrite run_query. unfold fits in Hf. rewrite Hf.
    rewrite (level_uncached (uncached j) (S n)) by reflexivity. rewrite answer_uncached, En. rewrite cast_val_same. reflexivity.
Qed.

Lemma C60_cache_safe_proof : forall (P : Prog) (Q : QFlag) (N : StatNames P) (show : forall t : vty P, val (VT P t) -> outcome string)
    (cp dp : buffer P -> bool) (A : Type) (ts : list (joined P Q * nat * prog P Q A)) ms st lg,
  distinct_vtables P -> flags_eq (Q := Q) -> printing_safe N show ->
  psteps cp dp (map (fun t => client (fst (fst t)) (snd (fst t)) (snd t)) ts, PCache [] false) lg (ms, st) ->
  cache_debug N show st <> UB.
Proof.
  intros P Q N show cp dp A ts ms st lg Hd Hq Hs H. unfold cache_debug. destruct (pc_poisoned st); [discriminate|].
  destruct (puts_psteps cp dp Hd Hq _ _ _ H) as [He _].
  { cbn. apply Forall_forall. intros m Hm. apply in_map_iff in Hm as (t & <- & _). apply puts_interp, puts_level. }
  { intros k b []. } { constructor. }
  cbn in He. destruct (cache_items N show (pc_map st) He) as (items & -> & _).
  pose proof (listing_safe N show items Hs) as Hl. destruct (listing N show items); cbn; congruence.
Qed.

Lemma C60_pair_proof : forall (P : Prog) (N : StatNames P) (show : forall t : vty P, val (VT P t) -> outcome string) (p : pair P),
  pair_ok p -> fits (p_stat p) -> exists v, p = Pair (p_stat p) (Buf (vt_value P (si_ty (p_stat p))) v) /\
  pair_debug N show p = let! n := sn_name N (si_ty (p_stat p)) (si_index (p_stat p)) in let! d := show _ v in Done (n, d).
Proof.
  intros P N show [s [t v]] H Hf. unfold pair_ok in H. cbn in H, Hf. subst t. exists v. split; [reflexivity|].
  unfold pair_debug. cbn [p_stat p_buf]. rewrite (debug_ok show s v Hf). reflexivity.
Qed.

Lemma C60_registry_proof : forall (P : Prog) (N : StatNames P) (l : list (rop P)) n i,
  In (n, i) (registry_debug (rops_run N l)) <-> exists T, reg_get (rops_run N l) n = Some (Inst T i).
Proof.
  intros P N l n i.
  assert (Hn : NoDup (map fst (rops_run N l))).
  { unfold rops_run. assert (G : forall m, NoDup (map fst m) -> NoDup (map fst (fold_left (rop_run N) l m))); [|apply G; constructor].
    induction l as [|o l IH]; intros m Hm; [exact Hm|]. cbn. apply IH. destruct o as [T|T]; cbn.
    - unfold register. assert (K : forall k m, NoDup (map fst m) -> NoDup (map fst (fst (reg_each T m k)))).
      { induction k as [|[n0 i0] k IHk]; intros m0 H0; [exact H0|]. cbn. unfold reg_one.
        destruct (hget String.eqb m0 n0) as [prev|]; [destruct (inst_eqb prev (Inst T i0)); [apply IHk; exact H0|exact H0]|].
        apply IHk. apply (hput_nodup String.eqb seqb_ok), H0. }
      apply K, Hm.
    - unfold register_replace. assert (K : forall k m, NoDup (map fst m) -> NoDup (map fst (fold_left (fun m p => fst (hput String.eqb m (fst p) (Inst T (snd p)))) k m))).
      { induction k as [|p k IHk]; intros m0 H0; [exact H0|]. cbn. apply IHk. apply (hput_nodup String.eqb seqb_ok), H0. }
      apply K, Hm. }
  unfold registry_debug. rewrite in_map_iff. split.
  - intros ((n' & s) & E & Hi). cbn in E. injection E as -> <-. exists (si_ty s). rewrite inst_eta. apply (hget_nodup String.eqb seqb_ok _ _ _ Hn Hi).
  - intros [T H]. apply (hget_in String.eqb seqb_ok) in H. exists (n, Inst T i). auto.
Qed.
