(** From logs of calls to answers of queries. *)
From Coq Require Import ZArith List Bool Sorted Eqdep_dec Lia.
From Verif Require Import M_Outcome M_Ints M_Ratio M_Float M_Value M_Types M_Qualifier M_Search M_Stat M_StatMap M_HashMap M_Pair M_Defaults M_Querier
  S_Ratio S_Search S_Pair S_StatMap S_Defaults S_Defaults2 S_Querier S_Totals S_EndToEnd
  L_StatMap L_StatMap2 L_StatMap3 L_StatMap4 L_StatMap5 L_StatMapProofs L_DefaultsProofs L_Defaults2 L_Querier L_Querier2 L_DemoQuery L_Query L_QueryProofs L_CacheProofs L_Totals L_Totals2.
Import ListNotations.

Section L.
  Context {P : Prog} {Q : QFlag}.
  Notation VS s := (VT P (vt_value P (si_ty s))).
  Notation story s := (history (VS s)).
  Hypothesis OQ : lawful_ord (q_cmp Q).

  Lemma qual_eq (a b : qualifier Q) : qual_cmp a b = Eq <-> a = b.
  Proof. apply (lo_eq _ (qual_ord Q OQ)). Qed.
  Lemma inst_uip (s : inst P) (E : s = s) : E = eq_refl.
  Proof. apply UIP_dec, stat_dec. Qed.

  Lemma set_same (L : ledger P Q) s q o : set_entry L s q o s q = o.
  Proof.
    unfold set_entry. destruct (stat_dec s s) as [E|N]; [|contradiction N; reflexivity].
    rewrite (inst_uip s E). cbn [eq_rect]. rewrite (proj2 (qual_eq q q) eq_refl). reflexivity.
  Qed.
  Lemma set_other (L : ledger P Q) s q o s' q' : (s', q') <> (s, q) -> set_entry L s q o s' q' = L s' q'.
  Proof.
    intros N. unfold set_entry. destruct (stat_dec s s') as [E|_]; [|reflexivity]. subst s'.
    destruct (qual_cmp q q') eqn:Eq; [|reflexivity|reflexivity]. apply qual_eq in Eq. subst q'. contradiction N. reflexivity.
  Qed.

  (** The value of an entry is that of its story. *)
  Definition told (s : inst P) (o : option (val (VS s))) (h : option (story s)) : Prop :=
    match o, h with
    | Some v, Some h => value_of h = Done v
    | None, None => True
    | _, _ => False
    end.
  Definition tells (sp : tmap P Q) (L : ledger P Q) : Prop := forall s q, told s (sp s q) (L s q).

  Lemma tells_set sp sp' (L : ledger P Q) s q o h : tells sp L -> tbinds sp sp' s q o -> told s o h -> tells sp' (set_entry L s q h).
  Proof.
    intros T [H1 H2] Ho s' q'. destruct (stat_dec s s') as [Es|Ns].
    - subst s'. destruct (qual_cmp q q') eqn:Eq.
      + apply qual_eq in Eq. subst q'. rewrite set_same, H1. exact Ho.
      + assert (N : (s, q') <> (s, q)) by (intros E; injection E as <-; rewrite (proj2 (qual_eq q' q') eq_refl) in Eq; discriminate).
        rewrite (set_other _ _ _ _ _ _ N), (H2 _ _ N). apply T.
      + assert (N : (s, q') <> (s, q)) by (intros E; injection E as <-; rewrite (proj2 (qual_eq q' q') eq_refl) in Eq; discriminate).
        rewrite (set_other _ _ _ _ _ _ N), (H2 _ _ N). apply T.
    - assert (N : (s', q') <> (s, q)) by (intros E; injection E as -> _; contradiction Ns; reflexivity).
      rewrite (set_other _ _ _ _ _ _ N), (H2 _ _ N). apply T.
  Qed.
  Lemma told_default s o h : told s o h -> value_of (so_far h) = Done (or_default s o).
  Proof. destruct o, h; cbn; try contradiction; auto. Qed.
  Lemma stuck_applied {S : StatValue} (l : list (stat_op S)) : forall h, match value_of h with Done _ => True | o => value_of (fold_left Applied l h) = o end.
  Proof.
    induction l as [|k l IH]; intros h; [cbn [fold_left]; destruct (value_of h); auto|]. cbn [fold_left]. specialize (IH (Applied h k)). cbn [value_of] in IH.
    destruct (value_of h); [exact I|..]; exact IH.
  Qed.
  Lemma fold_applied s (l : list (stat_op (VS s))) : forall h v, value_of h = Done v ->
    value_of (fold_left Applied l h) = ofold (fun v o => write_to o v) v l.
  Proof.
    pose proof (@stuck_applied (VS s)) as G.
    induction l as [|o l IH]; intros h v E; [exact E|]. cbn [fold_left ofold].
    destruct (write_to o v) as [v1| | |] eqn:W; cbn [obind];
      (assert (A : value_of (Applied h o) = write_to o v) by (cbn [value_of]; rewrite E; reflexivity); rewrite W in A).
    - apply (IH _ _ A).
    - pose proof (G l (Applied h o)) as K. rewrite A in K. exact K.
    - pose proof (G l (Applied h o)) as K. rewrite A in K. exact K.
    - pose proof (G l (Applied h o)) as K. rewrite A in K. exact K.
  Qed.

  Lemma pair_dec (a b : qualifier Q * Z) : {a = b} + {a <> b}.
  Proof.
    destruct a as [q i], b as [q' i']. destruct (Z.eq_dec i i') as [->|N]; [|right; congruence].
    destruct (qual_cmp q q') eqn:E; [left; apply qual_eq in E; congruence|right|right];
      intros H; injection H as ->; rewrite (proj2 (qual_eq q' q') eq_refl) in E; discriminate.
  Qed.
  Lemma placed_other {U : sty P} (k : list (@bulk_item P Q U)) s q : (forall i p, s = Inst U i -> ~ In (q, i, p) k) -> forall L : ledger P Q, fold_left placed k L s q = L s q.
  Proof.
    induction k as [|[[q0 i0] p] k IH]; intros H L; [reflexivity|]. cbn [fold_left]. rewrite IH.
    - unfold placed. cbn [fst snd]. apply set_other. intros E. injection E as -> ->. apply (H i0 p eq_refl). left. reflexivity.
    - intros i p' E Hi. apply (H i p' E). right. exact Hi.
  Qed.
  Lemma placed_in {U : sty P} (k : list (bulk_item U)) q i h v : NoDup (map fst k) -> In (q, i, (h, v)) k -> forall L : ledger P Q, fold_left placed k L (Inst U i) q = Some h.
  Proof.
    induction k as [|[[q0 i0] p] k IH]; [intros _ []|]; intros Nd [E|Hi] L; cbn [fold_left map fst] in *; inversion Nd as [|? ? N1 N2]; subst.
    - injection E as -> -> ->. rewrite placed_other.
      + unfold placed. cbn [fst snd]. apply (set_same L (Inst U i) q (Some h)).
      + intros i' p' Ei Hi. injection Ei as <-. apply N1. apply in_map_iff. exists (q, i, p'). split; [reflexivity|exact Hi].
    - apply (IH N2 Hi).
  Qed.

  Definition once (e : edit P Q) : Prop := match e with EExtend U k => NoDup (map fst k) | _ => True end.
  Lemma tells_step sp sp' (L : ledger P Q) (e : edit P Q) : once e -> tells sp L -> honest e -> tspec_step sp (method e) sp' -> tells sp' (edited L e).
  Proof.
    intros O T Hh H. destruct e as [q s h v|q s b|q s o|q s l|q s|q s l|s f|s| |U k]; cbn [method tspec_step edited honest once] in *.
    - apply (tells_set _ _ _ _ _ _ _ T H). exact Hh.
    - apply (tells_set _ _ _ _ _ _ _ T H). reflexivity.
    - destruct H as (v' & Hv & H). apply (tells_set _ _ _ _ _ _ _ T H). cbn [told value_of].
      rewrite (told_default _ _ _ (T s q)). exact Hv.
    - pose proof (T s q) as Ts. destruct (sp s q) as [v|] eqn:Es.
      + destruct H as (v' & Hv & H). apply (tells_set _ _ _ _ _ _ _ T H). destruct (L s q) as [h|]; [|contradiction]. cbn [option_map told].
        rewrite (fold_applied s l h v Ts). exact Hv.
      + destruct (L s q) as [h|] eqn:El; [contradiction|]. cbn [option_map].
        apply (tells_set sp sp' L s q None None T); [|exact I]. split; [rewrite H; exact Es|]. intros. apply H.
    - apply (tells_set _ _ _ _ _ _ _ T H). exact I.
    - destruct H as (v' & Hv & H). apply (tells_set _ _ _ _ _ _ _ T H). cbn [told].
      rewrite (fold_applied s l _ _ (told_default _ _ _ (T s q))). exact Hv.
    - destruct H as [H1 H2]. intros s' q. destruct (stat_dec s s') as [E|N].
      + subst s'. cbn [eq_rect]. specialize (H1 q). pose proof (T s q) as Ts. destruct (sp s q) as [v|].
        * destruct H1 as (v' & Hv & ->). destruct (L s q) as [h|]; [|contradiction]. cbn [option_map told].
          rewrite (fold_applied s (f q) h v Ts). exact Hv.
        * rewrite H1. destruct (L s q) as [h|]; [contradiction|exact I].
      + rewrite H2 by congruence. apply T.
    - destruct H as [H1 H2]. intros s' q'. destruct (stat_dec s s') as [E|N].
      + subst s'. rewrite H1. exact I.
      + rewrite H2 by congruence. apply T.
    - intros s q. rewrite H. exact I.
    - destruct H as (H1 & H2 & H3). intros s q.
      destruct (sty_dec P (si_ty s) U) as [E|N].
      + subst U. destruct s as [U i]. cbn [si_ty] in *.
        destruct (in_dec pair_dec (q, i) (map fst k)) as [Hi|Hi].
        * apply in_map_iff in Hi as ([[q0 i0] [h v]] & E & Hi). cbn [fst] in E. injection E as -> ->.
          rewrite (placed_in k q i h v O Hi). rewrite (H3 i q v).
          -- rewrite Forall_forall in Hh. exact (Hh _ Hi).
          -- apply in_map_iff. exists (q, i, (h, v)). split; [reflexivity|exact Hi].
        * rewrite placed_other.
          -- rewrite H2; [apply T|]. intros v Hv. apply Hi. apply in_map_iff in Hv as ([[q0 i0] p] & E & Hv). cbn [fst snd] in E. injection E as -> -> _.
             apply in_map_iff. exists (q, i, p). split; [reflexivity|exact Hv].
          -- intros i' p E Hv. injection E as <-. apply Hi. apply in_map_iff. exists (q, i, p). split; [reflexivity|exact Hv].
      + rewrite placed_other; [rewrite H1 by exact N; apply T|]. intros i p -> _. apply N. reflexivity.
  Qed.
  Lemma tells_run (l : list (edit P Q)) : forall sp sp' L, Forall once l -> tells sp L -> Forall honest l -> tspec_run sp (map method l) sp' -> tells sp' (fold_left edited l L).
  Proof.
    induction l as [|e l IH]; intros sp sp' L O T Hh H; cbn [map fold_left] in *; inversion H; subst; [exact T|].
    inversion Hh; subst. inversion O; subst. eapply IH; [eassumption| |eassumption|eassumption]. eapply tells_step; eassumption.
  Qed.
  Lemma unrepeated_once (l : list (edit P Q)) : unrepeated l -> Forall once l.
  Proof.
    intros H. apply Forall_forall. intros e Hi. destruct e; try exact I. apply in_split in Hi as (l1 & l2 & E). apply (H _ _ _ _ E).
  Qed.
  Lemma unrepeated_fresh (l : list (edit P Q)) : Forall honest l -> unrepeated l -> fresh_history empty_tmap (map method l).
  Proof.
    intros Hh H a U k b sp1 E R. apply map_eq_app in E as (l1 & l2 & -> & <- & E2). destruct l2 as [|e l2]; [discriminate|]. cbn [map] in E2.
    injection E2 as Ee <-. destruct e as [| | | | | | | | |U' k']; try discriminate. cbn [method] in Ee.
    assert (U' = U) by (injection Ee; congruence). subst U'. injection Ee as Ek. apply (inj_pair2_eq_dec _ (sty_dec P)) in Ek. subst k.
    destruct (H l1 U k' l2 eq_refl) as [Nd Hf]. split; [rewrite map_map; exact Nd|]. intros i q v Hi.
    apply in_map_iff in Hi as ([[q0 i0] p] & E & Hi). cbn [fst snd] in E. injection E as -> -> _.
    apply Forall_app in Hh as [Hh _]. pose proof (unrepeated_once _ H) as O. apply Forall_app in O as [O _].
    assert (T : tells sp1 (account l1)) by (apply (tells_run l1 empty_tmap sp1 (fun _ _ => None)); [exact O|intros ? ?; exact I|exact Hh|exact R]).
    specialize (T (Inst U i) q). rewrite (Hf q i p Hi) in T. destruct (sp1 (Inst U i) q); [contradiction|reflexivity].
  Qed.

  (** The entries selected by a query, as values and as stories. *)
  Lemma chosen_of (l : list (edit P Q)) sp s x lv : tells sp (account l) -> selection sp s (fun q => qualifies_as q x) lv ->
    exists hs, chosen s x l hs /\ Forall2 (fun p h => fst p = fst h /\ value_of (snd h) = Done (snd p)) lv hs.
  Proof.
    intros T [Hs Hi].
    set (f := fun p : qualifier Q * val (VS s) => (fst p, so_far (account l s (fst p)))).
    assert (K : forall p, In p lv -> account l s (fst p) = Some (snd (f p)) /\ value_of (snd (f p)) = Done (snd p) /\ qualifies_as (fst p) x = true).
    { intros [q v] Hp. apply Hi in Hp as [Hp Hq]. specialize (T s q). rewrite Hp in T. unfold f. cbn [fst snd].
      destruct (account l s q) as [h|]; [|contradiction]. auto. }
    exists (map f lv). split; [split|].
    - clear - Hs. induction Hs as [|a lv Hs IH Ha]; cbn [map]; constructor; [exact IH|].
      rewrite Forall_map. exact Ha.
    - intros q h. rewrite in_map_iff. split.
      + intros (p & E & Hp). destruct (K p Hp) as (K1 & _ & K3). rewrite E in K1. cbn [snd] in K1.
        assert (Eq : fst p = q) by (apply (f_equal fst) in E; exact E). rewrite <- Eq. auto.
      + intros [Ha Hq]. specialize (T s q). rewrite Ha in T. destruct (sp s q) as [v|] eqn:Ev; [|contradiction].
        exists (q, v). split; [unfold f; cbn [fst]; rewrite Ha; reflexivity|]. apply Hi. auto.
    - clear - K. induction lv as [|p lv IH]; cbn [map]; constructor.
      + split; [reflexivity|]. apply K. left. reflexivity.
      + apply IH. intros p' Hp'. apply K. right. exact Hp'.
  Qed.

  Lemma stuck_joined {S : StatValue} (l : list (history S)) : forall h, match value_of h with Done _ => True | o => value_of (fold_left Joined l h) = o end.
  Proof.
    induction l as [|k l IH]; intros h; [cbn [fold_left]; destruct (value_of h); auto|]. cbn [fold_left]. specialize (IH (Joined h k)). cbn [value_of] in IH.
    destruct (value_of h); [exact I|..]; exact IH.
  Qed.
  Lemma joined_values s (lv : list (qualifier Q * val (VS s))) hs : Forall2 (fun p h => fst p = fst h /\ value_of (snd h) = Done (snd p)) lv hs ->
    forall h v, value_of h = Done v -> value_of (fold_left Joined (map snd hs) h) = join_all s v lv.
  Proof.
    intros F. induction F as [|p k lv hs [_ Hk] F IH]; intros h v E; [exact E|]. cbn [map fold_left].
    unfold join_all. cbn [ofold].
    assert (A : value_of (Joined h (snd k)) = sv_join (VS s) v (snd p)) by (cbn [value_of]; rewrite E; cbn [obind]; rewrite Hk; reflexivity).
    destruct (sv_join (VS s) v (snd p)) as [v1| | |] eqn:Ej; cbn [obind].
    - apply (IH _ _ A).
    - pose proof (stuck_joined (map snd hs) (Joined h (snd k))) as G. rewrite A in G. exact G.
    - pose proof (stuck_joined (map snd hs) (Joined h (snd k))) as G. rewrite A in G. exact G.
    - pose proof (stuck_joined (map snd hs) (Joined h (snd k))) as G. rewrite A in G. exact G.
  Qed.

  Variable bs : list comparison -> bsres.
  Hypothesis C : bs_contract bs.
  Hypothesis D : distinct_vtables P.

  (** One map. *)
  Lemma logged_stream (m : map_t P Q) (l : list (edit P Q)) (x : qquery Q) (s : inst P) : logged bs m l -> fits s ->
    exists hs, chosen s x l hs /\
    forall h v, value_of h = Done v ->
      map_stream bs m x (Pair s (Buf (vt_value P (si_ty s)) v)) =
      let! r := value_of (fold_left Joined (map snd hs) h) in Done (Pair s (Buf (vt_value P (si_ty s)) r)).
  Proof.
    intros (Hh & Hu & Hr) F. destruct (run_correct bs C D OQ _ [] m wf_nil typed_nil (unrepeated_fresh l Hh Hu) Hr) as (W & Ty & Hsp).
    destruct (m_query_sel bs C D OQ m x s W Ty) as (lv & Hl & _ & Hst'). assert (Hst := fun v => Hst' v F). clear Hst'. set (sp := tabs m) in *.
    assert (T : tells sp (account l)) by (apply (tells_run l empty_tmap sp (fun _ _ => None)); [apply unrepeated_once, Hu|intros ? ?; exact I|exact Hh|exact Hsp]).
    destruct (chosen_of l sp s x lv T Hl) as (hs & Hc & F2). exists hs. split; [exact Hc|].
    intros h v E. rewrite Hst, (joined_values s lv hs F2 h v E). reflexivity.
  Qed.

  (** A row of maps. *)
  Definition map_source (x : qquery Q) (m : map_t P Q) : pair P -> prog P Q (pair P) := fun p => of_outcome (map_stream bs m x p).
  Lemma logged_row x s : fits s -> forall (ml : list (map_t P Q * list (edit P Q))), Forall (fun p => logged bs (fst p) (snd p)) ml ->
    exists sel, Forall2 (fun p => chosen s x (snd p)) ml sel /\
    forall hd h v, value_of h = Done v ->
      collect hd (Pair s (Buf (vt_value P (si_ty s)) v)) (map (fun p => map_source x (fst p)) ml) =
      let! r := value_of (fold_left Joined (map snd (concat sel)) h) in Done (Pair s (Buf (vt_value P (si_ty s)) r)).
  Proof.
    intros F. induction ml as [|p ml IH]; intros Hl.
    - exists []. split; [constructor|]. intros hd h v E. cbn. rewrite E. reflexivity.
    - inversion Hl; subst. destruct (logged_stream (fst p) (snd p) x s H1 F) as (hs & Hc & Hst).
      destruct (IH H2) as (sel & Hsel & Hrow). exists (hs :: sel). split; [constructor; assumption|].
      intros hd h v E. cbn [map concat]. unfold collect. cbn [ofold]. unfold map_source at 1. rewrite oeval_of_outcome, (Hst h v E).
      rewrite map_app, fold_left_app.
      destruct (value_of (fold_left Joined (map snd hs) h)) as [v1| | |] eqn:Ev; cbn [obind].
      + apply (Hrow hd _ _ Ev).
      + pose proof (stuck_joined (map snd (concat sel)) (fold_left Joined (map snd hs) h)) as G. rewrite Ev in G. rewrite G. reflexivity.
      + pose proof (stuck_joined (map snd (concat sel)) (fold_left Joined (map snd hs) h)) as G. rewrite Ev in G. rewrite G. reflexivity.
      + pose proof (stuck_joined (map snd (concat sel)) (fold_left Joined (map snd hs) h)) as G. rewrite Ev in G. rewrite G. reflexivity.
  Qed.

  (** ** Defaults *)
  Definition dtells (sp : dmap P) (L : forall s : inst P, option (story s)) : Prop := forall s, told s (sp s) (L s).
  Lemma dtells_set sp sp' (L : forall s : inst P, option (story s)) s h v : dtells sp L -> dbinds sp sp' s v -> value_of h = Done v -> dtells sp' (set_default L s h).
  Proof.
    intros T [H1 H2] E s'. unfold set_default. destruct (stat_dec s s') as [Es|N].
    - subst s'. cbn [eq_rect]. rewrite H1. exact E.
    - rewrite H2 by congruence. apply T.
  Qed.
  Lemma dtells_run (l : list (dedit P)) : forall sp sp' L, dtells sp L -> Forall dhonest l -> dspec_run sp (map dmethod l) sp' -> dtells sp' (fold_left dedited l L).
  Proof.
    induction l as [|e l IH]; intros sp sp' L T Hh H; cbn [map fold_left] in *; inversion H; subst; [exact T|].
    inversion Hh; subst. eapply IH; [|eassumption|eassumption].
    destruct e as [s h v|s o]; cbn [dmethod dspec_step dedited dhonest] in *.
    - eapply dtells_set; eassumption.
    - match goal with K : exists v', _ |- _ => destruct K as (v' & Hv & Hb) end.
      eapply dtells_set; [eassumption|exact Hb|]. cbn [value_of]. rewrite (told_default _ _ _ (T s)). exact Hv.
  Qed.

  Lemma dset_other L s s' (h : story s) : s <> s' -> set_default L s h s' = L s'.
  Proof. intros N. unfold set_default. destruct (stat_dec s s') as [->|_]; [congruence|reflexivity]. Qed.
  Lemma dset_same L s (h : story s) : set_default L s h s = Some h.
  Proof.
    unfold set_default. destruct (stat_dec s s) as [E|N]; [|congruence].
    rewrite (UIP_dec (stat_dec (P := P)) E eq_refl). reflexivity.
  Qed.
  Lemma untold (l : list (dedit P)) s : Forall (fun c => call_stat c <> s) (map dmethod l) -> forall L, fold_left dedited l L s = L s.
  Proof.
    induction l as [|c l IH]; intros H L; [reflexivity|]. cbn [map] in H. inversion H; subst. cbn [fold_left]. rewrite (IH H3).
    destruct c as [s0 h v|s0 o]; cbn [dmethod call_stat dedited] in *; apply dset_other; congruence.
  Qed.
  Lemma told_patches (l : list (dedit P)) s : forall L h v v', L s = Some h -> value_of h = Done v -> patched s (map dmethod l) v v' ->
    exists h', fold_left dedited l L s = Some h' /\ value_of h' = Done v'.
  Proof.
    induction l as [|c l IH]; intros L h v v' EL Ev Hp; cbn [map fold_left] in *.
    - inversion Hp; subst. exists h. split; [exact EL|]. exact Ev.
    - assert (K : forall c' l', patched s (c' :: l') v v' ->
                  (call_stat c' <> s /\ patched s l' v v') \/ exists op v1, c' = DPatch s op /\ write_to op v = Done v1 /\ patched s l' v1 v').
      { intros c' l' H. inversion H; subst.
        - left. split; assumption.
        - right. exists op, v1. auto. }
      destruct (K _ _ Hp) as [[N Hp']|(op & v1 & Ec & Ew & Hp')]; clear K.
      + refine (IH _ h v v' _ Ev Hp'). rewrite <- EL.
        destruct c as [s0 h0 v0|s0 o]; cbn [dmethod call_stat dedited] in *; apply dset_other; exact N.
      + destruct c as [s0 h0 v0|s0 o]; cbn [dmethod] in Ec; [discriminate|]. assert (s0 = s) by (injection Ec; congruence). subst s0.
        injection Ec as Ec. apply (inj_pair2_eq_dec _ (stat_dec (P := P))) in Ec. subst op.
        refine (IH _ (Applied h o) v1 v' _ _ Hp').
        * cbn [dedited]. rewrite EL. cbn [so_far]. apply dset_same.
        * cbn [value_of]. rewrite Ev. exact Ew.
  Qed.
  Lemma start_told (l : list (dedit P)) s l1 v l2 v' : Forall dhonest l -> map dmethod l = l1 ++ DInsert s v :: l2 -> (forall w, ~ In (DInsert s w) l2) ->
    patched s l2 v v' -> value_of (start l s) = Done v'.
  Proof.
    intros Hh El Hf Hp. apply map_eq_app in El as (k1 & k2 & -> & <- & E2). destruct k2 as [|c k2]; [discriminate|]. cbn [map] in E2.
    injection E2 as Ec <-. destruct c as [s0 h v0|s0 o]; [|discriminate]. cbn [dmethod] in Ec.
    assert (s0 = s) by (injection Ec; congruence). subst s0. apply (insert_inj D) in Ec. subst v0.
    apply Forall_app in Hh as [_ Hh]. inversion Hh; subst. cbn [dhonest] in *. unfold start. rewrite fold_left_app. cbn [fold_left dedited].
    destruct (told_patches k2 s (set_default (fold_left dedited k1 (fun _ => None)) s h) h v v') as (h' & -> & E'); [apply dset_same|assumption|exact Hp|]. exact E'.
  Qed.

  Variables o_size o_align : vty P -> Z.
  Definition dlog (g : game P Q) : list (dedit P) := match g_defaults g with Some l => l | None => [] end.
  Lemma initial_story (g : game P Q) s : set_up bs o_size o_align g -> fits s ->
    exists v, value_of (start (dlog g) s) = Done v /\ initial (j_world (g_querier g)) s = Done (Buf (vt_value P (si_ty s)) v).
  Proof.
    intros U F. pose proof (u_defaults _ _ _ _ U) as Hd. unfold initial, dlog. rewrite F. cbn [obind].
    destruct (g_defaults g) as [l|], (w_defaults (j_world (g_querier g))) as [d|]; try contradiction.
    - destruct Hd as (Hh & Hi & lost & Hr).
      destruct (C23_any_history_proof P o_size o_align _ d lost s D F Hr) as (A & B & _).
      destruct (three D (map dmethod l) s) as [H0|[H0|(l1 & v & l2 & El & Hf)]]; [|destruct (Hi s H0)|].
      + exists (sv_default (VS s)). rewrite (A H0). split; [|reflexivity].
        unfold start. rewrite (untold l s H0). reflexivity.
      + destruct (B l1 v l2 El Hf) as (v' & Hp & ->). exists v'. split; [|reflexivity].
        apply (start_told l s l1 v l2 v' Hh El Hf Hp).
    - exists (sv_default (VS s)). split; reflexivity.
  Qed.

  (** ** Sources *)
  Definition maps_on (d : entity) (k : holder P Q) : list (map_t P Q * list (edit P Q)) :=
    match k_map k d, k_log k d with Some m, Some l => [(m, l)] | _, _ => [] end.
  Definition maps_for (g : game P Q) (e : entity) (ch : list entity) : list (map_t P Q * list (edit P Q)) :=
    g_global g ++ flat_map (maps_on e) (g_comp g) ++ flat_map (maps_on e) (g_rel g) ++
    flat_map (fun k => flat_map (fun d => maps_on d k) ch) (g_child g).

  Lemma on_holding k e d x : faithful bs k -> on (holding bs k) e d x = map (fun p => map_source x (fst p)) (maps_on d k).
  Proof.
    intros H. specialize (H d). unfold on, holding, maps_on. cbn [c_get c_stream].
    destruct (k_map k d), (k_log k d); try contradiction; reflexivity.
  Qed.
  Lemma log_of_maps k d : faithful bs k -> log_on d k = map snd (maps_on d k) /\ Forall (fun p => logged bs (fst p) (snd p)) (maps_on d k).
  Proof.
    intros H. specialize (H d). unfold log_on, maps_on. destruct (k_map k d), (k_log k d); try contradiction; cbn; auto.
  Qed.
  Lemma row_on ks e d x : Forall (faithful bs) ks ->
    flat_map (fun c => on c e d x) (map (holding bs) ks) = map (fun p => map_source x (fst p)) (flat_map (maps_on d) ks) /\
    flat_map (log_on d) ks = map snd (flat_map (maps_on d) ks) /\
    Forall (fun p => logged bs (fst p) (snd p)) (flat_map (maps_on d) ks).
  Proof.
    intros H. induction H as [|k ks Hk H (I1 & I2 & I3)]; [repeat split; constructor|]. cbn [map flat_map].
    destruct (log_of_maps k d Hk) as [L1 L2].
    rewrite I1, I2, L1, (on_holding k e d x Hk), !map_app. repeat split. apply Forall_app. auto.
  Qed.
  Lemma row_on_children ks e x ch : Forall (faithful bs) ks ->
    flat_map (fun c => flat_map (fun d => on c e d x) ch) (map (holding bs) ks) =
      map (fun p => map_source x (fst p)) (flat_map (fun k => flat_map (fun d => maps_on d k) ch) ks) /\
    flat_map (fun k => flat_map (fun d => log_on d k) ch) ks = map snd (flat_map (fun k => flat_map (fun d => maps_on d k) ch) ks) /\
    Forall (fun p => logged bs (fst p) (snd p)) (flat_map (fun k => flat_map (fun d => maps_on d k) ch) ks).
  Proof.
    intros H. induction H as [|k ks Hk H (I1 & I2 & I3)]; [repeat split; constructor|]. cbn [map flat_map].
    assert (K : flat_map (fun d => on (holding bs k) e d x) ch = map (fun p => map_source x (fst p)) (flat_map (fun d => maps_on d k) ch) /\
                flat_map (fun d => log_on d k) ch = map snd (flat_map (fun d => maps_on d k) ch) /\
                Forall (fun p => logged bs (fst p) (snd p)) (flat_map (fun d => maps_on d k) ch)).
    { clear - Hk. induction ch as [|d ch (J1 & J2 & J3)]; [repeat split; constructor|]. cbn [flat_map].
      destruct (log_of_maps k d Hk) as [L1 L2]. rewrite J1, J2, L1, (on_holding k e d x Hk), !map_app. repeat split. apply Forall_app. auto. }
    destruct K as (K1 & K2 & K3). rewrite I1, I2, K1, K2, !map_app. repeat split. apply Forall_app. auto.
  Qed.
  Lemma game_sources (g : game P Q) e ch x : set_up bs o_size o_align g ->
    stat_sources (g_querier g) e ch x = map (fun p => map_source x (fst p)) (maps_for g e (or_nil ch)) /\
    logs_for g e (or_nil ch) = map snd (maps_for g e (or_nil ch)) /\
    Forall (fun p => logged bs (fst p) (snd p)) (maps_for g e (or_nil ch)).
  Proof.
    intros U. pose proof (u_logs _ _ _ _ U) as Hl. apply Forall_app in Hl as [H1 H23]. apply Forall_app in H23 as [H2 H3].
    unfold stat_sources, logs_for, maps_for. rewrite (u_global _ _ _ _ U), (u_comp _ _ _ _ U), (u_rel _ _ _ _ U), (u_child _ _ _ _ U).
    destruct (row_on _ e e x H1) as (A1 & A2 & A3). destruct (row_on _ e e x H2) as (B1 & B2 & B3). destruct (row_on_children _ e x (or_nil ch) H3) as (C1 & C2 & C3).
    rewrite A1, A2, B1, B2, C1, C2, !map_app, !map_map. repeat split. rewrite !Forall_app. repeat split; auto. apply (u_global_logs _ _ _ _ U).
  Qed.
  Lemma game_kept (g : game P Q) : set_up bs o_size o_align g -> stats_kept (g_querier g).
  Proof.
    intros U e ch x f Hf. destruct (game_sources g e ch x U) as (E & _). rewrite E in Hf. apply in_map_iff in Hf as (p & <- & _).
    intros pr Hp. apply returns_outcome. intros p' Ep. apply (map_stream_keeps _ _ _ _ _ Hp Ep).
  Qed.

  Lemma Forall2_map_l {A B R} (f : A -> B) (T : B -> R -> Prop) l m : Forall2 (fun a => T (f a)) l m -> Forall2 T (map f l) m.
  Proof. intros H. induction H; constructor; assumption. Qed.

  Lemma uncached_answer (g : game P Q) e ch x s : set_up bs o_size o_align g -> fits s -> w_entities (j_world (g_querier g)) e = Some ch ->
    exists sel, Forall2 (chosen s x) (logs_for g e (or_nil ch)) sel /\
    forall n, fst (run (client (uncached (g_querier g)) (S n) (p_query e x s)) []) =
      let! v := value_of (together (stories g s sel)) in Done (Some v).
  Proof.
    intros U F He. destruct (game_sources g e ch x U) as (E & El & Hl). destruct (logged_row x s F _ Hl) as (sel & Hsel & Hrow).
    exists sel. split; [rewrite El; apply Forall2_map_l, Hsel|]. intros n.
    destruct (initial_story g s U F) as (v & Hv & Hi).
    rewrite run_query. unfold fits in F. rewrite F. rewrite (level_uncached (uncached (g_querier g)) (S n)) by reflexivity. rewrite answer_uncached.
    cbn [answer answer1]. rewrite He, Hi. cbn [obind]. rewrite E, (Hrow _ _ _ Hv). unfold together, stories, dlog.
    destruct (value_of (fold_left _ _ _)) as [r| | |]; cbn [obind fst p_buf]; [|reflexivity|reflexivity|reflexivity].
    rewrite cast_val_same. reflexivity.
  Qed.

  Lemma after_same (j : joined P Q) l : j_cached j = false -> after j l [] = [].
  Proof.
    intros Hc. induction l as [|[n p] l IH]; [reflexivity|]. cbn [after].
    rewrite (proj1 (C27_no_resource_proof P Q j n unit p [] Hc)). exact IH.
  Qed.
  Lemma answer_any (g : game P Q) e ch x s past : flags_eq (Q := Q) -> set_up bs o_size o_align g -> fits s -> w_entities (j_world (g_querier g)) e = Some ch ->
    exists sel, Forall2 (chosen s x) (logs_for g e (or_nil ch)) sel /\
    forall n, fst (run (client (g_querier g) (S n) (p_query e x s)) (after (g_querier g) past [])) =
      let! v := value_of (together (stories g s sel)) in Done (Some v).
  Proof.
    intros Hq U F He. destruct (uncached_answer g e ch x s U F He) as (sel & Hs & Hu). exists sel. split; [exact Hs|]. intros n.
    destruct (j_cached (g_querier g)) eqn:Hc.
    - destruct (C27_transparent_proof P Q (g_querier g) past (S n) _ (p_query e x s) D Hq Hc (game_kept g U)) as [H1 H2].
      rewrite Hu in H2. set (o := fst (run (client (g_querier g) (S n) (p_query e x s)) (after (g_querier g) past []))) in *.
      assert (N : forall r, o = r \/ o <> r -> True) by auto. clear N.
      destruct (let! v := value_of (together (stories g s sel)) in Done (Some v)) as [a|p| |] eqn:Ea; try (apply H2; discriminate).
      destruct o as [a|p| |] eqn:Eo; [| | |reflexivity]; (destruct H1 as [m Em]; [discriminate|]; destruct m as [|m];
        [cbn [client] in Em|rewrite Hu in Em; congruence]);
        unfold client, p_query in Em; cbn [interp level check] in Em; rewrite F in Em; discriminate.
    - rewrite after_same by exact Hc. rewrite <- (Hu n). f_equal. f_equal.
      destruct (g_querier g) as [w c a b d]. cbn in Hc. subst c. reflexivity.
  Qed.
End L.
