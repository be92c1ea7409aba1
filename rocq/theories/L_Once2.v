From Coq Require Import ZArith List Bool String Lia PeanoNat Permutation.
From Verif Require Import M_Outcome M_Value M_Qualifier M_Stat M_HashMap M_Pair M_Defaults M_Querier S_Pair S_StatMap S_Querier S_Once L_StatMap3 L_HashMap L_Defaults L_Querier L_Querier2 L_Querier3 L_Querier4 L_Once S_Demo S_DemoQuery L_Demo L_DemoQuery L_DemoQuery2.
Import ListNotations.

Section L.
  Context {P : Prog} {Q : QFlag}.
  Notation PR := (prog P Q).
  Implicit Types j : joined P Q.

  (** ** Acts that do not clear the cache *)
  Fixpoint quiet {A} (m : act P Q A) : Prop :=
    match m with
    | ARet _ | AFail _ => True
    | AGet _ f => forall o, quiet (f o)
    | APut _ _ f => quiet f
    | AClear _ => False
    end.
  Lemma quiet_bind {A B} (m : act P Q A) (f : A -> act P Q B) : quiet m -> (forall a, quiet (f a)) -> quiet (abind m f).
  Proof. intros H Hf. induction m; cbn in *; auto. Qed.
  Lemma quiet_outcome {A} (o : outcome A) : quiet (a_outcome o).
  Proof. destruct o; exact I. Qed.
  Lemma quiet_interp (ha : forall r, act P Q (raw r)) {A} (p : PR A) : (forall r, quiet (ha r)) -> no_wipe p -> quiet (interp true ha p).
  Proof.
    intros H. induction p as [a|o|r q IH|q IH]; cbn [interp no_wipe]; [exact (fun _ => I)|exact (fun _ => I)| |contradiction].
    intros Hw. apply quiet_bind; [apply quiet_outcome|]. intros _. apply quiet_bind; [apply H|]. intros o.
    apply quiet_bind; [apply quiet_outcome|]. intros v. apply IH, Hw.
  Qed.
  Lemma quiet_level j n : j_cached j = true -> never_clears j -> forall r, quiet (level j n r).
  Proof.
    intros Hc Hw. induction n as [|n IH]; intros r; [exact I|]. destruct r as [e x s|f t x s|e a]; cbn [level erased].
    - unfold query_stat_erased. rewrite Hc. destruct (w_entities (j_world j) e) as [ch|]; [|exact I]. cbn [quiet]. intros [b|].
      + apply quiet_bind; [apply quiet_outcome|]. intros a. exact I.
      + apply quiet_bind; [apply quiet_outcome|]. intros b. apply quiet_bind.
        * apply quiet_interp; [exact IH|]. apply (R_stat_body (fun A p => no_wipe p)); [intros; exact I|apply no_wipe_bind|exact Hw].
        * intros p. apply quiet_bind; [apply quiet_outcome|]. intros k. exact I.
    - unfold query_relation_erased. rewrite Hc. destruct (w_entities (j_world j) f) as [cf|]; [|exact I]. destruct (w_entities (j_world j) t) as [ct|]; [|exact I].
      apply quiet_bind; [apply quiet_outcome|]. intros b. apply quiet_bind.
      + apply quiet_interp; [exact IH|]. apply (R_rel_body (fun A p => no_wipe p)); [intros; exact I|apply no_wipe_bind|exact Hw].
      + intros p. exact I.
    - unfold has_attribute_erased. rewrite Hc. apply quiet_interp; [exact IH|].
      apply (R_attr_body (fun A p => no_wipe p)); [intros; exact I|apply no_wipe_bind|exact Hw].
  Qed.
  Lemma quiet_client j n {A} (p : PR A) : j_cached j = true -> never_clears j -> no_wipe p -> quiet (client j n p).
  Proof. intros Hc Hw Hp. unfold client. rewrite Hc. apply quiet_interp; [|exact Hp]. apply quiet_level; assumption. Qed.

  Section Runs.
    Variable V : key P Q -> buffer P -> Prop.
    Lemma run_amid {A} (m : act P Q A) : forall c, quiet m -> amid V m c (missed m c) (fst (run m c)) (snd (run m c)).
    Proof.
      induction m as [a|o|k f IH|k b f IH|f IH]; intros c Hw; cbn [run missed fst snd quiet] in *; [constructor|constructor| | |contradiction].
      - apply (amid_get V k f c (missed (f (hget key_eqb c k)) c)). apply IH, Hw.
      - apply amid_put. apply IH, Hw.
    Qed.
    Hypothesis Hd : distinct_vtables P.
    Hypothesis Hq : flags_eq (Q := Q).
    Lemma by_thread_app i (a b : list (nat * key P Q)) : by_thread i (a ++ b) = by_thread i a ++ by_thread i b.
    Proof. unfold by_thread. rewrite filter_app, map_app. reflexivity. Qed.
    Lemma by_thread_same i (ks : list (key P Q)) : by_thread i (map (fun k => (i, k)) ks) = ks.
    Proof. unfold by_thread. induction ks as [|k ks IH]; cbn; [reflexivity|]. rewrite Nat.eqb_refl. cbn. f_equal. exact IH. Qed.
    Lemma by_thread_other i i' (ks : list (key P Q)) : i' <> i -> by_thread i (map (fun k => (i', k)) ks) = [].
    Proof. intros H. unfold by_thread. induction ks as [|k ks IH]; cbn; [reflexivity|]. destruct (Nat.eqb_spec i' i); [contradiction|exact IH]. Qed.
    Lemma quiet_grows {A} (m m' : act P Q A) c c' : quiet m -> astep m c = Some (m', c') -> quiet m' /\ grows c c'.
    Proof.
      destruct m as [a|o|k f|k b f|f]; cbn; try discriminate; intros Hw E; injection E as <- <-; [| |contradiction].
      - split; [apply Hw|apply grows_refl].
      - split; [exact Hw|apply (grows_put Hd Hq)].
    Qed.
    Lemma logged_amid {A} (s s' : list (act P Q A) * cache P Q) lg (R : list (outcome A -> Prop)) i m m' o :
      logged s lg s' -> Forall2 (fun m R => good V m R) (fst s) R -> Forall quiet (fst s) -> valid V (snd s) ->
      nth_error (fst s) i = Some m -> nth_error (fst s') i = Some m' -> finished m' o ->
      exists c', amid V m (snd s) (by_thread i lg) o c'.
    Proof.
      intros H. revert m. induction H as [s|l1 m0 l2 c m0' c' lg s E _ IH]; intros m Hg Hw Hv Hi Hi' Hf; cbn [fst snd] in *.
      - assert (m' = m) by congruence. subst m'. exists (snd s). destruct m as [a|e|k f|k b f|f]; cbn in Hf; try contradiction; subst o; constructor.
      - apply Forall2_app_inv_l in Hg as (R1 & R2 & H1 & H2 & ->). inversion H2 as [|x y l l' Hgm Hg2]; subst.
        apply Forall_app in Hw as [Hw1 Hw2]. inversion Hw2 as [|x l Hwm Hw3]; subst.
        destruct (good_astep Hd Hq V m0 m0' y c c' Hgm Hv E) as [Hgm' Hv']. destruct (quiet_grows m0 m0' c c' Hwm E) as [Hwm' Hgr].
        assert (Hg' : Forall2 (fun m R => good V m R) (l1 ++ m0' :: l2) (R1 ++ y :: l')) by (apply Forall2_app; [exact H1|constructor; assumption]).
        assert (Hw' : Forall quiet (l1 ++ m0' :: l2)) by (apply Forall_app; split; [exact Hw1|constructor; assumption]).
        specialize (IH) with (1 := Hg') (2 := Hw') (3 := Hv'). rewrite by_thread_app.
        destruct (Nat.eq_dec (List.length l1) i) as [<- |Hn].
        + rewrite nth_error_app2, Nat.sub_diag in Hi by lia. cbn in Hi. injection Hi as <-.
          destruct (IH m0') as [c2 Ha]; [rewrite nth_error_app2, Nat.sub_diag by lia; reflexivity|exact Hi'|exact Hf|].
          exists c2. rewrite by_thread_same. destruct m0 as [a|e|k f|k b f|f]; cbn in E; try discriminate; injection E as <- <-.
          * apply amid_get, Ha.
          * cbn [miss app]. apply amid_put, Ha.
          * contradiction Hwm.
        + destruct (IH m) as [c2 Ha]; [|exact Hi'|exact Hf|].
          { destruct (Nat.lt_ge_cases i (List.length l1)) as [Hl|Hl].
            - rewrite nth_error_app1 in * by exact Hl. exact Hi.
            - rewrite nth_error_app2 in * by exact Hl. destruct (i - List.length l1)%nat eqn:Es; [lia|exact Hi]. }
          exists c2. rewrite by_thread_other by exact Hn. cbn [app]. exact (amid_env V _ _ _ _ _ _ Hgr Hv' Ha).
    Qed.
    Lemma logged_length {A} (s s' : list (act P Q A) * cache P Q) lg : logged s lg s' ->
      List.length (fst s') = List.length (fst s) /\ forall p, In p lg -> fst p < List.length (fst s).
    Proof.
      induction 1 as [s|l1 m l2 c m' c' lg s _ _ [IH1 IH2]]; cbn [fst] in *; [split; [reflexivity|intros p []]|].
      rewrite app_length in *. cbn [List.length] in *. split; [exact IH1|]. intros p Hp. apply in_app_iff in Hp as [Hp|Hp]; [|exact (IH2 p Hp)].
      apply in_map_iff in Hp as (k & <- & _). cbn. lia.
    Qed.
    Lemma times_bound N (lg : list (nat * key P Q)) k : (forall p, In p lg -> fst p < N) -> (forall i, i < N -> NoDup (by_thread i lg)) -> times k lg <= N.
    Proof.
      intros Hb Hn. unfold times. rewrite <- (map_length fst), <- (seq_length N 0). apply NoDup_incl_length.
      - revert Hb Hn. induction lg as [|[i k0] lg IH]; intros Hb Hn; cbn [filter map]; [constructor|].
        assert (Hn' : forall i, i < N -> NoDup (by_thread i lg)).
        { intros i0 Hi. specialize (Hn i0 Hi). unfold by_thread in *. cbn in Hn. destruct (Nat.eqb i i0); [|exact Hn]. cbn in Hn. inversion Hn; assumption. }
        specialize (IH (fun p Hp => Hb p (or_intror Hp)) Hn'). cbn [snd]. destruct (key_eqb k k0) eqn:Ek; [|exact IH]. cbn [map fst]. constructor; [|exact IH].
        apply (key_eqb_ok Hd Hq) in Ek. subst k0. intros Hi. apply in_map_iff in Hi as ([i0 k1] & E & Hi). cbn in E. subst i0.
        apply filter_In in Hi as [Hi Ek]. cbn in Ek. apply (key_eqb_ok Hd Hq) in Ek. subst k1.
        specialize (Hn i (Hb (i, k) (or_introl eq_refl))). unfold by_thread in Hn. cbn in Hn. rewrite Nat.eqb_refl in Hn. cbn in Hn. inversion Hn as [|x l Hx _]; subst.
        apply Hx. apply in_map_iff. exists (i, k). split; [reflexivity|]. apply filter_In. split; [exact Hi|]. cbn. apply Nat.eqb_refl.
      - intros i Hi. apply in_map_iff in Hi as (p & <- & Hi). apply filter_In in Hi as [Hi _]. apply in_seq. specialize (Hb p Hi). lia.
    Qed.
    Lemma miss_nth_shape {A} i : forall (l : list (act P Q A)) c,
      (step_nth i l c = (l, c) /\ (forall m, nth_error l i = Some m -> astep m c = None)) \/
      exists l1 m l2 m' c', l = l1 ++ m :: l2 /\ List.length l1 = i /\ astep m c = Some (m', c') /\ step_nth i l c = (l1 ++ m' :: l2, c') /\ miss_nth i l c = miss m c.
    Proof.
      induction i as [|i IH]; intros [|m l] c; cbn [step_nth miss_nth].
      - left. split; [reflexivity|]. discriminate.
      - destruct (astep m c) as [[m' c']|] eqn:E.
        + right. exists [], m, l, m', c'. repeat split. exact E.
        + left. split; [reflexivity|]. cbn. intros m0 E0. injection E0 as <-. exact E.
      - left. split; [reflexivity|]. discriminate.
      - destruct (IH l c) as [[E H]|(l1 & m0 & l2 & m' & c' & -> & <- & E & E2 & E3)].
        + rewrite E. left. split; [reflexivity|exact H].
        + rewrite E2. right. exists (m :: l1), m0, l2, m', c'. repeat split; assumption.
    Qed.
    Lemma miss_none {A} (m : act P Q A) c : astep m c = None -> miss m c = [].
    Proof. destruct m; cbn; try discriminate; reflexivity. Qed.
    Lemma miss_nth_none {A} i : forall (l : list (act P Q A)) c, (forall m, nth_error l i = Some m -> astep m c = None) -> miss_nth i l c = [].
    Proof. induction i as [|i IH]; intros [|m l] c H; cbn; try reflexivity; [apply miss_none, H; reflexivity|apply IH, H]. Qed.
    Lemma schedule_logged {A} is : forall s : list (act P Q A) * cache P Q, logged s (schedule_log is s) (schedule is s).
    Proof.
      induction is as [|i is IH]; intros [l c]; cbn [schedule schedule_log]; [constructor|]. cbn [fst snd].
      destruct (miss_nth_shape i l c) as [[E H]|(l1 & m & l2 & m' & c' & -> & <- & E & E2 & E3)].
      - rewrite E, (miss_nth_none i l c H). cbn. apply IH.
      - rewrite E3. eapply logged_one; [exact E|]. rewrite E2. apply IH.
    Qed.
  End Runs.
End L.

Lemma C71_once_proof : forall (P : Prog) (Q : QFlag) (j : joined P Q) (l : list (nat * prog P Q unit)) (n : nat) (A : Type) (p : prog P Q A) (o : outcome A) (c' : cache P Q),
  distinct_vtables P -> flags_eq (Q := Q) -> j_cached j = true -> stats_kept j -> never_clears j -> no_wipe p ->
  run (client j n p) (after j l []) = (o, c') -> o <> NoFuel ->
  NoDup (missed (client j n p) (after j l [])) /\
  (forall k, In k (missed (client j n p) (after j l [])) -> hget key_eqb (after j l []) k = None) /\
  (forall a, o = Done a -> forall k, In k (missed (client j n p) (after j l [])) -> hget key_eqb c' k <> None).
Proof.
  intros P Q j l n A p o c' Hd Hq Hc Hk Hw Hp E Ho.
  pose proof (run_amid (right j) (client j n p) (after j l []) (quiet_client j n p Hc Hw Hp)) as H. rewrite E in H. cbn [fst snd] in H.
  destruct (once_client Hd Hq j Hc Hk Hw n p Hp _ _ _ _ H (after_valid Hd Hq j Hc Hk l [] (valid_nil _)) Ho) as (A1 & A2 & A3 & _). auto.
Qed.

Lemma C71_history_proof : forall (P : Prog) (Q : QFlag) (j : joined P Q) (l0 l : list (nat * prog P Q unit)),
  distinct_vtables P -> flags_eq (Q := Q) -> j_cached j = true -> stats_kept j -> never_clears j ->
  Forall (fun t => no_wipe (snd t)) l -> all_done j l (after j l0 []) ->
  NoDup (missed_all j l (after j l0 [])) /\
  (forall k, In k (missed_all j l (after j l0 [])) -> hget key_eqb (after j l0 []) k = None).
Proof.
  intros P Q j l0 l Hd Hq Hc Hk Hw Hl.
  assert (Hv : valid (right j) (after j l0 [])) by (apply (after_valid Hd Hq j Hc Hk); apply valid_nil).
  revert Hv. generalize (after j l0 []). induction Hl as [|[n p] l Hp Hl IH]; intros c Hv Hdone; cbn [missed_all all_done] in *.
  - split; [constructor|intros k []].
  - destruct Hdone as [E Hdone]. cbn [snd] in Hp.
    pose proof (run_amid (right j) (client j n p) c (quiet_client j n p Hc Hw Hp)) as H. rewrite E in H.
    destruct (once_client Hd Hq j Hc Hk Hw n p Hp _ _ _ _ H Hv ltac:(discriminate)) as (A1 & A2 & A3 & _).
    pose proof (amid_grows Hd Hq _ _ _ _ _ _ H) as G.
    destruct (good_run Hd Hq (right j) (client j n p) _ c (client_good j n p Hc Hk) Hv) as [_ Hv'].
    destruct (IH _ Hv' Hdone) as [B1 B2]. split.
    + apply nodup_app; [exact A1|exact B1|]. intros k Hi Hi'. apply (A3 tt eq_refl k Hi). apply B2, Hi'.
    + intros k Hi. apply in_app_iff in Hi as [Hi|Hi]; [exact (A2 k Hi)|]. apply (grows_none _ _ _ G). apply B2, Hi.
Qed.

Lemma C71_hit_proof : forall (P : Prog) (Q : QFlag) (j : joined P Q) n e x s b (c : cache P Q),
  j_cached j = true -> hget key_eqb c (e, x, s) = Some b ->
  missed (client j (S n) (p_query e x s)) c = [] /\ snd (run (client j (S n) (p_query e x s)) c) = c.
Proof.
  intros P Q j n e x s b c Hc Hg.
  assert (L : missed (level j (S n) (RStat e x s)) c = [] /\ snd (run (level j (S n) (RStat e x s)) c) = c).
  { cbn [level erased]. unfold query_stat_erased. rewrite Hc. destruct (w_entities (j_world j) e); [|split; reflexivity].
    cbn [missed run]. rewrite Hg. cbn [app]. destruct (vt_clone P (si_ty s) b); split; reflexivity. }
  assert (B : forall A B (m : act P Q A) (f : A -> act P Q B) c0, missed m c0 = [] -> snd (run m c0) = c0 ->
    (forall a, missed (f a) c0 = [] /\ snd (run (f a) c0) = c0) -> missed (abind m f) c0 = [] /\ snd (run (abind m f) c0) = c0).
  { intros A B m f c0 H1 H2 H3. rewrite run_abind.
    assert (M : missed (abind m f) c0 = missed m c0 ++ match run m c0 with (Done a, c1) => missed (f a) c1 | _ => [] end).
    { clear. revert c0. induction m as [a|o|k g IH|k b g IH|g IH]; intros c0; cbn.
      - reflexivity.
      - destruct o as [[]| | |]; reflexivity.
      - rewrite IH, app_assoc. reflexivity.
      - apply IH.
      - apply IH. }
    rewrite M, H1. cbn [app]. destruct (run m c0) as [[a| | |] c1]; cbn [snd] in *; subst c1; [apply H3|split; reflexivity..]. }
  unfold client, p_query. cbn [interp]. apply B.
  - destruct (check (RStat e x s)); reflexivity.
  - rewrite run_outcome. reflexivity.
  - intros _. destruct L as [L1 L2]. apply B; [exact L1|exact L2|]. intros o. apply B.
    + destruct (typed (RStat e x s) o); reflexivity.
    + rewrite run_outcome. reflexivity.
    + intros v. split; reflexivity.
Qed.

Lemma C71_miss_proof : forall (P : Prog) (Q : QFlag) (j : joined P Q) n e x s (c : cache P Q) v,
  j_cached j = true -> hget key_eqb c (e, x, s) = None ->
  fst (run (client j (S n) (p_query e x s)) c) = Done (Some v) ->
  In (e, x, s) (missed (client j (S n) (p_query e x s)) c).
Proof.
  intros P Q j n e x s c v Hc Hg E. unfold client, p_query in *. rewrite Hc in *. cbn [interp check] in *.
  destruct (validate_ty P (vt_value P (si_ty s))); cbn [a_outcome abind] in *; try discriminate E.
  cbn [level erased] in *. unfold query_stat_erased in *. rewrite Hc in *. destruct (w_entities (j_world j) e) as [ch|]; [|discriminate E].
  cbn [abind missed]. rewrite Hg. left. reflexivity.
Qed.

Lemma C71_threads_proof : forall (P : Prog) (Q : QFlag) (j : joined P Q) (A : Type) (l : list (nat * prog P Q unit)) (ts : list (nat * prog P Q A)) lg ms c,
  distinct_vtables P -> flags_eq (Q := Q) -> j_cached j = true -> stats_kept j -> never_clears j -> Forall (fun t => no_wipe (snd t)) ts ->
  logged (map (fun t => client j (fst t) (snd t)) ts, after j l []) lg (ms, c) ->
  (forall i m o, nth_error ms i = Some m -> finished m o -> o <> NoFuel ->
     NoDup (by_thread i lg) /\ forall k, In k (by_thread i lg) -> hget key_eqb (after j l []) k = None) /\
  ((forall i m, nth_error ms i = Some m -> exists o, finished m o /\ o <> NoFuel) -> forall k, times k lg <= List.length ts).
Proof.
  intros P Q j A l ts lg ms c Hd Hq Hc Hk Hw Hts Hlog.
  assert (Hv : valid (right j) (after j l [])) by (apply (after_valid Hd Hq j Hc Hk); apply valid_nil).
  assert (Hg : Forall2 (fun m R => good (right j) m R) (map (fun t => client j (fst t) (snd t)) ts) (map (fun t => rightly (fun n => ask j n (snd t)) (fst t)) ts)).
  { clear Hlog Hts. induction ts as [|t ts IH]; cbn; constructor; [apply client_good; assumption|exact IH]. }
  assert (Hqu : Forall quiet (map (fun t => client j (fst t) (snd t)) ts)).
  { clear Hlog Hg. induction Hts as [|t ts Ht _ IH]; cbn; constructor; [apply quiet_client; assumption|exact IH]. }
  destruct (logged_length _ _ _ Hlog) as [Hlen Hin]. cbn [fst snd] in Hlen, Hin. rewrite map_length in Hlen, Hin.
  assert (One : forall i m o, nth_error ms i = Some m -> finished m o -> o <> NoFuel ->
     NoDup (by_thread i lg) /\ forall k, In k (by_thread i lg) -> hget key_eqb (after j l []) k = None).
  { intros i m o Hi Hf Ho.
    assert (Hlt : i < List.length ts) by (rewrite <- Hlen; apply nth_error_Some; congruence).
    destruct (nth_error ts i) as [t|] eqn:Et; [|apply nth_error_None in Et; lia].
    pose proof (map_nth_error (fun t => client j (fst t) (snd t)) i ts Et) as Hm.
    destruct (logged_amid (right j) Hd Hq _ _ _ _ i _ m o Hlog Hg Hqu Hv Hm Hi Hf) as [c' Ha]. cbn [snd] in Ha.
    assert (Hp : no_wipe (snd t)) by (rewrite Forall_forall in Hts; apply Hts; eapply nth_error_In; exact Et).
    destruct (once_client Hd Hq j Hc Hk Hw (fst t) (snd t) Hp _ _ _ _ Ha Hv Ho) as (A1 & A2 & _). split; assumption. }
  split; [exact One|]. intros Hall k. apply (times_bound Hd Hq); [exact Hin|]. intros i Hi.
  destruct (nth_error ms i) as [m|] eqn:Em; [|apply nth_error_None in Em; lia].
  destruct (Hall i m Em) as (o & Hf & Ho). exact (proj1 (One i m o Em Hf Ho)).
Qed.

Lemma C71_threads_refuted_proof :
  exists (P : Prog) (Q : QFlag) (j : joined P Q) (A : Type) (ts : list (nat * prog P Q A)) lg ms c k,
    distinct_vtables P /\ flags_eq (Q := Q) /\ j_cached j = true /\ stats_kept j /\ never_clears j /\ Forall (fun t => no_wipe (snd t)) ts /\
    logged (map (fun t => client j (fst t) (snd t)) ts, []) lg (ms, c) /\
    (forall m, In m ms -> exists o, finished m o /\ o <> NoFuel) /\ times k lg = 2%nat.
Proof.
  set (ts := [(3%nat, ask_hp 0%nat any); (3%nat, ask_hp 0%nat any)]).
  set (is := [0; 1; 0; 1; 0; 1; 0; 1; 0; 1; 0; 1]%nat).
  set (s0 := (map (fun t => client (demo_joined true) (fst t) (snd t)) ts, @nil (key demo intQ * buffer demo))).
  pose proof (schedule_logged is s0) as Hl.
  assert (E : see_threads ts (demo_joined true) is = ([Some 4549%Z; Some 4549%Z], 2%nat)) by (vm_compute; reflexivity).
  assert (T : times (0%nat, any, hp) (schedule_log is s0) = 2%nat) by (vm_compute; reflexivity).
  unfold see_threads in E. fold s0 in E. cbv zeta in E.
  destruct (schedule is s0) as [ms c]. cbn [fst snd] in E. injection E as E1 E2.
  exists demo, intQ, (demo_joined true), Z, ts, (schedule_log is s0), ms, c, (0%nat, any, hp).
  split; [exact demo_distinct|]. split; [exact intQ_flags|]. split; [reflexivity|]. split; [apply demo_kept|]. split; [apply demo_no_wipe|].
  split; [repeat constructor; intros v; exact I|]. split; [exact Hl|]. split; [|exact T].
  destruct ms as [|m1 [|m2 [|m3 ms]]]; cbn in E1; try discriminate E1.
  destruct m1 as [a|o|k f|k b f|f]; try discriminate E1. destruct m2 as [a2|o2|k2 f2|k2 b2 f2|f2]; try discriminate E1.
  intros m [<- |[<- |[]]]; eexists; (split; [reflexivity|discriminate]).
Qed.

Lemma C71_swapped_refuted_proof :
  exists (P : Prog) (Q : QFlag) (j : joined P Q) n (p : prog P Q unit) c,
    distinct_vtables P /\ flags_eq (Q := Q) /\ j_cached j = true /\ never_clears j /\ no_wipe p /\
    run (client j n p) [] = (Done tt, c) /\ ~ NoDup (missed (client j n p) []).
Proof.
  exists demo, intQ, (swapping (atk_pair 5) true), 3%nat, (hp_of [0; 0]%nat any), (snd (run (client (swapping (atk_pair 5) true) 3 (hp_of [0; 0]%nat any)) [])).
  split; [exact demo_distinct|]. split; [exact intQ_flags|]. split; [reflexivity|]. split.
  { constructor.
    - intros e ch x f p Hi. unfold stat_sources in Hi. cbn in Hi. destruct (on (swap (atk_pair 5) (tab [(0%nat, tt)])) e e x) as [|g [|]] eqn:Eo; cbn in Hi; rewrite ?app_nil_r in Hi.
      all: revert Eo; unfold on; cbn; destruct (tab [(0%nat, tt)] e); intros Eo; try discriminate Eo.
      + destruct ch as [ch|]; cbn in Hi; contradiction.
      + injection Eo as <-. destruct Hi as [<- |Hi]; [exact I|]. destruct ch as [ch|]; cbn in Hi; contradiction.
    - intros f t x g p Hi. cbn in Hi. contradiction.
    - intros e a p Hi. unfold attr_sources in Hi. cbn in Hi. unfold attr_on in Hi. cbn in Hi. destruct (tab [(0%nat, tt)] e); cbn in Hi.
      + destruct Hi as [<- |Hi]; [exact I|]. exfalso. revert Hi. destruct (w_entities bare_world e) as [[ch|]|]; cbn; tauto.
      + exfalso. revert Hi. destruct (w_entities bare_world e) as [[ch|]|]; cbn; tauto. }
  split; [repeat constructor|]. split.
  - assert (E : fst (run (client (swapping (atk_pair 5) true) 3 (hp_of [0; 0]%nat any)) []) = Done tt) by (vm_compute; reflexivity).
    destruct (run (client (swapping (atk_pair 5) true) 3 (hp_of [0; 0]%nat any)) []). cbn in *. congruence.
  - intros H. assert (E : see_missed (swapping (atk_pair 5) true) 3 (hp_of [0; 0]%nat any) [] = [(0%nat, true); (0%nat, true)]) by (vm_compute; reflexivity).
    assert (T : List.length (filter (fun k => key_eqb (0%nat, any, hp) k) (missed (client (swapping (atk_pair 5) true) 3 (hp_of [0; 0]%nat any)) [])) = 2%nat) by (vm_compute; reflexivity).
    revert H T. generalize (missed (client (swapping (atk_pair 5) true) 3 (hp_of [0; 0]%nat any)) []). clear E. intros l H T.
    apply (NoDup_filter (fun k => key_eqb (0%nat, any, hp) k)) in H.
    assert (Hall : forall k, In k (filter (fun k => key_eqb (0%nat, any, hp) k) l) -> (0%nat, any, hp) = k).
    { intros k Hi. apply filter_In in Hi as [_ Hi]. apply (key_eqb_ok demo_distinct intQ_flags) in Hi. exact Hi. }
    destruct (filter (fun k => key_eqb (0%nat, any, hp) k) l) as [|k1 [|k2 r]]; try discriminate T.
    pose proof (Hall k1 (or_introl eq_refl)) as E1. pose proof (Hall k2 (or_intror (or_introl eq_refl))) as E2. rewrite <- E1, <- E2 in H.
    inversion H as [|a b Hn _]; subst. apply Hn. left. reflexivity.
Qed.
