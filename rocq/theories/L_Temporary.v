(** A removed modifier leaves no trace. *)
From Coq Require Import ZArith List Bool Relations Lia.
From Verif Require Import M_Outcome M_Value M_Qualifier M_Search M_Stat M_StatMap M_HashMap M_Pair M_Registry M_Defaults M_Querier M_Serde
  S_Search S_StatMap S_Pair S_Defaults S_Defaults2 S_Querier S_Totals S_EndToEnd S_Temporary
  L_StatMap L_StatMap2 L_StatMap3 L_StatMap4 L_StatMap5 L_StatMapProofs L_Unwind L_EndToEnd L_EndToEnd2.
Import ListNotations.

Section L.
  Context {P : Prog} {Q : QFlag}.
  Variable bs : list comparison -> bsres.
  Hypothesis C : bs_contract bs.
  Hypothesis D : distinct_vtables P.
  Hypothesis OQ : lawful_ord (q_cmp Q).
  Variables (q : qualifier Q) (s : inst P).

  Definition off_key (a b : tmap P Q) : Prop := forall s' q', (s', q') <> (s, q) -> a s' q' = b s' q'.
  Definition key_dec (s1 s2 : inst P) (q1 q2 : qualifier Q) : {(s1, q1) = (s2, q2)} + {(s1, q1) <> (s2, q2)}.
  Proof.
    destruct (stat_dec s1 s2) as [Es|Ns]; [|right; congruence].
    destruct (qual_cmp q1 q2) eqn:E; [left; apply (qual_eq OQ) in E; congruence|right..]; intros K; injection K as _ K; apply (qual_eq OQ) in K; congruence.
  Defined.

  (** One call, other than those that make an entry under the key. *)
  Lemma spec_off o (a b a' b' : tmap P Q) : ~ places q s o -> off_key a b -> tspec_step a o a' -> tspec_step b o b' -> off_key a' b'.
  Proof.
    intros NP K Ha Hb s' q' N. 
    assert (BB : forall s1 q1 (v w : option (val (VT P (vt_value P (si_ty s1))))), tbinds a a' s1 q1 v -> tbinds b b' s1 q1 w ->
      ((s1, q1) <> (s, q) -> v = w) -> a' s' q' = b' s' q').
    { intros s1 q1 v w [A1 A2] [B1 B2] E. destruct (key_dec s' s1 q' q1) as [Ek|Nk].
      - injection Ek as -> ->. rewrite A1, B1. apply E, N.
      - rewrite (A2 _ _ Nk), (B2 _ _ Nk). apply (K _ _ N). }
    destruct o as [q1 s1 v|q1 s1 v|q1 s1 f|q1 s1|q1 s1 op|q1 s1 f|s1|s1 f| |U l]; cbn [tspec_step] in Ha, Hb.
    - apply (BB s1 q1 _ _ Ha Hb). reflexivity.
    - apply (BB s1 q1 _ _ Ha Hb). reflexivity.
    - destruct (key_dec s1 s q1 q) as [Ek|Nk].
      + injection Ek as -> ->.
        assert (Ga : a' s' q' = a s' q'). { destruct (a s q); [destruct Ha as (v' & _ & _ & H); apply H, N|apply Ha]. }
        assert (Gb : b' s' q' = b s' q'). { destruct (b s q); [destruct Hb as (v' & _ & _ & H); apply H, N|apply Hb]. }
        rewrite Ga, Gb. apply (K _ _ N).
      + rewrite (K s1 q1 Nk) in Ha. destruct (b s1 q1) as [v|].
        * destruct Ha as (v1 & F1 & H1). destruct Hb as (v2 & F2 & H2). apply (BB s1 q1 _ _ H1 H2). intros _. congruence.
        * rewrite Ha, Hb. apply (K _ _ N).
    - apply (BB s1 q1 _ _ Ha Hb). reflexivity.
    - destruct Ha as (v1 & F1 & H1). destruct Hb as (v2 & F2 & H2). apply (BB s1 q1 _ _ H1 H2). intros Nk. rewrite (K s1 q1 Nk) in F1. congruence.
    - destruct Ha as (v1 & F1 & H1). destruct Hb as (v2 & F2 & H2). apply (BB s1 q1 _ _ H1 H2). intros Nk. rewrite (K s1 q1 Nk) in F1. congruence.
    - destruct Ha as [A1 A2]. destruct Hb as [B1 B2]. destruct (stat_dec s' s1) as [->|Ns]; [rewrite A1, B1; reflexivity|]. rewrite (A2 _ _ Ns), (B2 _ _ Ns). apply (K _ _ N).
    - destruct Ha as [A1 A2]. destruct Hb as [B1 B2]. destruct (stat_dec s' s1) as [->|Ns].
      + specialize (A1 q'). specialize (B1 q'). rewrite (K _ _ N) in A1. destruct (b s1 q') as [v|]; [|congruence].
        destruct A1 as (v1 & F1 & ->). destruct B1 as (v2 & F2 & ->). congruence.
      + rewrite (A2 _ _ Ns), (B2 _ _ Ns). apply (K _ _ N).
    - rewrite Ha, Hb. reflexivity.
    - destruct Ha as (A1 & A2 & A3). destruct Hb as (B1 & B2 & B3). destruct s' as [U' i]. cbn [si_ty] in *.
      destruct (sty_dec P U' U) as [->|NU]; [|rewrite (A1 (Inst U' i) q' NU), (B1 (Inst U' i) q' NU); apply (K _ _ N)].
      assert (W : (exists v, In (q', i, v) l) \/ forall v, ~ In (q', i, v) l).
      { clear - OQ. induction l as [|[[q1 i1] v1] l IH]; [right; intros v []|]. destruct IH as [(v & Hv)|IH]; [left; exists v; right; exact Hv|].
        destruct (Z.eq_dec i1 i) as [->|Ni]; [|right; intros v [Ev|Hv]; [injection Ev; intros; congruence|apply (IH v Hv)]].
        destruct (qual_cmp q1 q') eqn:Eq; [left; apply (qual_eq OQ) in Eq; subst; exists v1; left; reflexivity|right..];
          intros v [Ev|Hv]; try apply (IH v Hv); injection Ev as Ev _; apply (qual_eq OQ) in Ev; congruence. }
      destruct W as [(v & Hv)|W]; [rewrite (A3 _ _ _ Hv), (B3 _ _ _ Hv); reflexivity|]. rewrite (A2 _ _ W), (B2 _ _ W). apply (K _ _ N).
  Qed.
  Lemma spec_none o (a a' : tmap P Q) : ~ places q s o -> a s q = None -> tspec_step a o a' -> a' s q = None.
  Proof.
    intros NP H Ha.
    assert (BB : forall s1 q1 (v : option (val (VT P (vt_value P (si_ty s1))))), tbinds a a' s1 q1 v -> ((s, q) <> (s1, q1)) -> a' s q = None).
    { intros s1 q1 v [_ A2] N. rewrite (A2 _ _ N). exact H. }
    destruct o as [q1 s1 v|q1 s1 v|q1 s1 f|q1 s1|q1 s1 op|q1 s1 f|s1|s1 f| |U l]; cbn [tspec_step] in Ha.
    - apply (BB _ _ _ Ha). intros E. apply NP. left. cbn. injection E. auto.
    - apply (BB _ _ _ Ha). intros E. apply NP. left. cbn. injection E. auto.
    - destruct (a s1 q1) as [v|] eqn:E1; [|rewrite Ha; exact H]. destruct Ha as (v' & _ & Ha). apply (BB _ _ _ Ha). intros E. injection E as <- <-. congruence.
    - destruct (key_dec s s1 q q1) as [Ek|Nk]; [injection Ek as <- <-; apply Ha|apply (BB _ _ _ Ha Nk)].
    - destruct Ha as (v' & _ & Ha). apply (BB _ _ _ Ha). intros E. apply NP. left. cbn. injection E. auto.
    - destruct Ha as (v' & _ & Ha). apply (BB _ _ _ Ha). intros E. apply NP. left. cbn. injection E. auto.
    - destruct Ha as [A1 A2]. destruct (stat_dec s s1) as [->|Ns]; [apply A1|rewrite (A2 _ _ Ns); exact H].
    - destruct Ha as [A1 A2]. destruct (stat_dec s s1) as [E|Ns]; [|rewrite (A2 _ _ Ns); exact H]. subst s1. specialize (A1 q). rewrite H in A1. exact A1.
    - apply Ha.
    - destruct Ha as (A1 & A2 & A3). destruct s as [U' i]. destruct (sty_dec P U' U) as [->|NU]; [|rewrite (A1 (Inst U' i) q NU); exact H].
      rewrite A2; [exact H|]. intros v Hv. apply NP. right. exists i, v. auto.
  Qed.
  Lemma spec_kept o (a a' : tmap P Q) : ~ touches q s o -> tspec_step a o a' -> a' s q = a s q.
  Proof.
    intros NT Ha.
    assert (BB : forall s1 q1 (v : option (val (VT P (vt_value P (si_ty s1))))), tbinds a a' s1 q1 v -> ((s, q) <> (s1, q1)) -> a' s q = a s q).
    { intros s1 q1 v [_ A2] N. apply (A2 _ _ N). }
    destruct o as [q1 s1 v|q1 s1 v|q1 s1 f|q1 s1|q1 s1 op|q1 s1 f|s1|s1 f| |U l]; cbn [tspec_step] in Ha.
    - apply (BB _ _ _ Ha). intros E. apply NT. left. left. cbn. injection E. auto.
    - apply (BB _ _ _ Ha). intros E. apply NT. left. left. cbn. injection E. auto.
    - destruct (a s1 q1) as [v|] eqn:E1; [|apply Ha]. destruct Ha as (v' & _ & Ha). apply (BB _ _ _ Ha). intros E. apply NT. right. cbn. injection E. auto.
    - apply (BB _ _ _ Ha). intros E. apply NT. right. cbn. injection E. auto.
    - destruct Ha as (v' & _ & Ha). apply (BB _ _ _ Ha). intros E. apply NT. left. left. cbn. injection E. auto.
    - destruct Ha as (v' & _ & Ha). apply (BB _ _ _ Ha). intros E. apply NT. left. left. cbn. injection E. auto.
    - apply (proj2 Ha). intros E. apply NT. right. cbn. congruence.
    - apply (proj2 Ha). intros E. apply NT. right. cbn. congruence.
    - contradiction NT. right. exact Logic.I.
    - destruct Ha as (A1 & A2 & A3). destruct s as [U' i]. destruct (sty_dec P U' U) as [->|NU]; [|apply (A1 (Inst U' i)); exact NU].
      apply A2. intros v Hv. apply NT. left. right. exists i, v. auto.
  Qed.
  Lemma spec_grant o (a a' : tmap P Q) : grants q s o -> tspec_step a o a' -> off_key a' a.
  Proof.
    intros G Ha. destruct o; cbn [grants] in G; try contradiction; destruct G as [-> ->]; cbn [tspec_step] in Ha;
      first [exact (proj2 Ha)|destruct Ha as (v' & _ & Ha); exact (proj2 Ha)].
  Qed.

  Notation good m := (wf m /\ typed m).
  Lemma go (m m' : map_t P Q) o x : good m -> (forall U k, o = MExtend U k -> fresh (tabs m) U k) -> mop_run bs m o = Done x ->
    good (x_map x) /\ tspec_step (tabs m) o (tabs (x_map x)).
  Proof. intros [W T] F R. destruct (step_correct bs C D OQ m o x W T F R) as (A1 & A2 & A3). auto. Qed.

  (** Runs of the same calls with and without an entry under the key. *)
  Lemma run_off l : forall m n m' n' : map_t P Q, good m -> good n -> off_key (tabs m) (tabs n) -> tabs m s q = None ->
    Forall (fun o => ~ places q s o) l -> fresh_history (tabs m) l -> mops_run bs m l = Done m' -> mops_run bs n l = Done n' ->
    good m' /\ good n' /\ off_key (tabs m') (tabs n') /\ tabs m' s q = None /\ (Forall (fun o => ~ touches q s o) l -> tabs n' s q = tabs n s q).
  Proof.
    induction l as [|o l IH]; intros m n m' n' Gm Gn K H NP F Rm Rn.
    - injection Rm as <-. injection Rn as <-. auto.
    - inversion NP as [|? ? NP1 NP2]; subst. cbn [mops_run] in Rm, Rn.
      destruct (mop_run bs m o) as [x| | |] eqn:Em; cbn [obind] in Rm; try discriminate.
      destruct (mop_run bs n o) as [y| | |] eqn:En; cbn [obind] in Rn; try discriminate.
      apply fresh_cons in F as [F1 F2].
      destruct (go m m' o x Gm F1 Em) as [Gx Sx].
      assert (F1' : forall U k, o = MExtend U k -> fresh (tabs n) U k).
      { intros U k E. destruct (F1 U k E) as [N1 N2]. split; [exact N1|]. intros i q1 v Hv. rewrite <- (N2 i q1 v Hv). symmetry. apply K.
        intros Ek. injection Ek as E1 E2. apply NP1. right. rewrite E. exists i, v. rewrite <- E2. split; [exact Hv|symmetry; exact E1]. }
      destruct (go n n' o y Gn F1' En) as [Gy Sy].
      destruct (IH _ _ _ _ Gx Gy (spec_off o _ _ _ _ NP1 K Sx Sy) (spec_none o _ _ NP1 H Sx) NP2 (F2 _ Sx) Rm Rn) as (A1 & A2 & A3 & A4 & A5).
      repeat (split; [assumption|]). intros NT. inversion NT as [|? ? NT1 NT2]; subst. rewrite (A5 NT2). apply (spec_kept o _ _ NT1 Sy).
  Qed.

  Lemma same_tabs (m1 m2 : map_t P Q) : good m1 -> good m2 -> (forall s q, tabs m1 s q = tabs m2 s q) -> m1 = m2.
  Proof.
    intros [W1 T1] [W2 T2] H.
    assert (I : forall e, In e m1 <-> In e m2).
    { assert (K : forall m m' : map_t P Q, good m -> good m' -> (forall s q, tabs m s q = tabs m' s q) -> forall e, In e m -> In e m').
      { clear - D OQ. intros m m' [W T] [W' T'] H [s q b] He. pose proof T as T0. unfold typed in T0. rewrite Forall_forall in T0.
        destruct (ok_buf_inv P _ _ (T0 _ He)) as (v & Ev & _). cbn [e_stat e_val] in v, Ev. rewrite Ev in *. apply (tabs_some D OQ) in He; [|assumption..].
        rewrite H in He. apply (tabs_some D OQ) in He; assumption. }
      intros e. split; apply K; auto. }
    clear - D OQ W1 W2 I. revert m2 W2 I. unfold wf in *. induction W1 as [|x m1 W1 IH F1]; intros m2 W2 I.
    - destruct m2 as [|y m2]; [reflexivity|]. destruct (proj2 (I y) (or_introl eq_refl)).
    - destruct W2 as [|y m2 W2 F2]; [destruct (proj1 (I x) (or_introl eq_refl))|].
      rewrite Forall_forall in F1, F2.
      assert (irr : forall e : entry P Q (buffer P), entry_cmp e e <> Lt).
      { intros e. rewrite entry_cmp_eq, (kcmp_refl D OQ). discriminate. }
      assert (tr : forall e f : entry P Q (buffer P), entry_cmp e f = Lt -> entry_cmp f e = Lt -> False).
      { intros e f. rewrite !entry_cmp_eq. intros X Y. rewrite (lo_anti _ (kcmp_ord D OQ)), X in Y. discriminate Y. }
      assert (x = y).
      { destruct (proj1 (I x) (or_introl eq_refl)) as [E|Hx]; [congruence|]. destruct (proj2 (I y) (or_introl eq_refl)) as [E|Hy]; [congruence|].
        destruct (tr x y (F1 y Hy) (F2 x Hx)). }
      subst y. f_equal. apply IH; [assumption|]. intros e. split; intros He.
      + destruct (proj1 (I e) (or_intror He)) as [E|]; [|assumption]. subst. destruct (irr e (F1 e He)).
      + destruct (proj2 (I e) (or_intror He)) as [E|]; [|assumption]. subst. destruct (irr e (F2 e He)).
  Qed.

  Lemma fresh_prefix (sp sp1 : tmap P Q) (l1 l2 : list (mop P Q)) : fresh_history sp (l1 ++ l2) -> fresh_history sp l1.
  Proof. intros F k1 U k k2 sp2 -> R. apply (F k1 U k (k2 ++ l2) sp2); [rewrite <- app_assoc; reflexivity|exact R]. Qed.
  Lemma fresh_suffix l1 : forall (sp sp1 : tmap P Q) (l2 : list (mop P Q)), fresh_history sp (l1 ++ l2) -> tspec_run sp l1 sp1 -> fresh_history sp1 l2.
  Proof.
    induction l1 as [|o l1 IH]; intros sp sp1 l2 F R; inversion R; subst; [exact F|]. apply fresh_cons in F as [_ F]. eapply IH; [apply F; eassumption|assumption].
  Qed.
  Lemma tabs_empty (s' : inst P) (q' : qualifier Q) : tabs ([] : map_t P Q) s' q' = None.
  Proof. reflexivity. Qed.

  (** The two histories: up to the grant, and while it lasts. *)
  Lemma while_it_lasts l1 o l2 m1 m2 m m' : grants q s o -> Forall (fun o => ~ places q s o) l2 -> fresh_history empty_tmap (l1 ++ l2) ->
    mops_run bs [] l1 = Done m1 -> m_get bs m1 q s = Done None ->
    mops_run bs [] (l1 ++ [o]) = Done m2 -> mops_run bs [] (l1 ++ l2) = Done m -> mops_run bs [] (l1 ++ o :: l2) = Done m' ->
    good m /\ good m2 /\ good m' /\ off_key (tabs m) (tabs m') /\ tabs m s q = None /\ (Forall (fun o => ~ touches q s o) l2 -> tabs m' s q = tabs m2 s q).
  Proof.
    intros G NP F R1 H R2 R R'. rewrite mops_app, R1 in R2, R, R'. cbn [obind mops_run] in R2, R, R'.
    destruct (mop_run bs m1 o) as [x| | |] eqn:E; cbn [obind] in R2, R'; try discriminate. injection R2 as <-.
    destruct (run_correct bs C D OQ l1 [] m1 wf_nil typed_nil (fresh_prefix _ empty_tmap _ _ F) R1) as (W1 & T1 & S1).
    rewrite (m_get_spec bs C D OQ m1 q s W1 T1) in H. injection H as H.
    assert (NX : forall U k, o = MExtend U k -> fresh (tabs m1) U k) by (intros U k ->; contradiction G).
    destruct (go m1 m1 o x (conj W1 T1) NX E) as [Gx Sx].
    assert (K : off_key (tabs m1) (tabs (x_map x))). { intros s' q' N. symmetry. apply (spec_grant o _ _ G Sx s' q' N). }
    destruct (run_off l2 m1 (x_map x) m m' (conj W1 T1) Gx K H NP (fresh_suffix l1 _ _ _ F S1) R R') as (A1 & A2 & A3 & A4 & A5). auto 8.
  Qed.
End L.

Lemma C78_no_trace_proof :
  forall (P : Prog) (Q : QFlag) (bs : list comparison -> bsres),
  bs_contract bs -> distinct_vtables P -> lawful_ord (q_cmp Q) ->
  forall (q : qualifier Q) (s : inst P) (l1 : list (mop P Q)) o l2 m1 m m',
  grants q s o -> Forall (fun o => ~ places q s o) l2 -> fresh_history empty_tmap (l1 ++ l2) ->
  mops_run bs [] l1 = Done m1 -> m_get bs m1 q s = Done None ->
  mops_run bs [] (l1 ++ l2) = Done m -> mops_run bs [] (l1 ++ o :: l2 ++ [MRemove q s]) = Done m' -> m' = m.
Proof.
  intros P Q bs C D OQ q s l1 o l2 m1 m m' G NP F R1 H R R'.
  replace (l1 ++ o :: l2 ++ [MRemove q s]) with ((l1 ++ o :: l2) ++ [MRemove q s]) in R' by (rewrite <- app_assoc; reflexivity).
  rewrite mops_app in R'. destruct (mops_run bs [] (l1 ++ o :: l2)) as [n| | |] eqn:En; cbn [obind] in R'; try discriminate.
  assert (R2 : exists m2, mops_run bs [] (l1 ++ [o]) = Done m2).
  { rewrite mops_app in En |- *. rewrite R1 in En |- *. cbn [obind mops_run] in En |- *. destruct (mop_run bs m1 o) as [x| | |]; cbn [obind] in En |- *; try discriminate. eexists. reflexivity. }
  destruct R2 as (m2 & R2).
  destruct (while_it_lasts bs C D OQ q s l1 o l2 m1 m2 m n G NP F R1 H R2 R En) as (Gm & _ & Gn & K & Hn & _).
  cbn [mops_run] in R'. destruct (mop_run bs n (MRemove q s)) as [x| | |] eqn:E; cbn [obind] in R'; try discriminate. injection R' as <-.
  destruct (go bs C D OQ n n (MRemove q s) x Gn) as [Gx [B1 B2]]; [intros U k X; discriminate X|exact E|].
  apply (same_tabs D OQ); [exact Gx|exact Gm|]. intros s' q'. destruct (key_dec OQ s' s q' q) as [Ek|Nk].
  - injection Ek as -> ->. rewrite B1, Hn. reflexivity.
  - rewrite (B2 _ _ Nk). symmetry. apply K, Nk.
Qed.

Lemma C78_while_it_lasts_proof :
  forall (P : Prog) (Q : QFlag) (bs : list comparison -> bsres),
  bs_contract bs -> distinct_vtables P -> lawful_ord (q_cmp Q) ->
  forall (q : qualifier Q) (s : inst P) (l1 : list (mop P Q)) o l2 m1 m2 m m',
  grants q s o -> Forall (fun o => ~ places q s o) l2 -> fresh_history empty_tmap (l1 ++ l2) ->
  mops_run bs [] l1 = Done m1 -> m_get bs m1 q s = Done None ->
  mops_run bs [] (l1 ++ [o]) = Done m2 -> mops_run bs [] (l1 ++ l2) = Done m -> mops_run bs [] (l1 ++ o :: l2) = Done m' ->
  (forall q' s', (q', s') <> (q, s) -> m_get bs m' q' s' = m_get bs m q' s') /\
  m_get bs m q s = Done None /\
  (Forall (fun o => ~ touches q s o) l2 -> m_get bs m' q s = m_get bs m2 q s /\ m_removed bs m' q s = m_get bs m2 q s).
Proof.
  intros P Q bs C D OQ q s l1 o l2 m1 m2 m m' G NP F R1 H R2 R R'.
  destruct (while_it_lasts bs C D OQ q s l1 o l2 m1 m2 m m' G NP F R1 H R2 R R') as ([W T] & [W2 T2] & [W' T'] & K & Hn & KK).
  split; [|split].
  - intros q' s' N. rewrite (m_get_spec bs C D OQ _ _ _ W T), (m_get_spec bs C D OQ _ _ _ W' T'). f_equal. symmetry. apply K. congruence.
  - rewrite (m_get_spec bs C D OQ _ _ _ W T). f_equal. exact Hn.
  - intros NT. rewrite (m_get_spec bs C D OQ _ _ _ W' T'), (m_get_spec bs C D OQ _ _ _ W2 T2), (m_removed_spec bs C D OQ _ _ _ W' T'), (KK NT). auto.
Qed.

Lemma C78_returns_proof :
  forall (P : Prog) (Q : QFlag) (bs : list comparison -> bsres),
  bs_contract bs -> distinct_vtables P -> lawful_ord (q_cmp Q) ->
  forall (q : qualifier Q) (s : inst P) (l1 : list (mop P Q)) o l2 m1,
  grants q s o -> Forall (fun o => ~ places q s o) l2 -> fresh_history empty_tmap (l1 ++ l2) ->
  Forall total_mop (l1 ++ o :: l2) -> mops_run bs [] l1 = Done m1 -> m_get bs m1 q s = Done None ->
  exists m, mops_run bs [] (l1 ++ l2) = Done m /\ mops_run bs [] (l1 ++ o :: l2 ++ [MRemove q s]) = Done m.
Proof.
  intros P Q bs C D OQ q s l1 o l2 m1 G NP F HT R1 H. apply Forall_app in HT as [T1 T2]. inversion T2 as [|? ? T3 T4]; subst.
  destruct (C04_total_proof P Q bs C D OQ (l1 ++ l2)) as [m R]; [apply Forall_app; auto|].
  destruct (C04_total_proof P Q bs C D OQ (l1 ++ o :: l2 ++ [MRemove q s])) as [m' R'].
  { apply Forall_app. split; [exact T1|]. constructor; [exact T3|]. apply Forall_app. split; [exact T4|]. repeat constructor. }
  exists m. split; [exact R|]. rewrite R'. f_equal. eapply (C78_no_trace_proof P Q bs C D OQ q s l1 o l2 m1 m m'); eassumption.
Qed.
