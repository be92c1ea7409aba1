From Coq Require Import ZArith Arith List Bool Lia Sorted Permutation.
From Verif Require Import M_Outcome M_Value M_Qualifier M_Search M_Stat M_StatMap
  S_Search S_StatMap L_Outcome L_Search L_StatMap.
Import ListNotations.

Section Map.
  Context {P : Prog} {Q : QFlag} {V : Type}.
  Variable bs : list comparison -> bsres.
  Hypothesis C : bs_contract bs.
  Hypothesis D : distinct_vtables P.
  Hypothesis OQ : lawful_ord (q_cmp Q).
  Notation entry := (entry P Q V).
  Notation statmap := (statmap P Q V).
  Notation kcmp := (@kcmp P Q).

  Lemma inst_refl (s : inst P) : inst_cmp s s = Eq.
  Proof. apply (lo_eq _ (inst_ord P D)). reflexivity. Qed.

  (** Lookups of a stat outside its part of the vector. *)
  Lemma absf_stat_none (m : statmap) s q : Forall (fun e => inst_cmp (e_stat e) s <> Eq) m -> absf m s q = None.
  Proof.
    intros H. apply absf_none. eapply Forall_impl; [|exact H]. intros e He E. cbn in He.
    unfold L_StatMap.kcmp, lex in E. cbn in E. destruct (inst_cmp (e_stat e) s); congruence.
  Qed.
  Lemma absf_stat_lt (m : statmap) s q : Forall (fun e => inst_cmp (e_stat e) s = Lt) m -> absf m s q = None.
  Proof. intros H. apply absf_stat_none. eapply Forall_impl; [|exact H]. cbn; intros; congruence. Qed.
  Lemma absf_stat_gt (m : statmap) s q : Forall (fun e => inst_cmp (e_stat e) s = Gt) m -> absf m s q = None.
  Proof. intros H. apply absf_stat_none. eapply Forall_impl; [|exact H]. cbn; intros; congruence. Qed.
  Lemma absf_stat_other (m : statmap) s s' q : s' <> s -> Forall (fun e => e_stat e = s) m -> absf m s' q = None.
  Proof.
    intros N H. apply absf_stat_none. eapply Forall_impl; [|exact H]. cbn. intros e -> E.
    apply (lo_eq _ (inst_ord P D)) in E. auto.
  Qed.

  Lemma absf_mid a b c s q :
    Forall (fun e : entry => inst_cmp (e_stat e) s = Lt) a -> Forall (fun e : entry => inst_cmp (e_stat e) s = Gt) c ->
    absf (a ++ b ++ c) s q = absf b s q.
  Proof.
    intros Ha Hc. rewrite !absf_app, (absf_stat_lt a s q Ha), (absf_stat_gt c s q Hc). destruct (absf b s q); reflexivity.
  Qed.
  Lemma absf_other a b b' c s s' q : s' <> s ->
    Forall (fun e : entry => e_stat e = s) b -> Forall (fun e : entry => e_stat e = s) b' ->
    absf (a ++ b' ++ c) s' q = absf (a ++ b ++ c) s' q.
  Proof. intros N Hb Hb'. rewrite !absf_app, (absf_stat_other b s s' q N Hb), (absf_stat_other b' s s' q N Hb'). reflexivity. Qed.

  (** ** slice, iter *)
  Lemma slice_spec (m : statmap) s : wf m -> exists b, slice bs m s = Done b /\
    wf b /\ Forall (fun e => e_stat e = s) b /\ (forall q v, In (Entry s q v) b <-> absf m s q = Some v) /\
    (forall q, absf b s q = absf m s q).
  Proof.
    intros W. destruct (cut_spec bs C D m s (wf_sorted m W)) as [a [b [c [-> [E [Ha [Hb Hc]]]]]]].
    exists b. unfold slice. rewrite E. split; [reflexivity|].
    assert (Wb : wf b).
    { apply StronglySorted_app in W as [_ [W _]]. apply StronglySorted_app in W as [W _]. exact W. }
    split; [exact Wb|]. split; [exact Hb|]. split.
    - intros q v. rewrite absf_mid by assumption. symmetry. apply absf_some; assumption.
    - intros q. symmetry. apply absf_mid; assumption.
  Qed.
  (** The slice is the sub-list of that stat, in order. *)
  Lemma slice_filter (m : statmap) s : sorted m ->
    slice bs m s = Done (filter (fun e => inst_eqb (e_stat e) s) m).
  Proof.
    intros W. destruct (cut_spec bs C D m s W) as [a [b [c [-> [E [Ha [Hb Hc]]]]]]].
    unfold slice. rewrite E. cbn. f_equal. rewrite !filter_app.
    assert (IE : forall x y : inst P, inst_eqb x y = match inst_cmp x y with Eq => true | _ => false end).
    { intros [t i] [u j]. unfold inst_eqb, inst_cmp; cbn. destruct (Z.compare_spec (vt_addr P t) (vt_addr P u)).
      - rewrite H, Z.eqb_refl, andb_true_r. destruct (Z.compare_spec i j); [subst; apply Z.eqb_refl| |]; apply Z.eqb_neq; lia.
      - rewrite (proj2 (Z.eqb_neq (vt_addr P t) (vt_addr P u))) by lia. apply andb_false_r.
      - rewrite (proj2 (Z.eqb_neq (vt_addr P t) (vt_addr P u))) by lia. apply andb_false_r. }
    assert (F : forall l, Forall (fun e : entry => inst_cmp (e_stat e) s <> Eq) l -> filter (fun e => inst_eqb (e_stat e) s) l = []).
    { induction 1 as [|e l He Hl IH]; cbn; [reflexivity|]. rewrite IE. destruct (inst_cmp (e_stat e) s); congruence. }
    rewrite (F a), (F c).
    - rewrite app_nil_l, app_nil_r. symmetry. clear E W. induction Hb as [|e l He Hl IH]; cbn [filter]; [reflexivity|].
      rewrite IE, He, inst_refl, IH. reflexivity.
    - eapply Forall_impl; [|exact Hc]. cbn; intros; congruence.
    - eapply Forall_impl; [|exact Ha]. cbn; intros; congruence.
  Qed.
  Lemma wf_quals (b : statmap) s : wf b -> Forall (fun e => e_stat e = s) b ->
    StronglySorted (fun x y => qual_cmp x y = Lt) (map e_qual b).
  Proof.
    unfold wf. induction 1 as [|e b W IH HF]; intros Hs; cbn; constructor.
    - apply IH. inversion Hs; assumption.
    - inversion Hs; subst. rewrite Forall_forall in *. intros q Hq. apply in_map_iff in Hq as [x [<- Hx]].
      specialize (HF x Hx). unfold entry_cmp, key_cmp in HF. rewrite (H2 x Hx), inst_refl in HF. exact HF.
  Qed.

  (** ** iter_mut *)
  Lemma update_each_keys f (b b' : statmap) : update_each f b = Done b' -> map ekey b' = map ekey b.
  Proof.
    revert b'. induction b as [|e b IH]; cbn; intros b' H; [inversion H; reflexivity|].
    destruct (f (e_qual e) (e_val e)) as [v|p| |]; try discriminate. cbn in H.
    destruct (update_each f b) as [r|p| |]; try discriminate. inversion H; subst. cbn. rewrite (IH r eq_refl). reflexivity.
  Qed.
  Lemma update_each_absf f (b b' : statmap) s : update_each f b = Done b' -> Forall (fun e => e_stat e = s) b ->
    forall q, match absf b s q with
              | None => absf b' s q = None
              | Some v => exists v', f q v = Done v' /\ absf b' s q = Some v'
              end.
  Proof.
    revert b'. induction b as [|e b IH]; cbn; intros b' H Hs q; [inversion H; reflexivity|].
    destruct (f (e_qual e) (e_val e)) as [v|p| |] eqn:F; try discriminate. cbn in H.
    destruct (update_each f b) as [r|p| |]; try discriminate. inversion H; subst. inversion Hs; subst.
    rewrite !absf_cons. unfold ekey; cbn. destruct (kcmp (e_stat e, e_qual e) (e_stat e, q)) eqn:E.
    - apply (lo_eq _ (kcmp_ord D OQ)) in E. inversion E; subst. eauto.
    - apply (IH r eq_refl). assumption.
    - apply (IH r eq_refl). assumption.
  Qed.
  Lemma update_each_ids {I} (g : V -> I) f (b b' : statmap) : (forall q v v', f q v = Done v' -> g v' = g v) ->
    update_each f b = Done b' -> map (fun e => g (e_val e)) b' = map (fun e => g (e_val e)) b.
  Proof.
    intros Hg. revert b'. induction b as [|e b IH]; cbn; intros b' H; [inversion H; reflexivity|].
    destruct (f (e_qual e) (e_val e)) as [v|p| |] eqn:F; try discriminate. cbn in H.
    destruct (update_each f b) as [r|p| |]; try discriminate. inversion H; subst. cbn. rewrite (IH r eq_refl), (Hg _ _ _ F). reflexivity.
  Qed.
  Lemma update_each_total f (b : statmap) : (forall q v, exists v', f q v = Done v') -> exists b', update_each f b = Done b'.
  Proof.
    intros H. induction b as [|e b [b' IH]]; cbn; [eauto|]. destruct (H (e_qual e) (e_val e)) as [v ->]. cbn. rewrite IH. cbn. eauto.
  Qed.
  Lemma keys_wf (m m' : statmap) : map ekey m' = map ekey m -> wf m -> wf m'.
  Proof.
    unfold wf. revert m'. induction m as [|e m IH]; intros [|e' m'] E W; try discriminate; [constructor|].
    assert (E1 : ekey e' = ekey e) by (apply (f_equal (hd (ekey e))) in E; exact E).
    assert (E2 : map ekey m' = map ekey m) by (apply (f_equal (@tl _)) in E; exact E).
    inversion W as [|? ? W1 W2]; subst. constructor; [apply IH; assumption|].
    rewrite Forall_forall in *. intros x Hx. apply (in_map ekey) in Hx. rewrite E2 in Hx. apply in_map_iff in Hx as [y [Ey Hy]].
    rewrite entry_cmp_eq, E1, <- Ey, <- entry_cmp_eq. apply W2, Hy.
  Qed.
  Lemma keys_stat (b b' : statmap) s : map ekey b' = map ekey b -> Forall (fun e => e_stat e = s) b -> Forall (fun e => e_stat e = s) b'.
  Proof.
    revert b'. induction b as [|e b IH]; intros [|e' b']; cbn; intros E W; try discriminate; constructor.
    - inversion E. inversion W; subst. congruence.
    - inversion E. inversion W; subst. auto.
  Qed.

  Lemma update_slice_spec (m : statmap) s f m' : wf m -> update_slice bs m s f = Done m' -> wf m' /\
    (forall q, match absf m s q with
               | None => absf m' s q = None
               | Some v => exists v', f q v = Done v' /\ absf m' s q = Some v'
               end) /\
    (forall s' q, s' <> s -> absf m' s' q = absf m s' q) /\
    (forall I (g : V -> I), (forall q v v', f q v = Done v' -> g v' = g v) ->
       map (fun e => g (e_val e)) m' = map (fun e => g (e_val e)) m).
  Proof.
    intros W. destruct (cut_spec bs C D m s (wf_sorted m W)) as [a [b [c [-> [E [Ha [Hb Hc]]]]]]].
    unfold update_slice. rewrite E. cbn. destruct (update_each f b) as [b'|p| |] eqn:F; cbn; intros H; inversion H; subst.
    pose proof (update_each_keys _ _ _ F) as K. pose proof (keys_stat _ _ _ K Hb) as Hb'.
    split; [|split; [|split]].
    - eapply keys_wf; [|exact W]. rewrite !map_app, K. reflexivity.
    - intros q. rewrite !absf_mid by assumption. apply (update_each_absf f b b' s F Hb).
    - intros s' q N. apply (absf_other a b b' c s s' q N Hb Hb').
    - intros I g Hg. rewrite !map_app, (update_each_ids g f b b' Hg F). reflexivity.
  Qed.

  (** ** remove_all *)
  Lemma drain_spec (m : statmap) s : wf m -> exists m' d, drain bs m s = Done (m', d) /\ wf m' /\
    (forall q, absf m' s q = None) /\ (forall s' q, s' <> s -> absf m' s' q = absf m s' q) /\
    (forall I (g : V -> I), Permutation (map (fun e => g (e_val e)) m) (map (fun e => g (e_val e)) m' ++ map g d)) /\
    (forall v, In v d <-> exists q, absf m s q = Some v).
  Proof.
    intros W. destruct (cut_spec bs C D m s (wf_sorted m W)) as [a [b [c [-> [E [Ha [Hb Hc]]]]]]].
    unfold drain. rewrite E. cbn. eexists _, _. split; [reflexivity|].
    pose proof W as W0. apply StronglySorted_app in W as [W1 [W2 W3]]. apply StronglySorted_app in W2 as [W2 [W4 W5]].
    split; [|split; [|split; [|split]]].
    - apply StronglySorted_app. repeat split; auto. intros x y Hx Hy. apply W3; [exact Hx|apply in_or_app; right; exact Hy].
    - intros q. change (a ++ c) with (a ++ [] ++ c). rewrite absf_mid by assumption. reflexivity.
    - intros s' q N. apply (absf_other a b [] c s s' q N Hb). constructor.
    - intros I g. rewrite !map_app, map_map, <- app_assoc. apply Permutation_app_head. apply Permutation_app_comm.
    - intros v. rewrite in_map_iff. split.
      + intros [e [<- He]]. exists (e_qual e). rewrite absf_mid by assumption. apply absf_some; [exact D|exact OQ|exact W2|].
        rewrite Forall_forall in Hb. specialize (Hb e He). subst s. destruct e; exact He.
      + intros [q Hq]. rewrite absf_mid in Hq by assumption. apply absf_some in Hq; [|exact D|exact OQ|exact W2].
        exists (Entry s q v). split; [reflexivity|exact Hq].
  Qed.

  (** ** One operation *)
  Lemma binds_neq (sp sp' : smap P Q V) s q o : binds sp sp' s q o -> binds sp sp' s q o. Proof. auto. Qed.

  Lemma cop_correct (m : statmap) o x : wf m -> single o -> cop_run bs m o = Done x ->
    wf (x_map x) /\ spec_step (absf m) o (x_returned x) (absf (x_map x)).
  Proof.
    intros W S R. destruct o as [q s v|q s f|q s f d|q s|s|s f| |l]; cbn in R.
    - destruct v as [v|p| |]; try discriminate. cbn in R.
      destruct (put_spec bs C D OQ m q s v W) as [m' [E [W' [B _]]]]. rewrite E in R. cbn in R. inversion R; subst. cbn.
      split; [exact W'|]. split; [reflexivity|]. eauto.
    - pose proof (update_spec bs C D OQ m q s f W) as H. cbn. destruct (absf m s q) as [v|].
      + destruct (f v) as [v'|p| |] eqn:F; [|rewrite H in R; discriminate..].
        destruct H as [m' [E [W' [B _]]]]. rewrite E in R. cbn in R. inversion R; subst. cbn. eauto 6.
      + rewrite H in R. cbn in R. inversion R; subst. cbn. split; [exact W|]. split; [reflexivity|]. intros s' q'. reflexivity.
    - pose proof (upsert_spec bs C D OQ m q s f d W) as H. cbn.
      destruct (match absf m s q with Some v => f v | None => d end) as [v'|p| |] eqn:F; [|rewrite H in R; discriminate..].
      destruct H as [m' [E [W' [B _]]]]. rewrite E in R. cbn in R. inversion R; subst. cbn. eauto 6.
    - destruct (take_spec bs C D OQ m q s W) as [m' [E [W' [B _]]]]. rewrite E in R. cbn in R. inversion R; subst. cbn. eauto.
    - destruct (drain_spec m s W) as [m' [d [E [W' [B1 [B2 _]]]]]]. rewrite E in R. cbn in R. inversion R; subst. cbn. eauto.
    - destruct (update_slice bs m s f) as [m'|p| |] eqn:E; try discriminate. cbn in R. inversion R; subst. cbn.
      destruct (update_slice_spec m s f m' W E) as [W' [B1 [B2 _]]]. eauto.
    - inversion R; subst. cbn. split; [constructor|]. split; reflexivity.
    - destruct S.
  Qed.

  Lemma cop_total (m : statmap) o : wf m -> total_op o -> exists x, cop_run bs m o = Done x.
  Proof.
    intros W T. destruct o as [q s v|q s f|q s f d|q s|s|s f| |l]; cbn in *.
    - destruct T as [x ->]. cbn. destruct (put_spec bs C D OQ m q s x W) as [m' [-> _]]. cbn. eauto.
    - pose proof (update_spec bs C D OQ m q s f W) as H. destruct (absf m s q) as [v|]; [|rewrite H; cbn; eauto].
      destruct (T v) as [v' F]. rewrite F in H. destruct H as [m' [-> _]]. cbn. eauto.
    - destruct T as [T1 [x T2]]. pose proof (upsert_spec bs C D OQ m q s f d W) as H.
      destruct (absf m s q) as [v|].
      + destruct (T1 v) as [v' F]. rewrite F in H. destruct H as [m' [-> _]]. cbn. eauto.
      + subst d. destruct H as [m' [-> _]]. cbn. eauto.
    - destruct (take_spec bs C D OQ m q s W) as [m' [-> _]]. cbn. eauto.
    - destruct (drain_spec m s W) as [m' [d [-> _]]]. cbn. eauto.
    - unfold update_slice. destruct (cut_spec bs C D m s (wf_sorted m W)) as [a [b [c [_ [-> _]]]]]. cbn.
      destruct (update_each_total f b T) as [b' ->]. cbn. eauto.
    - eauto.
    - destruct T as [x ->]. cbn. eauto.
  Qed.

  (** ** Histories *)
  Lemma spec_step_ext (sp sp1 sp' : smap P Q V) o out :
    (forall s q, sp s q = sp1 s q) -> spec_step sp o out sp' -> spec_step sp1 o out sp'.
  Proof.
    intros E. destruct o; cbn; unfold binds, unchanged.
    - intros [H1 [x [H2 [H3 H4]]]]. split; [exact H1|]. exists x. split; [exact H2|]. split; [exact H3|]. intros. rewrite <- E. auto.
    - rewrite E. destruct (sp1 s q).
      + intros [H1 [x [H2 [H3 H4]]]]. split; [exact H1|]. exists x. split; [exact H2|]. split; [exact H3|]. intros. rewrite <- E. auto.
      + intros [H1 H2]. split; [exact H1|]. intros. rewrite H2. apply E.
    - rewrite E. intros [H1 [x [H2 [H3 H4]]]]. split; [exact H1|]. exists x. split; [exact H2|]. split; [exact H3|]. intros. rewrite <- E. auto.
    - rewrite E. intros [H1 [H3 H4]]. split; [exact H1|]. split; [exact H3|]. intros. rewrite <- E. auto.
    - intros [H1 [H3 H4]]. split; [exact H1|]. split; [exact H3|]. intros. rewrite <- E. auto.
    - intros [H1 [H3 H4]]. split; [exact H1|]. split; [intros q; rewrite <- E; apply H3|]. intros. rewrite <- E. auto.
    - auto.
    - auto.
  Qed.
  Lemma cops_correct l : forall (m : statmap) m' outs, wf m -> Forall single l -> cops_run bs m l = Done (m', outs) ->
    wf m' /\ spec_run (absf m) l (map (@x_returned P Q V) outs) (absf m').
  Proof.
    induction l as [|o l IH]; intros m m' outs W S R; cbn in R.
    - inversion R; subst. split; [exact W|]. constructor. intros s q. reflexivity.
    - inversion S; subst. destruct (cop_run bs m o) as [x|p| |] eqn:E; try discriminate. cbn in R.
      destruct (cops_run bs (x_map x) l) as [[m2 outs2]|p| |] eqn:E2; try discriminate. cbn in R. inversion R; subst.
      destruct (cop_correct m o x W H1 E) as [W1 S1].
      destruct (IH _ _ _ W1 H2 E2) as [W2 S2]. split; [exact W2|]. cbn [map]. econstructor; eauto.
  Qed.
  Lemma cops_total l : forall m : statmap, wf m -> Forall single l -> Forall total_op l -> exists r, cops_run bs m l = Done r.
  Proof.
    induction l as [|o l IH]; intros m W S T; cbn; [eauto|]. inversion S; subst. inversion T; subst.
    destruct (cop_total m o W H3) as [x E]. rewrite E. cbn.
    destruct (cop_correct m o x W H1 E) as [W1 _]. destruct (IH (x_map x) W1 H2 H4) as [r ->]. cbn. eauto.
  Qed.
  (** Every abstract run is determined by its start and its operations. *)
  Lemma represents_run (m : statmap) sp : wf m -> represents m sp -> forall l outs sp', spec_run (absf m) l outs sp' -> spec_run sp l outs sp'.
  Proof.
    intros W R l outs sp' H. pose proof (represents_eq D OQ m sp W R) as E.
    inversion H; subst.
    - constructor. intros s q. rewrite H0. symmetry. apply E.
    - econstructor; [|eassumption]. eapply spec_step_ext; [|eassumption]. intros. symmetry. apply E.
  Qed.
  Lemma history_correct l (m0 m : statmap) sp0 outs : wf m0 -> represents m0 sp0 -> Forall single l ->
    cops_run bs m0 l = Done (m, outs) ->
    exists sp, spec_run sp0 l (map (@x_returned P Q V) outs) sp /\ wf m /\ represents m sp /\
      (forall q s, find bs m q s = Done (sp s q)).
  Proof.
    intros W R S H. destruct (cops_correct l m0 m outs W S H) as [W' H'].
    exists (absf m). split; [exact (represents_run m0 sp0 W R l _ _ H')|]. split; [exact W'|]. split; [apply absf_represents; assumption|].
    intros q s. apply find_spec; assumption.
  Qed.

  (** ** Sorting *)
  Lemma sort_insert_perm (e : entry) l : Permutation (sort_insert e l) (e :: l).
  Proof.
    induction l as [|x l IH]; cbn; [reflexivity|]. destruct (entry_cmp e x); try reflexivity.
    rewrite IH. apply perm_swap.
  Qed.
  Lemma sort_perm (l : statmap) : Permutation (sort l) l.
  Proof. unfold sort. induction l as [|e l IH]; cbn; [reflexivity|]. rewrite sort_insert_perm, IH. reflexivity. Qed.
  Lemma entry_cmp_trans (a b c : entry) : entry_cmp a b <> Gt -> entry_cmp b c <> Gt -> entry_cmp a c <> Gt.
  Proof.
    rewrite !entry_cmp_eq. pose proof (@kcmp_ord P Q D OQ) as O. intros H1 H2.
    destruct (kcmp (ekey a) (ekey b)) eqn:E1; [apply (lo_eq _ O) in E1; rewrite E1; exact H2| |congruence].
    destruct (kcmp (ekey b) (ekey c)) eqn:E2; [apply (lo_eq _ O) in E2; rewrite <- E2; congruence| |congruence].
    rewrite (lo_trans _ O _ _ _ E1 E2). discriminate.
  Qed.
  Lemma sort_insert_sorted (e : entry) l : sorted l -> sorted (sort_insert e l).
  Proof.
    unfold sorted. induction 1 as [|x l S IH HF]; cbn; [repeat constructor|].
    destruct (entry_cmp e x) eqn:E.
    - constructor; [constructor; assumption|]. constructor; [congruence|].
      rewrite Forall_forall in *. intros y Hy. apply (entry_cmp_trans e x y); [congruence|auto].
    - constructor; [constructor; assumption|]. constructor; [congruence|].
      rewrite Forall_forall in *. intros y Hy. apply (entry_cmp_trans e x y); [congruence|auto].
    - constructor; [exact IH|].
      eapply Permutation_Forall; [symmetry; apply sort_insert_perm|]. constructor; [|exact HF].
      rewrite entry_cmp_eq in *. rewrite (lo_anti _ (@kcmp_ord P Q D OQ) (ekey e) (ekey x)), E. discriminate.
  Qed.
  Lemma sort_sorted (l : statmap) : sorted (sort l).
  Proof. unfold sort. induction l; cbn; [constructor|apply sort_insert_sorted; assumption]. Qed.
  Lemma sorted_nodup_wf (m : statmap) : sorted m -> NoDup (map ekey m) -> wf m.
  Proof.
    unfold sorted, wf. induction 1 as [|x l S IH HF]; cbn; intros N; constructor; inversion N; subst; auto.
    rewrite Forall_forall in *. intros y Hy. specialize (HF y Hy). rewrite entry_cmp_eq in *.
    destruct (kcmp (ekey x) (ekey y)) eqn:E; [|reflexivity|congruence].
    apply (lo_eq _ (@kcmp_ord P Q D OQ)) in E. exfalso. apply H1. rewrite E. apply in_map, Hy.
  Qed.
  (** Stability: entries of the same key keep their order. *)
  Lemma sort_insert_filter k (e : entry) l : sorted l ->
    filter (fun x => match kcmp (ekey x) k with Eq => true | _ => false end) (sort_insert e l) =
    filter (fun x => match kcmp (ekey x) k with Eq => true | _ => false end) (e :: l).
  Proof.
    unfold sorted. induction 1 as [|x l S IH HF]; cbn [sort_insert]; [reflexivity|].
    destruct (entry_cmp e x) eqn:E; try reflexivity.
    cbn [filter] in *. rewrite IH. destruct (kcmp (ekey x) k) eqn:E1; try reflexivity.
    destruct (kcmp (ekey e) k) eqn:E2; try reflexivity.
    apply (lo_eq _ (@kcmp_ord P Q D OQ)) in E1, E2. rewrite entry_cmp_eq, E1, E2, (@kcmp_refl P Q D OQ) in E. discriminate.
  Qed.
  Lemma sort_filter k (l : statmap) :
    filter (fun x => match kcmp (ekey x) k with Eq => true | _ => false end) (sort l) =
    filter (fun x => match kcmp (ekey x) k with Eq => true | _ => false end) l.
  Proof.
    unfold sort. induction l as [|e l IH]; cbn [fold_right]; [reflexivity|].
    rewrite sort_insert_filter by apply sort_sorted. cbn [filter]. rewrite IH. reflexivity.
  Qed.

  (** ** Bulk construction with distinct keys *)
  Lemma extend_distinct (m l : statmap) : NoDup (map ekey (m ++ l)) -> wf (extend m l) /\
    (forall s q v, In (Entry s q v) (extend m l) <-> In (Entry s q v) m \/ In (Entry s q v) l).
  Proof.
    intros N. unfold extend. split.
    - apply sorted_nodup_wf; [apply sort_sorted|]. eapply Permutation_NoDup; [|exact N]. apply Permutation_map. symmetry. apply sort_perm.
    - intros s q v. rewrite <- in_app_iff. split; apply Permutation_in; [apply sort_perm|symmetry; apply sort_perm].
  Qed.

  (** ** Ownership *)
  Definition ids {I} (g : V -> I) (m : statmap) : list I := map (fun e => g (e_val e)) m.
  (** In-place changes keep the identity of the value. *)
  Definition keeps {I} (g : V -> I) (o : cop P Q V) : Prop :=
    match o with
    | CUpdate _ _ f | CUpsert _ _ f _ => forall v v', f v = Done v' -> g v' = g v
    | CUpdateSlice _ f => forall q v v', f q v = Done v' -> g v' = g v
    | _ => True
    end.
  Definition olist {A} (o : option A) : list A := match o with Some a => [a] | None => [] end.

  Lemma cop_owned {I} (g : V -> I) (m : statmap) o x : wf m -> keeps g o -> cop_run bs m o = Done x ->
    Permutation (map g (x_in x) ++ ids g m)
      (ids g (x_map x) ++ map g (olist (x_returned x)) ++ map g (x_dropped x) ++ map g (x_leaked x)) /\
    (x_leaked x = match o with CPut q s _ => olist (absf m s q) | _ => [] end).
  Proof.
    intros W K R. unfold ids. destruct o as [q s v|q s f|q s f d|q s|s|s f| |l]; cbn in R, K.
    - destruct v as [v|p| |]; try discriminate. cbn in R.
      destruct (put_spec bs C D OQ m q s v W) as [m' [E [W' [_ B]]]]. rewrite E in R. cbn in R. inversion R; subst. cbn.
      split; [|destruct (absf m s q); reflexivity]. rewrite (B I g). destruct (absf m s q); reflexivity.
    - pose proof (update_spec bs C D OQ m q s f W) as H. destruct (absf m s q) as [v|].
      + destruct (f v) as [v'|p| |] eqn:F; [|rewrite H in R; discriminate..].
        destruct H as [m' [E [W' [_ B]]]]. rewrite E in R. cbn in R. inversion R; subst. cbn.
        rewrite app_nil_r, (B I g (K _ _ F)). split; reflexivity.
      + rewrite H in R. cbn in R. inversion R; subst. cbn. rewrite app_nil_r. split; reflexivity.
    - pose proof (upsert_spec bs C D OQ m q s f d W) as H.
      destruct (match absf m s q with Some v => f v | None => d end) as [v'|p| |] eqn:F; [|rewrite H in R; discriminate..].
      destruct H as [m' [E [W' [_ B]]]]. rewrite E in R. cbn in R. inversion R; subst. cbn. rewrite app_nil_r.
      split; [|reflexivity]. rewrite (B I g).
      + destruct (absf m s q); reflexivity.
      + intros v Hv. rewrite Hv in F. apply (K _ _ F).
    - destruct (take_spec bs C D OQ m q s W) as [m' [E [W' [_ B]]]]. rewrite E in R. cbn in R. inversion R; subst. cbn.
      split; [|reflexivity]. rewrite (B I g), app_nil_r. rewrite Permutation_app_comm. destruct (absf m s q); reflexivity.
    - destruct (drain_spec m s W) as [m' [d [E [W' [_ [_ [B _]]]]]]]. rewrite E in R. cbn in R. inversion R; subst. cbn.
      split; [|reflexivity]. rewrite app_nil_r. apply B.
    - destruct (update_slice bs m s f) as [m'|p| |] eqn:E; try discriminate. cbn in R. inversion R; subst. cbn.
      destruct (update_slice_spec m s f m' W E) as [_ [_ [_ B]]]. rewrite app_nil_r, (B I g K). split; reflexivity.
    - inversion R; subst. cbn. rewrite app_nil_r, map_map. split; reflexivity.
    - destruct l as [l|p| |]; try discriminate. cbn in R. inversion R; subst. cbn. split; [|reflexivity].
      rewrite app_nil_r, map_map. rewrite Permutation_app_comm, <- map_app. apply Permutation_map. symmetry. apply sort_perm.
  Qed.
End Map.
