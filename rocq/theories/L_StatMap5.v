From Coq Require Import ZArith Arith List Bool Lia Sorted Permutation.
From Verif Require Import M_Outcome M_Value M_Qualifier M_Search M_Stat M_StatMap
  S_Search S_StatMap L_Outcome L_Search L_StatMap L_StatMap2 L_StatMap3 L_StatMap4.
Import ListNotations.

Lemma StronglySorted_filter {A} (R : A -> A -> Prop) f l : StronglySorted R l -> StronglySorted R (filter f l).
Proof.
  induction 1 as [|x l S IH HF]; cbn; [constructor|]. destruct (f x); [constructor|]; auto.
  rewrite Forall_forall in *. intros y Hy. apply filter_In in Hy. apply HF, Hy.
Qed.
Lemma StronglySorted_map {A B} (g : A -> B) (R : B -> B -> Prop) l :
  StronglySorted R (map g l) <-> StronglySorted (fun a b => R (g a) (g b)) l.
Proof.
  induction l as [|x l IH]; cbn; split; intros H; inversion H as [|? ? H1 H2]; subst; constructor; try (apply IH; assumption).
  - rewrite Forall_forall in *. intros y Hy. apply H2, in_map, Hy.
  - rewrite Forall_forall in *. intros y Hy. apply in_map_iff in Hy as [z [<- Hz]]. apply H2, Hz.
Qed.

Section Typed.
  Context {P : Prog} {Q : QFlag}.
  Variable bs : list comparison -> bsres.
  Hypothesis C : bs_contract bs.
  Hypothesis D : distinct_vtables P.
  Hypothesis OQ : lawful_ord (q_cmp Q).
  Notation entry := (entry P Q (buffer P)).
  Notation map_t := (map_t P Q).
  Notation tyof s := (vt_value P (si_ty s)).
  Notation VS s := (VT P (tyof s)).
  Notation kcmp := (@kcmp P Q).
  Notation ok_ty := (ok_ty P).
  Notation ok_buf := (ok_buf P).

  (** ** Bulk insertion of new keys *)
  Definition item U (x : qualifier Q * Z * val (VT P (vt_value P U))) : entry :=
    Entry (Inst U (snd (fst x))) (fst (fst x)) (Buf (vt_value P U) (snd x)).
  Lemma extend_run (m : map_t) U l x : mop_run bs m (MExtend U l) = Done x ->
    x_map x = extend m (map (item U) l) /\ (l <> [] -> ok_ty (vt_value P U)).
  Proof.
    intros R. apply mop_cop in R. cbn in R. destruct (build_safe U l) as [_ B]. destruct (build U l) as [r|p| |]; try discriminate.
    cbn in R. inversion R; subst. cbn. destruct (B r eq_refl) as [_ [E Hok]]. rewrite E. split; [reflexivity|exact Hok].
  Qed.
  Lemma items_typed U l : (l <> [] -> ok_ty (vt_value P U)) -> typed (map (item U) l).
  Proof.
    intros H. apply Forall_forall. intros e He. apply in_map_iff in He as [[[q i] v] [<- Hx]].
    apply (ok_buf_Buf P (Inst U i)). apply H. intros ->. destruct Hx.
  Qed.
  Lemma extend_fresh (m : map_t) U l x : wf m -> typed m -> fresh (tabs m) U l -> mop_run bs m (MExtend U l) = Done x ->
    wf (x_map x) /\ typed (x_map x) /\ tspec_step (tabs m) (MExtend U l) (tabs (x_map x)).
  Proof.
    intros W T [F1 F2] R. apply extend_run in R as [-> Hok]. pose proof (items_typed U l Hok) as Ti.
    assert (N : NoDup (map ekey (m ++ map (item U) l))).
    { rewrite map_app. assert (K : NoDup (map ekey (map (item U) l))).
      { rewrite map_map. clear -F1. induction l as [|[[q i] v] l IH]; cbn in *; inversion F1; subst; constructor; [|auto].
        intros H. apply H1. apply in_map_iff in H as [[[q' i'] v'] [E H]]. unfold item, ekey in E; cbn in E. inversion E; subst.
        apply in_map_iff. exists (q, i, v'). auto. }
      pose proof (wf_nodup D OQ m W) as Nm.
      assert (Dj : forall k, In k (map ekey m) -> ~ In k (map ekey (map (item U) l))).
      { intros k H1 H2. apply in_map_iff in H1 as [e [<- He]]. rewrite map_map in H2. apply in_map_iff in H2 as [[[q i] v] [E H2]].
        destruct e as [s0 q0 b0]. unfold ekey, item in E; cbn in E. inversion E; subst. specialize (F2 i q0 v H2).
        pose proof (absf_tabs D OQ m (Inst U i) q0 W T) as A. apply (absf_some D OQ) in He; [|exact W]. rewrite He in A.
        destruct A as [w [_ [A _]]]. congruence. }
      clear -K Nm Dj. induction (map ekey m) as [|k ks IH]; cbn; [exact K|]. inversion Nm; subst. constructor.
      - intros H. apply in_app_or in H as [H|H]; [auto|]. apply (Dj k); [left; reflexivity|exact H].
      - apply IH; [assumption|]. intros k' Hk'. apply Dj. right. exact Hk'. }
    destruct (extend_distinct D OQ m (map (item U) l) N) as [W' I]. split; [exact W'|].
    assert (T' : typed (extend m (map (item U) l))).
    { unfold typed, extend. eapply Permutation_Forall; [symmetry; apply sort_perm|]. apply Forall_app. split; assumption. }
    split; [exact T'|].
    assert (It : forall i q v, In (Entry (Inst U i) q (Buf (vt_value P U) v)) (map (item U) l) <-> In (q, i, v) l).
    { intros i q v. rewrite in_map_iff. split.
      - intros [[[q' i'] v'] [E H]]. unfold item in E; cbn in E. pose proof (f_equal e_val E) as E2. cbn in E2. apply Buf_inj in E2.
        inversion E; subst. exact H.
      - intros H. exists (q, i, v). auto. }
    assert (G : forall s q v, tabs (extend m (map (item U) l)) s q = Some v <->
       tabs m s q = Some v \/ In (Entry s q (Buf (tyof s) v)) (map (item U) l)).
    { intros s q v. rewrite !(tabs_some D OQ) by assumption. apply I. }
    assert (Ext : forall s q, (forall v, ~ In (Entry s q (Buf (tyof s) v)) (map (item U) l)) ->
       tabs (extend m (map (item U) l)) s q = tabs m s q).
    { intros s q Hn. destruct (tabs m s q) as [v|] eqn:E; [apply G; auto|].
      destruct (tabs (extend m (map (item U) l)) s q) as [v|] eqn:E'; [|reflexivity].
      apply G in E' as [E'|E']; [congruence|]. exfalso. exact (Hn v E'). }
    cbn [tspec_step]. split; [|split].
    - intros s q N'. apply Ext. intros v H. apply in_map_iff in H as [[[q' i'] v'] [E H]]. unfold item in E; cbn in E. inversion E; subst. cbn in N'. congruence.
    - intros i q Hn. apply Ext. intros v H. apply It in H. exact (Hn v H).
    - intros i q v H. apply G. right. apply It, H.
  Qed.

  (** ** Histories *)
  Lemma step_correct (m : map_t) o x : wf m -> typed m -> (forall U l, o = MExtend U l -> fresh (tabs m) U l) ->
    mop_run bs m o = Done x -> wf (x_map x) /\ typed (x_map x) /\ tspec_step (tabs m) o (tabs (x_map x)).
  Proof.
    intros W T F R. destruct o; try (apply (mop_correct bs C D OQ); auto; exact I).
    apply extend_fresh; auto.
  Qed.
  Lemma fresh_cons (sp : tmap P Q) (o : mop P Q) l : fresh_history sp (o :: l) -> (forall U k, o = MExtend U k -> fresh sp U k) /\
    forall sp1, tspec_step sp o sp1 -> fresh_history sp1 l.
  Proof.
    intros H. split.
    - intros U k ->. apply (H [] U k l sp eq_refl). constructor.
    - intros sp1 S l1 U k l2 sp2 -> R. apply (H (o :: l1) U k l2 sp2 eq_refl). econstructor; eauto.
  Qed.
  Lemma run_correct l : forall m m' : map_t, wf m -> typed m -> fresh_history (tabs m) l -> mops_run bs m l = Done m' ->
    wf m' /\ typed m' /\ tspec_run (tabs m) l (tabs m').
  Proof.
    induction l as [|o l IH]; intros m m' W T F R; cbn in R.
    - inversion R; subst. split; [exact W|]. split; [exact T|]. constructor.
    - destruct (mop_run bs m o) as [x|p| |] eqn:E; try discriminate. cbn in R.
      apply fresh_cons in F as [F1 F2]. destruct (step_correct m o x W T F1 E) as [W1 [T1 S1]].
      destruct (IH _ _ W1 T1 (F2 _ S1) R) as [W2 [T2 S2]]. split; [exact W2|]. split; [exact T2|]. econstructor; eauto.
  Qed.
  Lemma wf_nil : wf ([] : map_t). Proof. constructor. Qed.
  Lemma typed_nil : typed ([] : map_t). Proof. constructor. Qed.
  Lemma sorted_nil : sorted ([] : map_t). Proof. constructor. Qed.
  Lemma single_fresh (sp : tmap P Q) (l : list (mop P Q)) : Forall tsingle l -> fresh_history sp l.
  Proof.
    intros H l1 U k l2 sp1 -> _. rewrite Forall_app in H. destruct H as [_ H]. inversion H; subst. destruct H2.
  Qed.

  (** ** Observers *)
  Lemma m_get_spec (m : map_t) q s : wf m -> typed m -> m_get bs m q s = Done (tabs m s q).
  Proof.
    intros W T. unfold m_get. rewrite (find_spec bs C D OQ m q s W). cbn [obind]. pose proof (absf_tabs D OQ m s q W T) as A.
    destruct (absf m s q) as [b|]; [|rewrite A; reflexivity]. destruct A as [v [-> [-> Hok]]]. rewrite buf_ref_ok by exact Hok. reflexivity.
  Qed.
  Lemma m_get_evaled_spec (m : map_t) q s : wf m -> typed m ->
    m_get_evaled bs m q s = match tabs m s q with Some v => let! r := sv_eval (VS s) v in Done (Some r) | None => Done None end.
  Proof.
    intros W T. unfold m_get_evaled. rewrite (find_spec bs C D OQ m q s W). cbn [obind]. pose proof (absf_tabs D OQ m s q W T) as A.
    destruct (absf m s q) as [b|]; [|rewrite A; reflexivity]. destruct A as [v [-> [-> Hok]]]. rewrite buf_ref_ok by exact Hok. reflexivity.
  Qed.
  Lemma m_removed_spec (m : map_t) q s : wf m -> typed m -> m_removed bs m q s = Done (tabs m s q).
  Proof.
    intros W T. unfold m_removed. destruct (take_spec bs C D OQ m q s W) as [m' [-> _]]. cbn [obind snd]. pose proof (absf_tabs D OQ m s q W T) as A.
    destruct (absf m s q) as [b|]; [|rewrite A; reflexivity]. destruct A as [v [-> [-> Hok]]]. unfold buf_read_move. rewrite buf_ref_ok by exact Hok. reflexivity.
  Qed.
  Lemma m_keys (m : map_t) : wf m -> typed m ->
    exists ks, NoDup ks /\ (forall s q, In (s, q) ks <-> tabs m s q <> None) /\ m_len m = length ks.
  Proof.
    intros W T. exists (map ekey m). split; [apply (wf_nodup D OQ m W)|]. split; [|unfold m_len; rewrite map_length; reflexivity].
    intros s q. rewrite in_map_iff. split.
    - intros [[s0 q0 b] [E H]]. unfold ekey in E; cbn in E. inversion E; subst. pose proof (absf_tabs D OQ m s q W T) as A.
      apply (absf_some D OQ) in H; [|exact W]. rewrite H in A. destruct A as [v [_ [A _]]]. congruence.
    - intros H. destruct (tabs m s q) as [v|] eqn:E; [|congruence]. apply (tabs_some D OQ) in E; [|assumption..].
      exists (Entry s q (Buf (tyof s) v)). auto.
  Qed.
  Lemma m_empty (m : map_t) : wf m -> typed m -> m_is_empty m = true <-> forall s q, tabs m s q = None.
  Proof.
    intros W T. destruct m as [|[s q b] m]; cbn; split; auto; try discriminate.
    intros H. specialize (H s q). pose proof (absf_tabs D OQ (Entry s q b :: m) s q W T) as A.
    assert (In (Entry s q b) (Entry s q b :: m)) as I by (left; reflexivity). apply (absf_some D OQ) in I; [|exact W].
    rewrite I in A. destruct A as [v [_ [A _]]]. congruence.
  Qed.
  Lemma wf_filter f (m : map_t) : wf m -> wf (filter f m).
  Proof. apply StronglySorted_filter. Qed.
  Lemma entries_selection (m : map_t) s (f : qualifier Q -> bool) : wf m -> typed m ->
    selection (tabs m) s f (filter (fun p => f (fst p)) (reads s (of_stat s m))).
  Proof.
    intros W T. pose proof (of_stat_all D s m) as A. pose proof (of_stat_typed s m T) as Tf. split.
    - apply StronglySorted_filter. apply (StronglySorted_map fst (fun a b => qual_cmp a b = Lt)).
      rewrite reads_quals by assumption. apply (wf_quals D _ s); [apply wf_filter, W|exact A].
    - intros q v. rewrite filter_In. cbn [fst]. rewrite reads_In by assumption. unfold of_stat. rewrite filter_In. cbn [e_stat].
      rewrite (tabs_some D OQ) by assumption. rewrite (inst_eqb_iff D). tauto.
  Qed.
  Lemma m_query_sel (m : map_t) x s : wf m -> typed m -> exists l, selection (tabs m) s (fun q => qualifies_as q x) l /\
    m_query bs m x s = (let! _ := validate_ty P (tyof s) in join_all s (sv_default (VS s)) l) /\
    (forall v, fits s -> map_stream bs m x (Pair s (Buf (tyof s) v)) = let! r := join_all s v l in Done (Pair s (Buf (tyof s) r))).
  Proof.
    intros W T. eexists. split; [apply (entries_selection m s (fun q => qualifies_as q x) W T)|]. split.
    - apply (m_query_spec bs C D m x s (wf_sorted m W) T).
    - intros v F. apply (map_stream_spec bs C D m x s v (wf_sorted m W) T F).
  Qed.
  Lemma m_iter_sel (m : map_t) s : wf m -> typed m -> exists l, selection (tabs m) s (fun _ => true) l /\ m_iter bs m s = Done l.
  Proof.
    intros W T. eexists. split; [|apply (m_iter_spec bs C D m s (wf_sorted m W) T)].
    pose proof (entries_selection m s (fun _ => true) W T) as H.
    assert (E : forall A (l : list A), filter (fun _ => true) l = l) by (induction l; cbn; congruence). rewrite E in H. exact H.
  Qed.

  (** ** Totality *)
  Lemma mop_total (m : map_t) o : sorted m -> typed m -> total_mop o -> exists x, mop_run bs m o = Done x.
  Proof.
    intros S T O. destruct o as [q s v|q s b|q s f|q s|q s op|q s f|s|s f| |U l]; unfold mop_run; cbn [mop_core total_mop cop_run] in *.
    - rewrite buf_from_ok by exact O. cbn [obind].
      destruct (put_any bs C D OQ m q s (Buf (tyof s) v)) as [[a [e [c [_ [_ ->]]]]]|[a [c [_ [_ ->]]]]]; cbn; eauto.
    - rewrite buf_from_ok by exact O. cbn [obind].
      destruct (put_any bs C D OQ m q s (Buf (tyof s) (sv_from_base (VS s) b))) as [[a [e [c [_ [_ ->]]]]]|[a [c [_ [_ ->]]]]]; cbn; eauto.
    - destruct (update_any bs C D OQ m q s (fun b => buf_mut P (tyof s) b f)) as [[a [e [c [-> [E ->]]]]]| ->]; [|cbn; eauto].
      apply typed_mid in T as [_ [T _]]. unfold ekey in E. inversion E; subst. destruct (ok_buf_inv P _ _ T) as [v [-> Hok]].
      rewrite buf_mut_ok by exact Hok. destruct (O v) as [v' ->]. cbn. eauto.
    - destruct (take_any bs C D OQ m q s) as [[a [e [c [-> [E ->]]]]]| ->]; cbn; [|eauto].
      apply typed_mid in T as [_ [T _]]. unfold ekey in E. inversion E; subst. destruct (ok_buf_inv P _ _ T) as [v [-> Hok]].
      unfold buf_read_move. rewrite buf_ref_ok by exact Hok. cbn. eauto.
    - destruct O as [F O]. unfold into_stat. destruct (O (sv_default (VS s))) as [w Ew]. rewrite Ew. cbn [obind]. rewrite buf_from_ok by exact F.
      destruct (upsert_any bs C D OQ m q s (fun b => buf_mut P (tyof s) b (write_to op)) (Done (Buf (tyof s) w))) as [[a [e [c [-> [E ->]]]]]|[a [c [_ [_ ->]]]]]; [|cbn; eauto].
      apply typed_mid in T as [_ [T _]]. unfold ekey in E. inversion E; subst. destruct (ok_buf_inv P _ _ T) as [v [-> Hok]].
      rewrite buf_mut_ok by exact Hok. destruct (O v) as [v' ->]. cbn. eauto.
    - destruct O as [F O]. destruct (O (sv_default (VS s))) as [w Ew]. rewrite Ew. cbn [obind]. rewrite buf_from_ok by exact F.
      destruct (upsert_any bs C D OQ m q s (fun b => buf_mut P (tyof s) b f) (Done (Buf (tyof s) w))) as [[a [e [c [-> [E ->]]]]]|[a [c [_ [_ ->]]]]]; [|cbn; eauto].
      apply typed_mid in T as [_ [T _]]. unfold ekey in E. inversion E; subst. destruct (ok_buf_inv P _ _ T) as [v [-> Hok]].
      rewrite buf_mut_ok by exact Hok. destruct (O v) as [v' ->]. cbn. eauto.
    - unfold drain, slice. destruct (cut_spec bs C D m s S) as [a [b [c [-> [-> _]]]]]. cbn.
      apply typed_app in T as [_ T]. apply typed_app in T as [T _]. rewrite (drop_all_ok b T). cbn. eauto.
    - unfold update_slice. destruct (cut_spec bs C D m s S) as [a [b [c [-> [-> [_ [Hb _]]]]]]]. cbn [obind fst snd].
      apply typed_app in T as [_ T]. apply typed_app in T as [T _].
      assert (G : exists b', update_each (fun q b => buf_mut P (tyof s) b (f q)) b = Done b').
      { clear -O T Hb. induction b as [|e b IH]; cbn; [eauto|]. inversion Hb as [|? ? Es Hs']; subst. inversion T as [|? ? Te T']; subst.
        destruct (ok_buf_inv P _ _ Te) as [v [-> Hok]]. rewrite buf_mut_ok by exact Hok. destruct (O (e_qual e) v) as [v' ->]. cbn.
        destruct (IH T' Hs') as [b' ->]. cbn. eauto. }
      destruct G as [b' ->]. cbn. eauto.
    - cbn [obind]. rewrite (drop_all_ok m T). cbn. eauto.
    - assert (G : exists r, build (Q:=Q) U l = Done r).
      { clear -O. induction l as [|[[q i] v] l [r IH]]; cbn; [eauto|]. rewrite buf_from_ok by exact O. cbn. rewrite IH. cbn. eauto. }
      destruct G as [r ->]. cbn. eauto.
  Qed.
  Lemma total_sound (o : mop P Q) : total_mop o -> sound_op o.
  Proof.
    destruct o as [q s v|q s b|q s f|q s|q s op|q s f|s|s f| |U l]; cbn; auto.
    - intros H v. destruct (H v) as [v' ->]. discriminate.
    - intros [_ H] v. destruct (H v) as [v' ->]. discriminate.
    - intros [_ H] v. destruct (H v) as [v' ->]. discriminate.
    - intros H q v. destruct (H q v) as [v' ->]. discriminate.
  Qed.
  Lemma mops_total l : forall m : map_t, sorted m -> typed m -> Forall total_mop l -> exists m', mops_run bs m l = Done m'.
  Proof.
    induction l as [|o l IH]; intros m S T O; cbn; [eauto|]. inversion O as [|? ? O1 O2]; subst.
    destruct (mop_total m o S T O1) as [x E]. rewrite E. cbn.
    destruct (mop_safe bs C D OQ m o S T (total_sound o O1)) as [_ K]. destruct (K x E) as [S' T']. apply IH; assumption.
  Qed.

  (** ** Observers are safe on every reachable map, bulk insertions of repeated keys included *)
  Lemma observers_safe (m : map_t) : sorted m -> typed m -> sound_prog (P:=P) ->
    (forall q s, m_get bs m q s <> UB) /\ (forall q s, m_get_evaled bs m q s <> UB) /\ (forall q s, m_removed bs m q s <> UB) /\
    (forall s, m_iter bs m s <> UB) /\ (forall x s, m_query bs m x s <> UB) /\ (forall x s, m_eval bs m x s <> UB) /\
    (forall x p, ok_buf (p_stat p) (p_buf p) -> map_stream bs m x p <> UB) /\
    m_clone m = Done m /\ m_drop m = Done tt.
  Proof.
    intros S T [J Ev].
    assert (F : forall q s, find bs m q s = Done None \/ exists v, find bs m q s = Done (Some (Buf (tyof s) v)) /\ ok_ty (tyof s)).
    { intros q s. destruct (find_any bs C D OQ m q s) as [[e [He [E ->]]]|E]; [|auto]. right.
      unfold typed in T. rewrite Forall_forall in T. specialize (T e He). unfold ekey in E. inversion E; subst.
      destruct (ok_buf_inv P _ _ T) as [v [-> Hok]]. eauto. }
    assert (JA : forall s l v, join_all (P:=P) (Q:=Q) s v l <> UB).
    { intros s l. unfold join_all. induction l as [|p l IH]; intros v; cbn; [discriminate|].
      pose proof (J (tyof s) v (snd p)). destruct (sv_join (VS s) v (snd p)); cbn; [apply IH|congruence..]. }
    assert (QU : forall x s, m_query bs m x s <> UB).
    { intros x s. rewrite (m_query_spec bs C D m x s S T). pose proof (validate_not_ub P (tyof s)).
      destruct (validate_ty P (tyof s)); cbn [obind]; [apply JA|congruence..]. }
    repeat split.
    - intros q s. unfold m_get. destruct (F q s) as [-> | [v [-> Hok]]]; cbn; [discriminate|]. rewrite buf_ref_ok by exact Hok. discriminate.
    - intros q s. unfold m_get_evaled. destruct (F q s) as [-> | [v [-> Hok]]]; cbn; [discriminate|]. rewrite buf_ref_ok by exact Hok. cbn.
      pose proof (Ev (tyof s) v). destruct (sv_eval (VS s) v); cbn; congruence.
    - intros q s. unfold m_removed. destruct (take_any bs C D OQ m q s) as [[a [e [c [-> [E ->]]]]]| ->]; cbn; [|discriminate].
      apply typed_mid in T as [_ [T _]]. unfold ekey in E. inversion E; subst. destruct (ok_buf_inv P _ _ T) as [v [-> Hok]].
      unfold buf_read_move. rewrite buf_ref_ok by exact Hok. discriminate.
    - intros s. rewrite (m_iter_spec bs C D m s S T). discriminate.
    - exact QU.
    - intros x s. unfold m_eval. pose proof (QU x s). destruct (m_query bs m x s); cbn; [apply Ev|congruence..].
    - intros x [s b] Hb. cbn in Hb. destruct (ok_buf_inv P _ _ Hb) as [v [-> Hok]].
      rewrite (map_stream_spec bs C D m x s v S T Hok). pose proof (JA s (filter (fun p => qualifies_as (fst p) x) (reads s (of_stat s m))) v).
      destruct (join_all _ _ _); cbn; congruence.
    - unfold m_clone. clear -T. induction T as [|e m Te T IH]; cbn; [reflexivity|]. destruct (ok_buf_inv P _ _ Te) as [v [Eb Hok]].
      rewrite Eb, vt_clone_ok by exact Hok. cbn. rewrite IH. cbn. rewrite <- Eb. destruct e; reflexivity.
    - apply drop_all_ok, T.
  Qed.
End Typed.

Lemma clone_typed {P Q} (m : map_t P Q) : typed m -> m_clone m = Done m.
Proof.
  unfold m_clone. intros T. induction T as [|e m Te T IH]; cbn; [reflexivity|]. destruct (ok_buf_inv P _ _ Te) as [v [Eb Hok]].
  rewrite Eb, vt_clone_ok by exact Hok. cbn. rewrite IH. cbn. rewrite <- Eb. destruct e; reflexivity.
Qed.
Lemma clone_forall (P : Prog) (Q : QFlag) (V : Type) (f : inst P -> V -> outcome V) (m m' : statmap P Q V) :
  clone_with f m = Done m' ->
  Forall2 (fun e e' => e_stat e' = e_stat e /\ e_qual e' = e_qual e /\ f (e_stat e) (e_val e) = Done (e_val e')) m m'.
Proof.
  revert m'. induction m as [|e m IH]; cbn; intros m' H; [inversion H; constructor|].
  destruct (f (e_stat e) (e_val e)) as [v|p| |] eqn:F; try discriminate. cbn in H.
  destruct (clone_with f m) as [r|p| |]; try discriminate. inversion H; subst. constructor; [cbn; auto|apply IH; reflexivity].
Qed.

Lemma sorted_same {A} (R : A -> A -> Prop) : (forall x, ~ R x x) -> (forall x y, R x y -> ~ R y x) ->
  forall l1 l2, StronglySorted R l1 -> StronglySorted R l2 -> (forall x, In x l1 <-> In x l2) -> l1 = l2.
Proof.
  intros Irr Asym. induction l1 as [|a l1 IH]; intros [|b l2] S1 S2 E.
  - reflexivity.
  - exfalso. apply (proj2 (E b)). left; reflexivity.
  - exfalso. apply (proj1 (E a)). left; reflexivity.
  - inversion S1 as [|? ? S1' F1]; subst. inversion S2 as [|? ? S2' F2]; subst. rewrite Forall_forall in F1, F2.
    assert (a = b).
    { destruct (proj1 (E a) (or_introl eq_refl)) as [Ha|Ha]; [auto|].
      destruct (proj2 (E b) (or_introl eq_refl)) as [Hb|Hb]; [auto|]. exfalso. exact (Asym _ _ (F1 _ Hb) (F2 _ Ha)). }
    subst b. f_equal. apply IH; auto. intros x. split; intros Hx.
    + destruct (proj1 (E x) (or_intror Hx)) as [<-|H]; [exfalso; exact (Irr _ (F1 _ Hx))|exact H].
    + destruct (proj2 (E x) (or_intror Hx)) as [<-|H]; [exfalso; exact (Irr _ (F2 _ Hx))|exact H].
Qed.
Lemma selection_unique (P : Prog) (Q : QFlag) : lawful_ord (q_cmp Q) ->
  forall (sp : tmap P Q) s f l1 l2, selection sp s f l1 -> selection sp s f l2 -> l1 = l2.
Proof.
  intros OQ sp s f l1 l2 [S1 E1] [S2 E2]. pose proof (qual_ord Q OQ) as O.
  eapply (sorted_same (fun a b => qual_cmp (fst a) (fst b) = Lt)); try assumption.
  - intros x H. pose proof (proj2 (lo_eq _ O (fst x) (fst x)) eq_refl). congruence.
  - intros x y H1 H2. rewrite (lo_anti _ O (fst x) (fst y)), H1 in H2. discriminate.
  - intros [q v]. rewrite E1, E2. tauto.
Qed.

Lemma cops_app {P Q V} bs l1 : forall l2 (m : statmap P Q V), cops_run bs m (l1 ++ l2) =
  let! r := cops_run bs m l1 in let! r2 := cops_run bs (fst r) l2 in Done (fst r2, snd r ++ snd r2).
Proof.
  induction l1 as [|o l1 IH]; intros l2 m; cbn.
  - destruct (cops_run bs m l2) as [[m2 xs]|p| |]; reflexivity.
  - destruct (cop_run bs m o) as [x|p| |]; cbn; try reflexivity. rewrite IH.
    destruct (cops_run bs (x_map x) l1) as [[m1 xs1]|p| |]; cbn; try reflexivity.
    destruct (cops_run bs m1 l2) as [[m2 xs2]|p| |]; reflexivity.
Qed.
Lemma map_conserved (P : Prog) (Q : QFlag) (V I : Type) (bs : list comparison -> bsres) :
  bs_contract bs -> distinct_vtables P -> lawful_ord (q_cmp Q) ->
  forall (g : V -> I) (l : list (cop P Q V)) m xs, Forall (keeps g) l ->
  cops_run bs [] (l ++ [CClear]) = Done (m, xs) ->
  m = [] /\
  Permutation (map g (concat (map (@x_in P Q V) xs)))
    (map g (concat (map (fun x => olist (x_returned x)) xs)) ++
     map g (concat (map (@x_dropped P Q V) xs)) ++ map g (concat (map (@x_leaked P Q V) xs))).
Proof.
  intros C D OQ g l m xs K R.
  assert (m = []) as ->.
  { rewrite cops_app in R. destruct (cops_run bs [] l) as [[m1 xs1]|p| |]; try discriminate. cbn in R. inversion R; reflexivity. }
  split; [reflexivity|].
  assert (K' : Forall (keeps g) (l ++ [CClear])) by (apply Forall_app; split; [exact K|repeat constructor]).
  pose proof (cops_owned bs C D OQ g _ _ _ _ K' R) as H. cbn in H. rewrite app_nil_r in H. exact H.
Qed.
Lemma map_leaks (P : Prog) (Q : QFlag) (V : Type) (bs : list comparison -> bsres) :
  bs_contract bs -> distinct_vtables P -> lawful_ord (q_cmp Q) ->
  forall (m : statmap P Q V) o x, cop_run bs m o = Done x ->
  match o with
  | CPut q s _ => find bs m q s = Done (hd_error (x_leaked x))
  | _ => x_leaked x = []
  end.
Proof.
  intros C D OQ m o x R. destruct o as [q s v|q s f|q s f d|q s|s|s f| |l]; cbn in R; try (apply obind_inv in R as [r [E R]]; inversion R; reflexivity).
  - destruct v as [v|p| |]; try discriminate. cbn in R. unfold put in R. unfold find. destruct (search bs m q s) as [i|i].
    + destruct (vec_get m i) as [e|p| |]; try discriminate. cbn in R. destruct (vec_set m i _); try discriminate. cbn in R. inversion R; reflexivity.
    + destruct (vec_insert m i _); try discriminate. cbn in R. inversion R; reflexivity.
  - inversion R; reflexivity.
Qed.
