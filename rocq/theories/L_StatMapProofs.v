From Coq Require Import ZArith List Bool Sorted Permutation.
From Verif Require Import M_Outcome M_Value M_Qualifier M_Search M_Stat M_StatMap
  S_Search S_StatMap S_Demo L_Outcome L_Search L_StatMap L_StatMap2 L_StatMap3 L_StatMap4 L_StatMap5 L_Demo.
Import ListNotations.
Local Open Scope Z_scope.

Lemma C04_map_semantics_proof :
  forall (P : Prog) (Q : QFlag) (bs : list comparison -> bsres),
  bs_contract bs -> distinct_vtables P -> lawful_ord (q_cmp Q) ->
  forall (l : list (mop P Q)) (m : map_t P Q), Forall tsingle l -> mops_run bs [] l = Done m ->
  exists sp : tmap P Q, tspec_run empty_tmap l sp /\
    (forall q s, m_get bs m q s = Done (sp s q)) /\
    (forall q s, m_get_evaled bs m q s =
       match sp s q with
       | Some v => let! r := sv_eval (VT P (vt_value P (si_ty s))) v in Done (Some r)
       | None => Done None
       end) /\
    (forall q s, m_removed bs m q s = Done (sp s q)) /\
    (exists keys, NoDup keys /\ (forall s q, In (s, q) keys <-> sp s q <> None) /\ m_len m = length keys) /\
    (m_is_empty m = true <-> forall s q, sp s q = None).
Proof.
  intros P Q bs C D OQ l m S R.
  destruct (run_correct bs C D OQ l [] m wf_nil typed_nil (single_fresh _ l S) R) as [W [T H]].
  exists (tabs m). split; [exact H|]. split; [intros; apply m_get_spec; assumption|]. split; [intros; apply m_get_evaled_spec; assumption|].
  split; [intros; apply m_removed_spec; assumption|]. split; [apply m_keys; assumption|apply m_empty; assumption].
Qed.

Lemma C04_total_proof :
  forall (P : Prog) (Q : QFlag) (bs : list comparison -> bsres),
  bs_contract bs -> distinct_vtables P -> lawful_ord (q_cmp Q) ->
  forall l : list (mop P Q), Forall total_mop l -> exists m, mops_run bs [] l = Done m.
Proof. intros P Q bs C D OQ l H. apply mops_total; auto; constructor. Qed.

Lemma C05_query_joins_exactly_proof :
  forall (P : Prog) (Q : QFlag) (bs : list comparison -> bsres),
  bs_contract bs -> distinct_vtables P -> lawful_ord (q_cmp Q) ->
  forall (ops : list (mop P Q)) (m : map_t P Q), Forall tsingle ops -> mops_run bs [] ops = Done m ->
  exists sp : tmap P Q, tspec_run empty_tmap ops sp /\
  forall x s, exists l, selection sp s (fun q => qualifies_as q x) l /\
    m_query bs m x s =
      (let! _ := validate_ty P (vt_value P (si_ty s)) in
       join_all s (sv_default (VT P (vt_value P (si_ty s)))) l) /\
    m_eval bs m x s = let! v := m_query bs m x s in sv_eval (VT P (vt_value P (si_ty s))) v.
Proof.
  intros P Q bs C D OQ ops m S R.
  destruct (run_correct bs C D OQ ops [] m wf_nil typed_nil (single_fresh _ ops S) R) as [W [T H]].
  exists (tabs m). split; [exact H|]. intros x s. destruct (m_query_sel bs C D OQ m x s W T) as [l [H1 [H2 _]]].
  exists l. split; [exact H1|]. split; [exact H2|]. reflexivity.
Qed.

Lemma C05_query_joins_iter_proof :
  forall (P : Prog) (Q : QFlag) (bs : list comparison -> bsres),
  bs_contract bs -> distinct_vtables P -> lawful_ord (q_cmp Q) ->
  forall (ops : list (mop P Q)) (m : map_t P Q), Forall sound_op ops -> mops_run bs [] ops = Done m ->
  forall x s, exists l, m_iter bs m s = Done l /\
    m_query bs m x s =
      (let! _ := validate_ty P (vt_value P (si_ty s)) in
       join_all s (sv_default (VT P (vt_value P (si_ty s)))) (filter (fun p => qualifies_as (fst p) x) l)).
Proof.
  intros P Q bs C D OQ ops m S R x s.
  destruct (mops_safe bs C D OQ ops [] sorted_nil typed_nil S) as [_ K]. destruct (K m R) as [So T].
  eexists. split; [apply (m_iter_spec bs C D m s So T)|apply (m_query_spec bs C D m x s So T)].
Qed.

Lemma C06_iter_proof :
  forall (P : Prog) (Q : QFlag) (bs : list comparison -> bsres),
  bs_contract bs -> distinct_vtables P -> lawful_ord (q_cmp Q) ->
  forall (ops : list (mop P Q)) (m : map_t P Q), Forall tsingle ops -> mops_run bs [] ops = Done m ->
  exists sp : tmap P Q, tspec_run empty_tmap ops sp /\
  forall s, exists l, selection sp s (fun _ => true) l /\ m_iter bs m s = Done l.
Proof.
  intros P Q bs C D OQ ops m S R.
  destruct (run_correct bs C D OQ ops [] m wf_nil typed_nil (single_fresh _ ops S) R) as [W [T H]].
  exists (tabs m). split; [exact H|]. intros s. apply m_iter_sel; assumption.
Qed.

Lemma C06_iter_mut_proof :
  forall (P : Prog) (Q : QFlag) (bs : list comparison -> bsres),
  bs_contract bs -> distinct_vtables P -> lawful_ord (q_cmp Q) ->
  forall (ops : list (mop P Q)) (m : map_t P Q), Forall tsingle ops -> mops_run bs [] ops = Done m ->
  forall s f x, mop_run bs m (MIterMut s f) = Done x ->
  (forall q, m_get bs m q s = Done None -> m_get bs (x_map x) q s = Done None) /\
  (forall q v, m_get bs m q s = Done (Some v) ->
     exists v', f q v = Done v' /\ m_get bs (x_map x) q s = Done (Some v')) /\
  (forall s' q, s' <> s -> m_get bs (x_map x) q s' = m_get bs m q s').
Proof.
  intros P Q bs C D OQ ops m S R s f x E.
  destruct (run_correct bs C D OQ ops [] m wf_nil typed_nil (single_fresh _ ops S) R) as [W [T _]].
  destruct (mop_correct bs C D OQ m (MIterMut s f) x W T I E) as [W' [T' [H1 H2]]].
  split; [|split]; intros *; rewrite !(m_get_spec bs C D OQ) by assumption.
  - intros N. assert (N' := f_equal (fun o => match o with Done x => x | _ => None end) N). cbn in N'. specialize (H1 q). rewrite N' in H1. rewrite H1. reflexivity.
  - intros N. assert (N' := f_equal (fun o => match o with Done x => x | _ => None end) N). cbn in N'. specialize (H1 q). rewrite N' in H1. destruct H1 as [v' [F ->]]. eauto.
  - intros N. rewrite H2 by exact N. reflexivity.
Qed.

Lemma C06_remove_all_proof :
  forall (P : Prog) (Q : QFlag) (bs : list comparison -> bsres),
  bs_contract bs -> distinct_vtables P -> lawful_ord (q_cmp Q) ->
  forall (ops : list (mop P Q)) (m : map_t P Q), Forall tsingle ops -> mops_run bs [] ops = Done m ->
  forall s, exists x, mop_run bs m (MRemoveAll s) = Done x /\
  (forall q, m_get bs (x_map x) q s = Done None) /\
  (forall s' q, s' <> s -> m_get bs (x_map x) q s' = m_get bs m q s').
Proof.
  intros P Q bs C D OQ ops m S R s.
  destruct (run_correct bs C D OQ ops [] m wf_nil typed_nil (single_fresh _ ops S) R) as [W [T _]].
  destruct (mop_total bs C D OQ m (MRemoveAll s) (wf_sorted m W) T I) as [x E]. exists x. split; [exact E|].
  destruct (mop_correct bs C D OQ m (MRemoveAll s) x W T I E) as [W' [T' [H1 H2]]].
  split; intros *; rewrite !(m_get_spec bs C D OQ) by assumption.
  - rewrite H1. reflexivity.
  - intros N. rewrite H2 by exact N. reflexivity.
Qed.

Lemma C07_extend_fresh_keys_proof :
  forall (P : Prog) (Q : QFlag) (bs : list comparison -> bsres),
  bs_contract bs -> distinct_vtables P -> lawful_ord (q_cmp Q) ->
  forall (l : list (mop P Q)) (m : map_t P Q), fresh_history empty_tmap l -> mops_run bs [] l = Done m ->
  exists sp : tmap P Q, tspec_run empty_tmap l sp /\
    (forall q s, m_get bs m q s = Done (sp s q)) /\
    (forall s, exists k, selection sp s (fun _ => true) k /\ m_iter bs m s = Done k) /\
    (forall x s, exists k, selection sp s (fun q => qualifies_as q x) k /\
       m_query bs m x s =
         (let! _ := validate_ty P (vt_value P (si_ty s)) in
          join_all s (sv_default (VT P (vt_value P (si_ty s)))) k)).
Proof.
  intros P Q bs C D OQ l m S R.
  destruct (run_correct bs C D OQ l [] m wf_nil typed_nil S R) as [W [T H]].
  exists (tabs m). split; [exact H|]. split; [intros; apply m_get_spec; assumption|]. split; [intros; apply m_iter_sel; assumption|].
  intros x s. destruct (m_query_sel bs C D OQ m x s W T) as [k [H1 [H2 _]]]. eauto.
Qed.

Lemma C07_from_iter_is_extend_proof :
  forall (P : Prog) (Q : QFlag) (V : Type) (l : list (entry P Q V)), from_iter l = extend [] l.
Proof. reflexivity. Qed.

Lemma C07_extend_keeps_every_entry_proof :
  forall (P : Prog) (Q : QFlag) (V : Type), distinct_vtables P -> lawful_ord (q_cmp Q) ->
  forall m l : statmap P Q V,
  Permutation (extend m l) (m ++ l) /\
  StronglySorted (fun a b => entry_cmp a b <> Gt) (extend m l) /\
  forall s q, let same := fun e => match key_cmp (e_stat e) (e_qual e) s q with Eq => true | _ => false end in
    filter same (extend m l) = filter same m ++ filter same l.
Proof.
  intros P Q V D OQ m l. unfold extend. split; [apply sort_perm|]. split; [apply sort_sorted; assumption|].
  intros s q. rewrite <- filter_app. apply (sort_filter D OQ (s, q)).
Qed.

Lemma C07_remove_takes_one_proof :
  forall (P : Prog) (Q : QFlag) (V : Type) (bs : list comparison -> bsres),
  bs_contract bs -> distinct_vtables P -> lawful_ord (q_cmp Q) ->
  forall (m : statmap P Q V) q s r, take bs m q s = Done r ->
  match snd r with
  | Some v => Permutation m (Entry s q v :: fst r)
  | None => fst r = m
  end.
Proof.
  intros P Q V bs C D OQ m q s r H. destruct (take_any bs C D OQ m q s) as [[a [e [c [-> [E K]]]]]|K]; rewrite K in H; inversion H; subst; cbn.
  - unfold ekey in E. inversion E; subst. destruct e. symmetry. apply Permutation_middle.
  - reflexivity.
Qed.

Lemma C07_remove_then_get_refuted_proof :
  exists l : list (mop demo intQ), runs (l ++ [MRemove fire hp]) = true /\
  get_hp (demo_run (l ++ [MRemove fire hp])) fire = Done (Some (num 1)).
Proof. exists [extend_hp [(fire, 0, num 1); (fire, 0, num 2)]]. split; reflexivity. Qed.

Lemma C07_repeated_key_query_refuted_proof :
  runs [extend_hp [(fire, 0, num 1); (fire, 0, num 2)]] = true /\
  eval_hp (demo_run [extend_hp [(fire, 0, num 1); (fire, 0, num 2)]]) (@Aggregate intQ 1) = Done 3 /\
  eval_hp (demo_run [put_hp fire 1; put_hp fire 2]) (@Aggregate intQ 1) = Done 2.
Proof. repeat split. Qed.

Lemma C22_operations_safe_proof :
  forall (P : Prog) (Q : QFlag) (bs : list comparison -> bsres),
  bs_contract bs -> distinct_vtables P -> lawful_ord (q_cmp Q) ->
  forall l : list (mop P Q), Forall sound_op l -> mops_run bs [] l <> UB.
Proof. intros P Q bs C D OQ l H. apply (mops_safe bs C D OQ l [] sorted_nil typed_nil H). Qed.

Lemma C22_observers_safe_proof :
  forall (P : Prog) (Q : QFlag) (bs : list comparison -> bsres),
  bs_contract bs -> distinct_vtables P -> lawful_ord (q_cmp Q) -> sound_prog (P:=P) ->
  forall (l : list (mop P Q)) (m : map_t P Q), Forall sound_op l -> mops_run bs [] l = Done m ->
  (forall q s, m_get bs m q s <> UB) /\ (forall q s, m_get_evaled bs m q s <> UB) /\
  (forall q s, m_removed bs m q s <> UB) /\ (forall s, m_iter bs m s <> UB) /\
  (forall x s, m_query bs m x s <> UB) /\ (forall x s, m_eval bs m x s <> UB) /\
  (forall x s v, validate_ty P (vt_value P (si_ty s)) = Done tt ->
     map_stream bs m x (Pair s (Buf (vt_value P (si_ty s)) v)) <> UB) /\
  m_clone m <> UB /\ m_drop m = Done tt.
Proof.
  intros P Q bs C D OQ SP l m S R. destruct (mops_safe bs C D OQ l [] sorted_nil typed_nil S) as [_ K]. destruct (K m R) as [So T].
  destruct (observers_safe bs C D OQ m So T SP) as (H1&H2&H3&H4&H5&H6&H7&H8&H9). repeat (split; [assumption|]).
  split; [|split; [congruence|exact H9]]. intros x s v F. apply H7. apply (ok_buf_Buf P s v F).
Qed.

Lemma C24_map_no_leak_refuted_proof :
  exists (l : list (cop demo intQ nat)) xs,
  cops_run bs_new [] (l ++ [CClear]) = Done ([], xs) /\ concat (map x_leaked xs) <> [].
Proof.
  exists [CPut fire hp (Done 1%nat); CPut fire hp (Done 2%nat)]. eexists. split; [reflexivity|]. discriminate.
Qed.

Lemma C47_stream_is_query_proof :
  forall (P : Prog) (Q : QFlag) (bs : list comparison -> bsres),
  bs_contract bs -> distinct_vtables P -> lawful_ord (q_cmp Q) ->
  forall (ops : list (mop P Q)) (m : map_t P Q), Forall tsingle ops -> mops_run bs [] ops = Done m ->
  exists sp : tmap P Q, tspec_run empty_tmap ops sp /\
  forall x s, fits s -> exists l, selection sp s (fun q => qualifies_as q x) l /\
    m_query bs m x s = join_all s (sv_default (VT P (vt_value P (si_ty s)))) l /\
    (forall v, map_stream bs m x (Pair s (Buf (vt_value P (si_ty s)) v)) =
       let! r := join_all s v l in Done (Pair s (Buf (vt_value P (si_ty s)) r))).
Proof.
  intros P Q bs C D OQ ops m S R.
  destruct (run_correct bs C D OQ ops [] m wf_nil typed_nil (single_fresh _ ops S) R) as [W [T H]].
  exists (tabs m). split; [exact H|]. intros x s F. destruct (m_query_sel bs C D OQ m x s W T) as [l [H1 [H2 H3]]].
  exists l. split; [exact H1|]. split; [rewrite H2; unfold fits in F; rewrite F; reflexivity|]. intros v. apply H3, F.
Qed.

Lemma C48_clone_equal_proof :
  forall (P : Prog) (Q : QFlag) (bs : list comparison -> bsres),
  bs_contract bs -> distinct_vtables P -> lawful_ord (q_cmp Q) ->
  forall (l : list (mop P Q)) (m : map_t P Q), Forall sound_op l -> mops_run bs [] l = Done m -> m_clone m = Done m.
Proof.
  intros P Q bs C D OQ l m S R. destruct (mops_safe bs C D OQ l [] sorted_nil typed_nil S) as [_ K]. destruct (K m R) as [So T].
  apply clone_typed, T.
Qed.
