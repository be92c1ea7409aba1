(** Maps without repeated keys, however they came about. *)
From Coq Require Import String ZArith List Bool Sorted Permutation.
From Verif Require Import M_Outcome M_Value M_Qualifier M_Search M_Stat M_StatMap M_HashMap M_Registry M_Serde
  M_Types S_Search S_StatMap S_Demo S_Registry S_Serde L_Outcome L_StatMap L_StatMap2 L_StatMap3 L_StatMap4 L_StatMap5 L_SerdeProofs.
Import ListNotations.
Local Open Scope Z_scope.

Section L.
  Context {P : Prog} {Q : QFlag} (bs : list comparison -> bsres) (B : bs_contract bs) (D : distinct_vtables P) (OQ : lawful_ord (q_cmp Q)).
  Lemma put_last (m : map_t P Q) e : wf (m ++ [e]) -> put bs m (e_qual e) (e_stat e) (e_val e) = Done (m ++ [e], []).
  Proof.
    intros W. assert (F : Forall (fun x => key_cmp (e_stat x) (e_qual x) (e_stat e) (e_qual e) = Lt) m).
    { apply Forall_forall. intros x Hx. apply StronglySorted_app in W as (_ & _ & H). exact (H x e Hx (or_introl eq_refl)). }
    unfold put, search. rewrite (map_const (fun x => key_cmp (e_stat x) (e_qual x) (e_stat e) (e_qual e)) Lt m F).
    pose proof (bc_missing bs B (length m) 0) as E. cbn [repeat] in E. rewrite app_nil_r in E. rewrite E.
    pose proof (vec_insert_app m [] e) as V. rewrite app_nil_r in V. destruct e as [s q v]. cbn [e_qual e_stat e_val]. rewrite V. reflexivity.
  Qed.
  Lemma run_app (l l' : list (mop P Q)) : forall m, mops_run bs m (l ++ l') = let! m1 := mops_run bs m l in mops_run bs m1 l'.
  Proof. induction l as [|o l IH]; intros m; cbn; [reflexivity|]. destruct (mop_run bs m o); cbn; auto. Qed.
  Lemma singles (m : map_t P Q) : wf m -> typed m -> exists l, Forall tsingle l /\ mops_run bs [] l = Done m.
  Proof.
    induction m as [|e m IH] using rev_ind; intros W T; [exists []; split; [constructor|reflexivity]|].
    pose proof W as W0. apply StronglySorted_app in W0 as (W1 & _ & _). pose proof T as T0. apply Forall_app in T0 as [T1 T2]. inversion T2 as [|? ? T3 _]; subst.
    destruct (IH W1 T1) as (l & F & R). destruct (ok_buf_inv P _ _ T3) as (v & Ev & Hf).
    exists (l ++ [MInsert (e_qual e) (e_stat e) v]). split; [apply Forall_app; split; [exact F|repeat constructor]|].
    rewrite run_app, R. cbn [obind mops_run]. unfold mop_run. cbn [mop_core cop_run].
    assert (X : buf_from P (vt_value P (si_ty (e_stat e))) v = Done (e_val e)). { unfold buf_from. rewrite Hf, Ev. reflexivity. }
    rewrite X. cbn [obind]. rewrite (put_last m e W). reflexivity.
  Qed.
End L.

Lemma C07_no_repeats_proof :
  forall (P : Prog) (Q : QFlag) (bs : list comparison -> bsres),
  bs_contract bs -> distinct_vtables P -> lawful_ord (q_cmp Q) ->
  forall (l : list (mop P Q)) (m : map_t P Q), Forall sound_op l -> mops_run bs [] l = Done m ->
  (NoDup (map (fun e => (e_stat e, e_qual e)) m) <-> exists l', Forall tsingle l' /\ mops_run bs [] l' = Done m).
Proof.
  intros P Q bs B D OQ l m F R. destruct (mops_safe bs B D OQ l [] (SSorted_nil _) (Forall_nil _) F) as [_ H]. destruct (H m R) as [S' T].
  split.
  - intros N. apply (singles bs B); [|exact T]. apply (sorted_nodup_wf D OQ); assumption.
  - intros (l' & F' & R'). destruct (run_correct bs B D OQ l' [] m wf_nil typed_nil (single_fresh _ l' F') R') as [W _].
    exact (wf_nodup D OQ m W).
Qed.
Lemma C51_no_repeats_proof :
  forall (P : Prog) (Q : QFlag) (N : StatNames P) (C : Codec P Q) (bs : list comparison -> bsres),
  bs_contract bs -> distinct_vtables P -> lawful_ord (q_cmp Q) ->
  forall (l1 l2 : list (mop P Q)) m1 m2, Forall sound_op l1 -> Forall sound_op l2 ->
  mops_run bs [] l1 = Done m1 -> mops_run bs [] l2 = Done m2 ->
  NoDup (map (fun e => (e_stat e, e_qual e)) m1) -> NoDup (map (fun e => (e_stat e, e_qual e)) m2) ->
  (forall q s, m_get bs m1 q s = m_get bs m2 q s) ->
  m1 = m2 /\ ser_map N C m1 = ser_map N C m2.
Proof.
  intros P Q N C bs B D OQ l1 l2 m1 m2 F1 F2 R1 R2 N1 N2 H.
  apply (C07_no_repeats_proof P Q bs B D OQ l1 m1 F1 R1) in N1 as (k1 & G1 & E1).
  apply (C07_no_repeats_proof P Q bs B D OQ l2 m2 F2 R2) in N2 as (k2 & G2 & E2).
  exact (C51_canonical_document_proof P Q N C bs B D OQ k1 k2 m1 m2 G1 G2 E1 E2 H).
Qed.
Lemma C51_repeats_refuted_proof :
  exists l1 l2 : list dop, runs l1 = true /\ runs l2 = true /\
  (forall q s, m_get bs_new (demo_run l1) q s = m_get bs_new (demo_run l2) q s) /\ saved l1 <> saved l2.
Proof.
  exists [extend_hp [(fire, 0, num 1); (fire, 0, num 2)]], [put_hp fire 2]. split; [vm_compute; reflexivity|]. split; [vm_compute; reflexivity|]. split.
  - intros q s.
    assert (E1 : demo_run [extend_hp [(fire, 0, num 1); (fire, 0, num 2)]] = [Entry hp fire (@Buf demo VNum (num 1)); Entry hp fire (@Buf demo VNum (num 2))]) by reflexivity.
    assert (E2 : demo_run [put_hp fire 2] = [Entry hp fire (@Buf demo VNum (num 2))]) by reflexivity.
    rewrite E1, E2. unfold m_get, find, search. cbn [map e_stat e_qual]. destruct (key_cmp hp fire s q); reflexivity.
  - vm_compute. discriminate.
Qed.
