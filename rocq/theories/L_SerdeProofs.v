From Coq Require Import String ZArith List Bool Lia Sorted.
From Verif Require Import M_Outcome M_Ints M_Value M_Types M_Qualifier M_Search M_Stat M_StatMap M_HashMap M_Registry M_Serde
  S_Search S_StatMap S_Demo S_Registry S_Serde
  L_Outcome L_Search L_StatMap L_StatMap2 L_StatMap3 L_StatMap4 L_StatMap5 L_Demo L_Registry L_Serde.
Import ListNotations.
Local Open Scope Z_scope.

Lemma C38_same_process_proof :
  forall (P : Prog) (Q : QFlag) (N : StatNames P) (C : Codec P Q) (r : registry P) (m : map_t P Q),
  (forall e, In e m -> storable C e /\ name_back N r (e_stat e)) ->
  exists d, ser_map N C m = ok d /\ de_map C (WReg r) d = ok m.
Proof. intros P Q N C r m. apply ser_map_ok. Qed.

Lemma C38_history_same_process_proof :
  forall (P : Prog) (Q : QFlag) (N : StatNames P) (C : Codec P Q) (bs : list comparison -> bsres),
  bs_contract bs -> distinct_vtables P -> lawful_ord (q_cmp Q) ->
  (forall t (v : val (VT P t)), exists d, c_vser C t v = ok d /\ c_vde C t d = ok v) ->
  (forall x, flag_back C x) ->
  forall (r : registry P) (l : list (mop P Q)) (m : map_t P Q), Forall sound_op l -> mops_run bs [] l = Done m ->
  (forall e, In e m -> c_serial C (si_ty (e_stat e)) = true /\ name_back N r (e_stat e)) ->
  exists d, ser_map N C m = ok d /\ de_map C (WReg r) d = ok m.
Proof.
  intros P Q N C bs B D OQ HV HF r l m HS R H. apply ser_map_ok. intros e He.
  destruct (proj2 (mops_safe bs B D OQ l [] sorted_nil typed_nil HS) m R) as [_ T].
  destruct (H e He) as [H1 H2]. split; [|exact H2]. split; [|split; apply HF]. split; [exact H1|].
  unfold typed in T. rewrite Forall_forall in T. destruct (ok_buf_inv P _ _ (T e He)) as (v & Ev & F).
  split; [exact F|]. destruct (HV _ v) as (d & A & A'). exists v, d. auto.
Qed.

Lemma C38_registered_names_lead_back_proof :
  forall (P : Prog) (N : StatNames P), distinct_vtables P ->
  forall (l1 l2 : list (rop P)) (s : inst P) n,
  sn_name N (si_ty s) (si_index s) = Done n -> named N n s ->
  snd (register N (rops_run N l1) (si_ty s)) = Done tt ->
  (forall U j, In (RReplace U) l2 -> ~ In (n, j) (sn_values N U)) ->
  name_back N (rops_run N (l1 ++ RRegister (si_ty s) :: l2)) s.
Proof.
  intros P N D l1 l2 s n E Hn HR F. exists n. split; [exact E|]. rewrite rops_app. cbn [fold_left rop_run].
  apply (rops_keep N D); [intros U HU j; apply F, HU|]. rewrite <- (inst_eta s) at 2. apply (reg_each_resolves D); assumption.
Qed.

Lemma C38_other_process_content_proof :
  forall (P : Prog) (Q : QFlag) (N : StatNames P) (C : Codec P Q) (a : sty P -> Z)
         (r' : registry (readdress P a)) (m : map_t P Q),
  (forall e, In e m -> storable C e /\
     exists n, sn_name N (si_ty (e_stat e)) (si_index (e_stat e)) = Done n /\ reg_get r' n = Some (re_inst P a (e_stat e))) ->
  exists d, ser_map N C m = ok d /\ de_map (re_codec P a C) (WReg r') d = ok (re_map P a m).
Proof. intros P Q N C a r' m. apply re_ser_map_ok. Qed.

Lemma C38_other_process_same_order_proof :
  forall (P : Prog) (Q : QFlag) (bs bs' : list comparison -> bsres) (a : sty P -> Z),
  bs_contract bs -> bs_contract bs' -> distinct_vtables P -> injective a -> lawful_ord (q_cmp Q) ->
  forall (l : list (mop P Q)) (m : map_t P Q), Forall tsingle l -> mops_run bs [] l = Done m ->
  same_order a m -> answers_same bs bs' a m (re_map P a m).
Proof.
  intros P Q bs bs' a B B' D D' OQ l m S R O.
  destruct (run_correct bs B D OQ l [] m wf_nil typed_nil (single_fresh _ l S) R) as [W [T _]].
  apply re_answers; auto. apply re_wf; assumption.
Qed.

Lemma C38_other_process_one_type_proof :
  forall (P : Prog) (Q : QFlag) (bs bs' : list comparison -> bsres) (a : sty P -> Z),
  bs_contract bs -> bs_contract bs' -> distinct_vtables P -> injective a -> lawful_ord (q_cmp Q) ->
  forall (l : list (mop P Q)) (m : map_t P Q), Forall tsingle l -> mops_run bs [] l = Done m ->
  one_type m -> answers_same bs bs' a m (re_map P a m).
Proof.
  intros P Q bs bs' a B B' D D' OQ l m S R O. apply (C38_other_process_same_order_proof P Q bs bs' a B B' D D' OQ l m S R).
  intros e1 e2 H1 H2. rewrite (O e1 e2 H1 H2), !Z.compare_refl. reflexivity.
Qed.

Lemma C38_other_process_refuted_proof :
  distinct_vtables demo2 /\
  exists (l : list (mop demo intQ)) d,
  runs l = true /\ saved l = Some d /\ loading2 d = Loaded /\
  get_atk (demo_run l) none = Done (Some (num 4)) /\
  eval_alive (demo_run l) (@Aggregate intQ 0) = Done true /\
  forall bs, bs = bs_old \/ bs = bs_new ->
  get_atk2 bs (load2 d) none = Done None /\
  eval_alive2 bs (load2 d) (@Aggregate intQ 0) = UB.
Proof.
  split; [intros [] [] H; cbn in H; congruence|].
  exists [put_atk none 4; put_alive none true; put_hp fire 3].
  exists (map_of [entry_of none "Atk" (dnum 4); entry_of none "Alive" (DBool true); entry_of fire "Hp" (dnum 3)]%string).
  do 5 (split; [vm_compute; reflexivity|]). intros bs [-> | ->]; split; vm_compute; reflexivity.
Qed.

Lemma C39_accepted_iff_proof :
  forall (P : Prog) (Q : QFlag) (C : Codec P Q) (w : dworld P) d (m : map_t P Q),
  de_map C w d = ok m <-> exists l, is_inner C d (DSeq l) /\ Forall2 (entry_doc C w) l m.
Proof. intros P Q C w d m. apply de_map_iff. Qed.

Lemma C39_qualifier_iff_proof :
  forall (P : Prog) (Q : QFlag) (C : Codec P Q) d q, de_qual C d = ok q <-> qual_doc C d q.
Proof. intros P Q C d q. apply de_qual_iff. Qed.
Lemma C39_entry_iff_proof :
  forall (P : Prog) (Q : QFlag) (C : Codec P Q) (w : dworld P) d e, de_entry C w d = ok e <-> entry_doc C w d e.
Proof. intros P Q C w d e. apply de_entry_iff. Qed.

Lemma C39_single_faults_proof :
  forall (P : Prog) (Q : QFlag) (C : Codec P Q) (r : registry P),
  de_entry C (WReg r) (DSeq []) = err /\
  (forall dq, de_qual C dq = err -> forall l, de_entry C (WReg r) (DSeq (dq :: l)) = err) /\
  (forall dq q, de_qual C dq = ok q ->
     de_entry C (WReg r) (DSeq [dq]) = err /\
     (forall d2 l, (forall n, d2 <> DStr n) -> de_entry C (WReg r) (DSeq (dq :: d2 :: l)) = err) /\
     (forall n l, reg_get r n = None -> de_entry C (WReg r) (DSeq (dq :: DStr n :: l)) = err) /\
     (forall n s, reg_get r n = Some s ->
        de_entry C (WReg r) (DSeq [dq; DStr n]) = err /\
        (forall dv l, c_serial C (si_ty s) = true -> fits s -> c_vde C (vt_value P (si_ty s)) dv = err ->
           de_entry C (WReg r) (DSeq (dq :: DStr n :: dv :: l)) = err))) /\
  (forall d, (forall l, d <> DSeq l) -> de_entry C (WReg r) d = err).
Proof.
  intros P Q C r. split; [reflexivity|]. split; [intros dq H l; cbn -[rbind]; rewrite H; reflexivity|]. split.
  - intros dq q H. split; [cbn -[rbind]; rewrite H; reflexivity|]. split; [|split].
    + intros d2 l Hd. cbn -[rbind]. rewrite H, rbind_ok_l. destruct d2; try reflexivity. destruct (Hd s). reflexivity.
    + intros n l Hn. cbn -[rbind]. rewrite H, rbind_ok_l. rewrite Hn. reflexivity.
    + intros n s Hn. split; [cbn -[rbind]; rewrite H, rbind_ok_l, Hn; reflexivity|].
      intros dv l S F E. cbn -[rbind]. rewrite H, rbind_ok_l, Hn, rbind_ok_l. unfold de_value. rewrite S. unfold fits in F. rewrite F. cbn [obind].
      rewrite E. reflexivity.
  - intros d Hd. destruct d; try reflexivity. destruct (Hd l). reflexivity.
Qed.

Lemma C39_faulty_item_no_map_proof :
  forall (P : Prog) (Q : QFlag) (C : Codec P Q) (w : dworld P) l1 d l2,
  (forall e, de_entry C w d <> ok e) ->
  forall doc, is_inner C doc (DSeq (l1 ++ d :: l2)) -> forall m, de_map C w doc <> ok m.
Proof.
  intros P Q C w l1 d l2 H doc I m E. apply de_map_iff in E. destruct E as (l & I' & F).
  assert (l = l1 ++ d :: l2) as ->.
  { destruct I as [(a & b & -> & A & B)|(a & -> & _)], I' as [(a' & b' & E & A' & B')|(a' & E & _)]; try discriminate E.
    - injection E as E. clear - A B A' E. revert a' A' E. induction a as [|[k x] a IH]; intros [|[k' x'] a'] A' E; cbn in E.
      + congruence.
      + injection E as <- <- _. destruct (A' (DSeq (l1 ++ d :: l2))). left. reflexivity.
      + injection E as -> -> _. destruct (A (DSeq l)). left. reflexivity.
      + injection E as <- <- E. apply (IH (fun y Hy => A y (or_intror Hy)) a' (fun y Hy => A' y (or_intror Hy)) E).
    - congruence. }
  apply Forall2_app_inv_l in F. destruct F as (m1 & m2 & _ & F & _). inversion F as [|? e ? ? X]; subst.
  apply de_entry_iff in X. exact (H e X).
Qed.

Lemma C39_faulty_item_error_proof :
  forall (P : Prog) (Q : QFlag) (C : Codec P Q) (w : dworld P) l1 m1 d l2,
  de_entries C w l1 = ok m1 -> de_entry C w d = err -> de_entries C w (l1 ++ d :: l2) = err.
Proof.
  intros P Q C w l1. induction l1 as [|x l1 IH]; intros m1 d l2 H1 H2; cbn -[rbind].
  - rewrite H2. reflexivity.
  - cbn -[rbind] in H1. apply rbind_ok in H1. destruct H1 as (e & A & H1). apply rbind_ok in H1. destruct H1 as (m' & B & H1).
    rewrite A, rbind_ok_l, (IH m' d l2 B H2). reflexivity.
Qed.

Lemma C39_loaded_is_typed_proof :
  forall (P : Prog) (Q : QFlag) (C : Codec P Q) (w : dworld P) d (m : map_t P Q),
  de_map C w d = ok m -> m_drop m = Done tt /\ m_clone m = Done m /\
  forall e, In e m -> fits (e_stat e) /\ b_ty (e_val e) = vt_value P (si_ty (e_stat e)).
Proof.
  intros P Q C w d m H. apply de_map_iff in H. destruct H as (l & _ & F).
  assert (K : forall e, In e m -> fits (e_stat e) /\ exists v, e_val e = Buf (vt_value P (si_ty (e_stat e))) v).
  { intros e He. induction F as [|x y l m X F IH]; [destruct He|]. destruct He as [<-|He]; [|apply IH, He].
    destruct X as (? & ? & ? & ? & ? & v & _ & _ & _ & _ & _ & _ & X1 & _ & X2). eauto. }
  clear F. split; [|split].
  - unfold m_drop. induction m as [|e m IH]; cbn; [reflexivity|]. destruct (K e (or_introl eq_refl)) as (F & v & ->).
    rewrite (vt_drop_ok P _ v F). cbn. apply IH. intros x Hx. apply K. right. exact Hx.
  - unfold m_clone. induction m as [|e m IH]; cbn; [reflexivity|]. destruct (K e (or_introl eq_refl)) as (F & v & Ev). rewrite Ev.
    rewrite (vt_clone_ok P _ v F). cbn. rewrite IH by (intros x Hx; apply K; right; exact Hx). cbn. rewrite <- Ev. destruct e; reflexivity.
  - intros e He. destruct (K e He) as (F & v & ->). split; [exact F|reflexivity].
Qed.

Lemma C39_always_error_refuted_proof :
  exists d, loading1 d = Refused /\
  loading WNoResource d = Panicked PUnwrap.
Proof. exists (map_of [entry_of none "Nope" (dnum 1)]%string). split; vm_compute; reflexivity. Qed.

Lemma C39_bad_order_accepted_refuted_proof :
  exists d, loads d = true /\ ~ wf (load d) /\ query_atk (load d) = UB.
Proof.
  exists (map_of [entry_of none "Alive" (DBool true); entry_of none "Atk" (dnum 1)]%string).
  split; [vm_compute; reflexivity|]. split; [|vm_compute; reflexivity].
  intros W. unfold wf in W. assert (E : load (map_of [entry_of none "Alive" (DBool true); entry_of none "Atk" (dnum 1)]%string) =
    [Entry alive none (@Buf demo VBool true); Entry atk none (@Buf demo VNum (num 1))]) by reflexivity.
  rewrite E in W. inversion W as [|? ? _ F]; subst. inversion F as [|? ? X]; subst. discriminate X.
Qed.

Lemma C24_decoding_leaks_exactly_proof :
  forall (P : Prog) (Q : QFlag) (C : Codec P Q) (w : dworld P) d b,
  de_leaked C w d = [b] <->
  exists dq dn dv x rest e, d = DSeq (dq :: dn :: dv :: x :: rest) /\ c_strict C = true /\
    de_entry C w (DSeq [dq; dn; dv]) = ok e /\ e_val e = b.
Proof.
  intros P Q C w d b. split.
  - destruct d as [| | | |l|]; try discriminate. unfold de_leaked. destruct (de_triple C w l) as [[e|]|p| |] eqn:E; try discriminate.
    destruct (leftover C (skipn 3 l)) eqn:L; [|intros H; apply (f_equal (@length _)) in H; discriminate H]. intros H. apply (f_equal (fun l => hd (e_val e) l)) in H. cbn [hd] in H. subst b.
    destruct l as [|d1 [|d2 [|d3 [|x l]]]]; cbn in L; unfold leftover in L; rewrite ?andb_false_r in L; try discriminate L.
    exists d1, d2, d3, x, l, e. rewrite andb_true_r in L. split; [reflexivity|]. split; [exact L|]. split; [|reflexivity].
    unfold de_entry. change (de_triple C w [d1; d2; d3]) with (de_triple C w (d1 :: d2 :: d3 :: x :: l)). rewrite E. cbn. unfold leftover. rewrite andb_false_r. reflexivity.
  - intros (dq & dn & dv & x & rest & e & -> & S & E & <-). unfold de_entry in E. apply rbind_ok in E. destruct E as (e' & E & E').
    cbn in E'. unfold leftover in E'. rewrite andb_false_r in E'. injection E' as ->. cbn -[rbind de_triple].
    change (de_triple C w (dq :: dn :: dv :: x :: rest)) with (de_triple C w [dq; dn; dv]). rewrite E. unfold leftover. rewrite S. reflexivity.
Qed.

Lemma C50_no_serialize_proof :
  forall (P : Prog) (Q : QFlag) (N : StatNames P) (C : Codec P Q),
  (forall m d e, ser_map N C m = ok d -> In e m -> c_serial C (si_ty (e_stat e)) = true) /\
  (forall w d m e, de_map C w d = ok m -> In e m -> c_serial C (si_ty (e_stat e)) = true) /\
  (forall T b, c_serial C T = false -> ser_value C T b = Panics PNoSerialize) /\
  (forall T d, c_serial C T = false -> de_value C T d = Panics PNoSerialize).
Proof.
  intros P Q N C. split; [|split; [|split]].
  - intros m d e H He. unfold ser_map in H. apply rbind_ok in H. destruct H as (l & H & _). revert l H.
    induction m as [|x m IH]; intros l H; [destruct He|]. cbn -[rbind] in H. apply rbind_ok in H. destruct H as (y & H1 & H).
    apply rbind_ok in H. destruct H as (l' & H2 & _). destruct He as [->|He]; [|exact (IH He l' H2)].
    unfold ser_entry in H1. apply rbind_ok in H1. destruct H1 as (q & _ & H1). destruct (sn_name N _ _); try discriminate H1. cbn [obind] in H1.
    apply rbind_ok in H1. destruct H1 as (v & H1 & _). unfold ser_value in H1. destruct (c_serial C (si_ty (e_stat e))); [reflexivity|discriminate H1].
  - intros w d m e H He. apply de_map_iff in H. destruct H as (l & _ & F). induction F as [|x y l m X F IH]; [destruct He|].
    destruct He as [<-|He]; [|apply IH, He]. destruct X as (? & ? & ? & ? & ? & v & _ & _ & _ & _ & _ & X & _). exact X.
  - intros T b H. unfold ser_value. rewrite H. reflexivity.
  - intros T d H. unfold de_value. rewrite H. reflexivity.
Qed.

Lemma C51_canonical_document_proof :
  forall (P : Prog) (Q : QFlag) (N : StatNames P) (C : Codec P Q) (bs : list comparison -> bsres),
  bs_contract bs -> distinct_vtables P -> lawful_ord (q_cmp Q) ->
  forall (l1 l2 : list (mop P Q)) m1 m2, Forall tsingle l1 -> Forall tsingle l2 ->
  mops_run bs [] l1 = Done m1 -> mops_run bs [] l2 = Done m2 ->
  (forall q s, m_get bs m1 q s = m_get bs m2 q s) ->
  m1 = m2 /\ ser_map N C m1 = ser_map N C m2.
Proof.
  intros P Q N C bs B D OQ l1 l2 m1 m2 S1 S2 R1 R2 H.
  destruct (run_correct bs B D OQ l1 [] m1 wf_nil typed_nil (single_fresh _ l1 S1) R1) as [W1 [T1 _]].
  destruct (run_correct bs B D OQ l2 [] m2 wf_nil typed_nil (single_fresh _ l2 S2) R2) as [W2 [T2 _]].
  assert (E : m1 = m2); [|split; [exact E|rewrite E; reflexivity]].
  assert (I : forall e, In e m1 <-> In e m2).
  { assert (K : forall m m' : map_t P Q, wf m -> typed m -> wf m' -> typed m' -> (forall q s, m_get bs m q s = m_get bs m' q s) -> forall e, In e m -> In e m').
    { clear - B D OQ. intros m m' W T W' T' H [s q b] He. pose proof T as T0. unfold typed in T0. rewrite Forall_forall in T0.
      destruct (ok_buf_inv P _ _ (T0 _ He)) as (v & Ev & _). cbn [e_stat e_val] in v, Ev. rewrite Ev in *. apply (tabs_some D OQ) in He; [|assumption..].
      specialize (H q s). rewrite (m_get_spec bs B D OQ m q s W T), (m_get_spec bs B D OQ m' q s W' T'), He in H. injection H as H.
      symmetry in H. apply (tabs_some D OQ) in H; assumption. }
    intros e. split; apply K; auto. }
  clear - D OQ W1 W2 I. revert m2 W2 I. unfold wf in *. induction W1 as [|x m1 W1 IH F1]; intros m2 W2 I.
  - destruct m2 as [|y m2]; [reflexivity|]. destruct (proj2 (I y) (or_introl eq_refl)).
  - destruct W2 as [|y m2 W2 F2]; [destruct (proj1 (I x) (or_introl eq_refl))|].
    rewrite Forall_forall in F1, F2.
    assert (irr : forall e : entry P Q (buffer P), entry_cmp e e <> Lt).
    { intros e. rewrite entry_cmp_eq, (kcmp_refl D OQ). discriminate. }
    assert (tr : forall e f : entry P Q (buffer P), entry_cmp e f = Lt -> entry_cmp f e = Lt -> False).
    { intros e f. rewrite !entry_cmp_eq. intros X Y. rewrite (lo_anti _ (kcmp_ord D OQ)), X in Y. discriminate Y. }
    assert (x = y).
    { destruct (proj1 (I x) (or_introl eq_refl)) as [E|Hx]; [congruence|]. destruct (proj2 (I y) (or_introl eq_refl)) as [E|Hy]; [congruence|].
      destruct (tr x y (F1 y Hy) (F2 x Hx)). }
    subst y. f_equal. apply IH; [assumption|]. intros e. split; intros He.
    + destruct (proj1 (I e) (or_intror He)) as [E|]; [|assumption]. subst. destruct (irr e (F1 e He)).
    + destruct (proj2 (I e) (or_intror He)) as [E|]; [|assumption]. subst. destruct (irr e (F2 e He)).
Qed.
