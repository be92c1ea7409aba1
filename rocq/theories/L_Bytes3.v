From Coq Require Import String Ascii ZArith List Bool Lia.
From Verif Require Import M_Outcome M_Ints M_Value M_Types M_Qualifier M_Search M_Stat M_StatMap M_HashMap M_Registry M_Serde M_Bytes
  S_Search S_StatMap S_Demo S_Serde S_Bytes L_Outcome L_StatMap L_StatMap2 L_StatMap3 L_StatMap4 L_StatMap5 L_Demo L_Serde L_SerdeProofs L_Bytes L_Bytes2.
Import ListNotations.
Local Open Scope Z_scope.

Lemma C70_primitives_proof :
  (forall n, 0 <= n < 2 ^ 64 -> spells take_u64 (put_u64 n) n) /\
  (forall n, 0 <= n < 2 ^ 32 -> spells take_u32 (put_u32 n) n) /\
  (forall n, - 2 ^ 31 <= n < 2 ^ 31 -> spells take_i32 (put_i32 n) n) /\
  (forall b, spells take_bool (put_bool b) b) /\
  (forall utf8 s, utf8 s = true -> Z.of_nat (String.length s) < 2 ^ 64 -> spells (take_str utf8) (put_str s) s).
Proof.
  split; [exact put_u64_spells|]. split; [exact put_u32_spells|]. split; [exact put_i32_spells|].
  split; [exact put_bool_spells|exact put_str_spells].
Qed.
Lemma C70_lengths_proof :
  forall bs n rest, Forall is_byte bs ->
  (take_u64 bs = ok (n, rest) <-> exists l, bs = l ++ rest /\ varint 10 1 l n) /\
  (take_u64 bs = ok (n, rest) -> 0 <= n < 2 ^ 64).
Proof.
  intros bs n rest F. split; [apply take_varint_iff, F|]. intros H. apply (take_varint_iff 10 1 _ _ _ F) in H.
  destruct H as (l & -> & V). apply Forall_app in F. exact (digits_range 10 1 ltac:(lia) l n (proj1 F) V).
Qed.
Lemma C70_round_trip_proof :
  forall (P : Prog) (Q : QFlag) (N : StatNames P) (C : BCodec P Q) (r : registry P) (m : map_t P Q),
  (forall e, In e m -> bstorable N C r e) -> Z.of_nat (List.length m) < 2 ^ 64 ->
  exists bs, put_map N C m = ok bs /\
  (forall rest, take_map C (WReg r) (bs ++ rest) = ok (m, rest)) /\
  (forall p s, bs = p ++ s -> s <> [] -> take_map C (WReg r) p = err).
Proof. intros P Q N C r m H L. exact (map_back N C r m H L). Qed.
Lemma C70_history_proof :
  forall (P : Prog) (Q : QFlag) (N : StatNames P) (C : BCodec P Q) (bs : list comparison -> bsres),
  bs_contract bs -> distinct_vtables P -> lawful_ord (q_cmp Q) ->
  (forall t (v : val (VT P t)), reads_back (b_vput C t) (b_vtake C t) v) ->
  (forall x, bflag_back C x) ->
  forall (r : registry P) (l : list (mop P Q)) (m : map_t P Q), Forall sound_op l -> mops_run bs [] l = Done m ->
  (forall e, In e m -> b_serial C (si_ty (e_stat e)) = true /\ bname_back N C r (e_stat e)) ->
  Z.of_nat (List.length m) < 2 ^ 64 ->
  exists d, put_map N C m = ok d /\ forall rest, take_map C (WReg r) (d ++ rest) = ok (m, rest).
Proof.
  intros P Q N C bs B D OQ HV HF r l m HS R H L.
  destruct (map_back N C r m) as (d & D1 & D2 & _); [|exact L|eauto]. intros e He.
  destruct (proj2 (mops_safe bs B D OQ l [] sorted_nil typed_nil HS) m R) as [_ T].
  destruct (H e He) as [H1 H2]. split; [|split; [apply HF|split; [apply HF|exact H2]]]. split; [exact H1|].
  unfold typed in T. rewrite Forall_forall in T. destruct (ok_buf_inv P _ _ (T e He)) as (v & Ev & F).
  split; [exact F|]. exists v. auto.
Qed.
Lemma C70_injective_proof :
  forall (P : Prog) (Q : QFlag) (N : StatNames P) (C : BCodec P Q) (r : registry P) (m1 m2 : map_t P Q) b1 b2,
  (forall e, In e m1 -> bstorable N C r e) -> (forall e, In e m2 -> bstorable N C r e) ->
  Z.of_nat (List.length m1) < 2 ^ 64 -> Z.of_nat (List.length m2) < 2 ^ 64 ->
  put_map N C m1 = ok b1 -> put_map N C m2 = ok b2 -> forall s1 s2, b1 ++ s1 = b2 ++ s2 -> m1 = m2 /\ b1 = b2 /\ s1 = s2.
Proof.
  intros P Q N C r m1 m2 b1 b2 H1 H2 L1 L2 P1 P2 s1 s2 E.
  destruct (map_back N C r m1 H1 L1) as (d1 & A1 & A2 & _). destruct (map_back N C r m2 H2 L2) as (d2 & B1 & B2 & _).
  rewrite P1 in A1. injection A1 as ->. rewrite P2 in B1. injection B1 as ->.
  specialize (A2 s1). specialize (B2 s2). rewrite E in A2. rewrite A2 in B2. injection B2 as -> ->.
  split; [reflexivity|]. split; [|reflexivity]. apply app_inv_tail in E. exact E.
Qed.
Lemma C70_accepted_iff_proof :
  forall (P : Prog) (Q : QFlag) (C : BCodec P Q), hands_on (b_qtake C) -> (forall t, hands_on (b_vtake C t)) ->
  forall (w : dworld P) bs (m : map_t P Q) rest, Forall is_byte bs ->
  (take_map C w bs = ok (m, rest) <->
   exists l b1, bs = l ++ b1 /\ varint 10 1 l (Z.of_nat (List.length m)) /\ entries_bytes C w b1 m rest).
Proof. intros P Q C HQ HV w bs m rest F. exact (map_iff C HQ HV w bs m rest F). Qed.

Lemma rbind_done {A B} (m : res A) (k : A -> res B) : (exists o, m = Done o) -> (forall a, m = ok a -> exists o, k a = Done o) -> exists o, rbind m k = Done o.
Proof. intros [[a|] ->] H; [|exists None; reflexivity]. destruct (H a eq_refl) as [o E]. exists o. exact E. Qed.
Lemma take_str_returns utf8 : returns (take_str utf8).
Proof.
  intros bs. unfold take_str. apply rbind_done; [apply take_varint_returns|]. intros [n b] _. cbn [fst snd].
  apply rbind_done; [unfold take_bytes; destruct (_ <=? _); eexists; reflexivity|]. intros [q b'] _. cbv zeta. destruct (utf8 _); eexists; reflexivity.
Qed.
Lemma C70_returns_proof :
  forall (P : Prog) (Q : QFlag) (C : BCodec P Q), returns (b_qtake C) -> (forall t, returns (b_vtake C t)) ->
  forall (r : registry P), (forall n s, reg_get r n = Some s -> b_serial C (si_ty s) = true /\ fits s) ->
  forall bs, exists o, take_map C (WReg r) bs = Done o.
Proof.
  intros P Q C HQ HV r HR bs. unfold take_map. apply rbind_done; [apply take_varint_returns|]. intros [n b] _. cbn [fst snd].
  generalize (Z.to_nat n). clear n bs. intros n. revert b. induction n as [|n IH]; intros b; [eexists; reflexivity|].
  cbn [take_entries]. apply rbind_done.
  - unfold take_entry. apply rbind_done; [apply take_varint_returns|]. intros [k b1] _. cbn [fst snd].
    destruct (k <? 1); [eexists; reflexivity|]. apply rbind_done.
    { unfold take_qual. apply rbind_done; [apply HQ|]. intros [x b2] _. apply rbind_done; [apply HQ|]. intros [y b3] _. eexists; reflexivity. }
    intros [q b2] _. cbn [fst snd]. destruct (k <? 2); [eexists; reflexivity|]. apply rbind_done.
    { unfold take_stat. apply rbind_done; [apply take_str_returns|]. intros [s b3] _. cbn [fst snd]. destruct (reg_get r s); eexists; reflexivity. }
    intros [s b3] E. cbn [fst snd]. destruct (k <? 3); [eexists; reflexivity|].
    assert (G : exists nm, reg_get r nm = Some s).
    { unfold take_stat in E. apply rbind_ok in E. destruct E as ([nm b4] & _ & E). cbn [fst snd] in E.
      destruct (reg_get r nm) eqn:G; [|discriminate]. injection E as <- <-. eauto. }
    destruct G as [nm G]. destruct (HR _ _ G) as [S1 F]. unfold fits in F.
    apply rbind_done; [|intros [y b4] _; eexists; reflexivity].
    unfold take_value. rewrite S1, F. cbn [obind]. apply rbind_done; [apply HV|]. intros [v b4] _. unfold buf_from. cbn [fst snd]. rewrite F. eexists; reflexivity.
  - intros [e b1] _. apply rbind_done; [apply IH|]. intros [m b2] _. eexists; reflexivity.
Qed.

Section Typed.
  Context {P : Prog} {Q : QFlag} (C : BCodec P Q).
  Lemma take_entry_typed w bs e rest : take_entry C w bs = ok (e, rest) ->
    b_serial C (si_ty (e_stat e)) = true /\ fits (e_stat e) /\ exists v, e_val e = Buf (vt_value P (si_ty (e_stat e))) v.
  Proof.
    unfold take_entry. intros H. apply rbind_ok in H. destruct H as ([k b1] & _ & H). cbn [fst snd] in H.
    destruct (k <? 1); [discriminate|]. apply rbind_ok in H. destruct H as ([q b2] & _ & H). cbn [fst snd] in H.
    destruct (k <? 2); [discriminate|]. apply rbind_ok in H. destruct H as ([s b3] & _ & H). cbn [fst snd] in H.
    destruct (k <? 3); [discriminate|]. apply rbind_ok in H. destruct H as ([b b4] & V & H). cbn [fst snd] in H.
    injection H as <- <-. cbn [e_stat e_val]. unfold take_value in V. destruct (b_serial C (si_ty s)); [|discriminate].
    destruct (validate_ty P (vt_value P (si_ty s))) as [[]|p| |] eqn:F; try discriminate. cbn [obind] in V.
    apply rbind_ok in V. destruct V as ([v b5] & _ & V). unfold buf_from in V. rewrite F in V. cbn [obind fst snd] in V.
    injection V as <- <-. split; [reflexivity|]. split; [exact F|]. eauto.
  Qed.
  Lemma take_entries_typed w : forall n bs m rest, take_entries C w n bs = ok (m, rest) ->
    forall e, In e m -> b_serial C (si_ty (e_stat e)) = true /\ fits (e_stat e) /\ exists v, e_val e = Buf (vt_value P (si_ty (e_stat e))) v.
  Proof.
    induction n as [|n IH]; intros bs m rest H e He; cbn [take_entries] in H.
    - injection H as <- <-. destruct He.
    - apply rbind_ok in H. destruct H as ([x b1] & H1 & H). cbn [fst snd] in H. apply rbind_ok in H. destruct H as ([m' b2] & H2 & H).
      cbn [fst snd] in H. injection H as <- <-. destruct He as [<-|He]; [eapply take_entry_typed, H1|eapply IH; eassumption].
  Qed.
End Typed.
Lemma C70_typed_proof :
  forall (P : Prog) (Q : QFlag) (C : BCodec P Q) (w : dworld P) bs (m : map_t P Q) rest,
  take_map C w bs = ok (m, rest) -> m_drop m = Done tt /\ m_clone m = Done m /\
  forall e, In e m -> b_serial C (si_ty (e_stat e)) = true /\ fits (e_stat e) /\ b_ty (e_val e) = vt_value P (si_ty (e_stat e)).
Proof.
  intros P Q C w bs m rest H. unfold take_map in H. apply rbind_ok in H. destruct H as ([n b] & _ & H). cbn [fst snd] in H.
  pose proof (take_entries_typed C w _ _ _ _ H) as K. clear H. split; [|split].
  - unfold m_drop. induction m as [|e m IH]; cbn; [reflexivity|]. destruct (K e (or_introl eq_refl)) as (_ & F & v & ->).
    rewrite (vt_drop_ok P _ v F). cbn. apply IH. intros x Hx. apply K. right. exact Hx.
  - unfold m_clone. induction m as [|e m IH]; cbn; [reflexivity|]. destruct (K e (or_introl eq_refl)) as (_ & F & v & Ev). rewrite Ev.
    rewrite (vt_clone_ok P _ v F). cbn. rewrite IH by (intros x Hx; apply K; right; exact Hx). cbn. rewrite <- Ev. destruct e; reflexivity.
  - intros e He. destruct (K e He) as (S1 & F & v & ->). split; [exact S1|split; [exact F|reflexivity]].
Qed.

(** *** The demo program *)
Lemma varint_hands_on k top : hands_on (take_varint k top).
Proof. intros bs x rest F H. apply (take_varint_iff _ _ _ _ _ F) in H. destruct H as (l & -> & _). apply forall_app_r in F. exact F. Qed.
Lemma i32_hands_on : hands_on take_i32.
Proof.
  intros bs x rest F H. unfold take_i32 in H. apply rbind_ok in H. destruct H as ([u b] & H & E). cbn [fst snd] in E. injection E as _ <-.
  eapply varint_hands_on; eassumption.
Qed.
Lemma demo_hands_on : hands_on (b_qtake demoB) /\ forall t, hands_on (b_vtake demoB t).
Proof.
  split; [exact (varint_hands_on 5 15)|]. intros [|].
  - intros bs x rest F H. change (take_quad bs = ok (x, rest)) in H. unfold take_quad in H.
    apply rbind_ok in H. destruct H as ([a b1] & H1 & H). cbn [fst snd] in H.
    apply rbind_ok in H. destruct H as ([b b2] & H2 & H). cbn [fst snd] in H.
    apply rbind_ok in H. destruct H as ([c b3] & H3 & H). cbn [fst snd] in H.
    apply rbind_ok in H. destruct H as ([d b4] & H4 & H). cbn [fst snd] in H. injection H as _ <-.
    eapply i32_hands_on; [|exact H4]. eapply i32_hands_on; [|exact H3]. eapply i32_hands_on; [|exact H2]. eapply i32_hands_on; [|exact H1]. exact F.
  - intros bs x rest F H. change (take_bool bs = ok (x, rest)) in H. unfold take_bool in H. destruct bs as [|b bs]; [discriminate|].
    inversion F; subst. destruct (b =? 0); [injection H as _ <-; assumption|]. destruct (b =? 1); [injection H as _ <-; assumption|discriminate].
Qed.
Lemma quad_spells v : quad_i32 v -> spells take_quad (put_quad v) v.
Proof.
  intros (A & B & C & D). unfold put_quad.
  refine (spells_bind take_i32 (fun a bs => let? b := take_i32 bs in let? c := take_i32 (snd b) in let? d := take_i32 (snd c) in ok (Quad a (fst b) (fst c) (fst d), snd d)) _ _ _ _ (put_i32_spells _ A) _).
  refine (spells_bind take_i32 (fun b bs => let? c := take_i32 bs in let? d := take_i32 (snd c) in ok (Quad (addend v) b (fst c) (fst d), snd d)) _ _ _ _ (put_i32_spells _ B) _).
  refine (spells_bind take_i32 (fun c bs => let? d := take_i32 bs in ok (Quad (addend v) (vmin v) c (fst d), snd d)) _ _ _ _ (put_i32_spells _ C) _).
  pose proof (spells_map take_i32 (fun d => Quad (addend v) (vmin v) (vmax v) d) _ _ (put_i32_spells _ D)) as H. destruct v. exact H.
Qed.
Lemma demo_quad_back v : quad_i32 v -> reads_back (b_vput demoB VNum) (b_vtake demoB VNum) v.
Proof. intros H. exists (put_quad v). split; [reflexivity|]. exact (quad_spells v H). Qed.
Lemma demo_bool_back b : reads_back (b_vput demoB VBool) (b_vtake demoB VBool) b.
Proof. exists (put_bool b). split; [reflexivity|]. exact (put_bool_spells b). Qed.
Lemma demo_flag_back x : 0 <= x < 2 ^ 32 -> bflag_back demoB x.
Proof. intros H. exists (put_u32 x). split; [reflexivity|]. exact (put_u32_spells x H). Qed.

(** Two ways to write 1. *)
Lemma C70_one_spelling_refuted_proof :
  exists bs1 bs2, bs1 <> bs2 /\ Forall is_byte bs1 /\ Forall is_byte bs2 /\
  bsurplus bs1 = Some [] /\ bsurplus bs2 = Some [] /\ bloaded bs1 = bloaded bs2 /\ bcount bs1 = 1%nat.
Proof.
  exists [1; 3; 0; 0; 5; 65; 108; 105; 118; 101; 1], [129; 0; 3; 0; 0; 5; 65; 108; 105; 118; 101; 1].
  split; [discriminate|]. split; [repeat constructor; lia|]. split; [repeat constructor; lia|].
  split; [vm_compute; reflexivity|]. split; [vm_compute; reflexivity|]. split; [reflexivity|]. vm_compute. reflexivity.
Qed.
(** Announced elements that nobody asked for are read as what comes next. *)
Lemma C70_counts_refuted_proof :
  exists q n v x, take_u32 q = ok (0, [0]) /\ take_str (fun _ => true) n = ok ("Alive"%string, []) /\ take_bool v = ok (true, []) /\
  bloading ([2; 4] ++ q ++ n ++ v ++ x) = Loaded /\ bsurplus ([2; 4] ++ q ++ n ++ v ++ x) = Some [] /\
  bcount ([2; 4] ++ q ++ n ++ v ++ x) = 2%nat.
Proof.
  exists [0; 0], [5; 65; 108; 105; 118; 101], [1], [3; 0; 0; 3; 65; 116; 107; 8; 0; 0; 2].
  repeat (split; [vm_compute; reflexivity|]). vm_compute. reflexivity.
Qed.
