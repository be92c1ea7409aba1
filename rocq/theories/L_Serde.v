From Coq Require Import String ZArith List Bool Lia Sorted.
From Verif Require Import M_Outcome M_Value M_Qualifier M_Search M_Stat M_StatMap M_HashMap M_Registry M_Serde
  S_Search S_StatMap S_Serde L_Outcome L_StatMap L_StatMap2 L_StatMap3 L_StatMap4 L_StatMap5.
Import ListNotations.
Local Open Scope Z_scope.

Lemma rbind_ok {A B} (m : res A) (k : A -> res B) b : rbind m k = ok b <-> exists a, m = ok a /\ k a = ok b.
Proof.
  unfold rbind, ok. split.
  - destruct m as [[a|]|p| |]; cbn; intros H; try discriminate. eauto.
  - intros (a & -> & H). exact H.
Qed.
Lemma ok_inj {A} (a b : A) : ok a = ok b -> a = b.
Proof. intros H. injection H as ->. reflexivity. Qed.
Lemma rbind_ok_l {A B} (a : A) (k : A -> res B) : rbind (ok a) k = k a.
Proof. reflexivity. Qed.
Lemma rbind_err_l {A B} (k : A -> res B) : rbind err k = err.
Proof. reflexivity. Qed.
Lemma leftover_false {P Q} (C : Codec P Q) l : leftover C l = false <-> (c_strict C = true -> l = []).
Proof.
  unfold leftover. destruct (c_strict C), l; cbn; split; auto; try discriminate. intros H. discriminate (H eq_refl).
Qed.
Lemma if_err {A} (b : bool) (x : res A) y : (if b then err else x) = ok y <-> b = false /\ x = ok y.
Proof. destruct b; split; auto; try discriminate. intros [H _]. discriminate H. intros [_ H]. exact H. Qed.

Section SameProcess.
  Context {P : Prog} {Q : QFlag} (N : StatNames P) (C : Codec P Q).

  Lemma ser_qual_ok q : flag_back C (any_of q) -> flag_back C (all_of q) ->
    exists d, ser_qual C q = ok d /\ de_qual C d = ok q.
  Proof.
    intros (a & A1 & A2) (b & B1 & B2). unfold ser_qual. rewrite A1, B1, !rbind_ok_l. eexists. split; [reflexivity|].
    unfold ser_struct. destruct (c_named C); cbn -[rbind].
    - rewrite A2, rbind_ok_l. cbn -[rbind]. rewrite B2, !rbind_ok_l. cbn. destruct q; reflexivity.
    - rewrite A2, rbind_ok_l, B2, rbind_ok_l. unfold leftover. rewrite andb_false_r. destruct q; reflexivity.
  Qed.
  Lemma ser_value_ok (s : inst P) b : value_back C s b -> exists d, ser_value C (si_ty s) b = ok d /\ de_value C (si_ty s) d = ok b.
  Proof.
    intros (S & F & v & d & -> & E1 & E2). exists d. unfold ser_value, de_value. rewrite S. unfold fits in F.
    rewrite (buf_ref_ok P _ v F). cbn [obind]. split; [exact E1|]. rewrite F. cbn [obind]. rewrite E2, rbind_ok_l.
    rewrite (buf_from_ok P _ v F). reflexivity.
  Qed.
  Lemma ser_entry_ok r e : storable C e -> name_back N r (e_stat e) ->
    exists d, ser_entry N C e = ok d /\ de_entry C (WReg r) d = ok e.
  Proof.
    intros (HV & H1 & H2) (n & En & Er). destruct (ser_qual_ok _ H1 H2) as (dq & A1 & A2).
    destruct (ser_value_ok _ _ HV) as (dv & B1 & B2). unfold ser_entry. rewrite A1, rbind_ok_l, En. cbn [obind]. rewrite B1, rbind_ok_l.
    eexists. split; [reflexivity|]. cbn -[rbind]. rewrite A2, rbind_ok_l, Er, rbind_ok_l, B2, !rbind_ok_l.
    unfold leftover. rewrite andb_false_r. destruct e; reflexivity.
  Qed.
  Lemma ser_entries_ok r m : (forall e, In e m -> storable C e /\ name_back N r (e_stat e)) ->
    exists l, ser_entries N C m = ok l /\ de_entries C (WReg r) l = ok m.
  Proof.
    induction m as [|e m IH]; intros H; cbn -[rbind]; [exists []; split; reflexivity|].
    destruct (H e (or_introl eq_refl)) as [H1 H2]. destruct (ser_entry_ok r e H1 H2) as (d & A1 & A2).
    destruct IH as (l & B1 & B2); [intros x Hx; apply H; right; exact Hx|]. exists (d :: l). rewrite A1, rbind_ok_l, B1. split; [reflexivity|].
    cbn -[rbind]. rewrite A2, rbind_ok_l, B2. reflexivity.
  Qed.
  Lemma ser_map_ok r m : (forall e, In e m -> storable C e /\ name_back N r (e_stat e)) ->
    exists d, ser_map N C m = ok d /\ de_map C (WReg r) d = ok m.
  Proof.
    intros H. destruct (ser_entries_ok r m H) as (l & A & B). unfold ser_map. rewrite A, rbind_ok_l. eexists. split; [reflexivity|].
    unfold ser_struct. destruct (c_named C); cbn -[rbind]; rewrite B, rbind_ok_l; [reflexivity|]. unfold leftover. rewrite andb_false_r. reflexivity.
  Qed.

  (** *** What a document must be *)
  Lemma de_value_iff (T : sty P) d b : de_value C T d = ok b <->
    c_serial C T = true /\ validate_ty P (vt_value P T) = Done tt /\ exists v, c_vde C (vt_value P T) d = ok v /\ b = Buf (vt_value P T) v.
  Proof.
    unfold de_value. split.
    - destruct (c_serial C T); [|discriminate]. destruct (validate_ty P (vt_value P T)) as [[]|p| |] eqn:F; try discriminate. cbn [obind].
      intros H. apply rbind_ok in H. destruct H as (v & H1 & H2). rewrite (buf_from_ok P _ v F) in H2. injection H2 as <-. eauto 6.
    - intros (-> & F & v & H1 & ->). rewrite F. cbn [obind]. rewrite H1, rbind_ok_l, (buf_from_ok P _ v F). reflexivity.
  Qed.
  Lemma de_stat_iff (w : dworld P) d s : de_stat w d = ok s <-> exists n r, d = DStr n /\ w = WReg r /\ reg_get r n = Some s.
  Proof.
    split.
    - destruct d; try discriminate. destruct w as [| |r]; try discriminate. cbn. destruct (reg_get r s0) as [x|] eqn:E; [|discriminate].
      intros H. injection H as <-. eauto 6.
    - intros (n & r & -> & -> & E). cbn. rewrite E. reflexivity.
  Qed.
  Lemma de_fields2_iff {A} n1 n2 (f : doc -> res A) : n1 <> n2 ->
    let field n (o : option A) l a := match o with Some x => a = x /\ under n l = [] | None => exists d, under n l = [d] /\ f d = ok a end in
    forall l o1 o2 a b, de_fields2 n1 n2 f o1 o2 l = ok (a, b) <-> field n1 o1 l a /\ field n2 o2 l b.
  Proof.
    intros Hn field. induction l as [|[k d] l IH]; intros o1 o2 a b; cbn -[rbind String.eqb under].
    - destruct o1 as [x|], o2 as [y|]; cbn; split; try discriminate.
      + intros H. injection H as <- <-. auto.
      + intros [[-> _] [-> _]]. reflexivity.
      + intros [_ (d & H & _)]. discriminate H.
      + intros [(d & H & _) _]. discriminate H.
      + intros [(d & H & _) _]. discriminate H.
    - assert (U : forall n, under n ((k, d) :: l) = if String.eqb k n then d :: under n l else under n l).
      { intros n. unfold under. cbn -[String.eqb]. destruct (String.eqb k n); reflexivity. }
      destruct (String.eqb k n1) eqn:E1.
      + apply String.eqb_eq in E1. subst k. assert (E2 : String.eqb n1 n2 = false) by (apply String.eqb_neq; exact Hn).
        pose proof (U n1) as U1. pose proof (U n2) as U2. rewrite String.eqb_refl in U1. rewrite E2 in U2.
        unfold field at 1. destruct o1 as [x|].
        * split; [discriminate|]. intros [[_ H] _]. rewrite U1 in H. discriminate H.
        * rewrite U1. split.
          -- intros H. apply rbind_ok in H. destruct H as (a' & H1 & H2). apply IH in H2. destruct H2 as [[-> H2] H3].
             split; [exists d; rewrite H2; auto|]. unfold field in H3 |- *. rewrite U2. exact H3.
          -- intros [(d0 & H1 & H2) H3]. injection H1 as -> H1. rewrite H2, rbind_ok_l. apply IH.
             split; [split; auto|]. unfold field in H3 |- *. rewrite U2 in H3. exact H3.
      + destruct (String.eqb k n2) eqn:E2.
        * apply String.eqb_eq in E2. subst k. pose proof (U n1) as U1. pose proof (U n2) as U2. rewrite String.eqb_refl in U2. rewrite E1 in U1.
          unfold field at 2. destruct o2 as [x|].
          -- split; [discriminate|]. intros [_ [_ H]]. rewrite U2 in H. discriminate H.
          -- rewrite U2. split.
             ++ intros H. apply rbind_ok in H. destruct H as (a' & H1 & H2). apply IH in H2. destruct H2 as [H3 [-> H2]].
                split; [|exists d; rewrite H2; auto]. unfold field in H3 |- *. rewrite U1. exact H3.
             ++ intros [H3 (d0 & H1 & H2)]. injection H1 as -> H1. rewrite H2, rbind_ok_l. apply IH.
                split; [|split; auto]. unfold field in H3 |- *. rewrite U1 in H3. exact H3.
        * rewrite IH. pose proof (U n1) as U1. pose proof (U n2) as U2. rewrite E1 in U1. rewrite E2 in U2. unfold field. rewrite U1, U2. reflexivity.
  Qed.
  Lemma de_qual_iff d q : de_qual C d = ok q <-> qual_doc C d q.
  Proof.
    unfold qual_doc. split.
    - destruct d as [| | | |l|l]; try discriminate; cbn -[rbind de_fields2].
      + destruct l as [|d1 [|d2 l]]; [discriminate| |].
        { intros H. apply rbind_ok in H. destruct H as (a & _ & H). discriminate H. }
        intros H. apply rbind_ok in H. destruct H as (a & Ha & H). apply rbind_ok in H. destruct H as (b & Hb & H).
        apply if_err in H. destruct H as [L H]. injection H as <-. exists d1, d2. split; [exact Ha|]. split; [exact Hb|].
        right. exists l. split; [reflexivity|]. apply leftover_false, L.
      + intros H. apply rbind_ok in H. destruct H as ([a b] & H & H0). injection H0 as <-.
        apply de_fields2_iff in H; [|discriminate]. destruct H as [(d1 & U1 & H1) (d2 & U2 & H2)].
        exists d1, d2. split; [exact H1|]. split; [exact H2|]. left. exists l. auto.
    - intros (d1 & d2 & H1 & H2 & [(l & -> & U1 & U2)|(l & -> & L)]); cbn -[rbind de_fields2].
      + assert (de_fields2 "any_of" "all_of" (c_qde C) None None l = ok (any_of q, all_of q)) as ->.
        { apply de_fields2_iff; [discriminate|]. split; eauto. }
        rewrite rbind_ok_l. destruct q; reflexivity.
      + rewrite H1, rbind_ok_l, H2, rbind_ok_l. apply leftover_false in L. rewrite L. destruct q; reflexivity.
  Qed.
  Lemma de_entry_iff (w : dworld P) d e : de_entry C w d = ok e <-> entry_doc C w d e.
  Proof.
    unfold entry_doc. split.
    - destruct d as [| | | |l|]; try discriminate. cbn -[rbind]. intros H. apply rbind_ok in H. destruct H as (e' & H & H0).
      apply if_err in H0. destruct H0 as [L H0]. injection H0 as ->.
      destruct l as [|d1 l]; [discriminate|]. cbn -[rbind] in H. apply rbind_ok in H. destruct H as (q & H1 & H).
      destruct l as [|d2 l]; [discriminate|]. apply rbind_ok in H. destruct H as (s & H2 & H).
      destruct l as [|d3 l]; [discriminate|]. apply rbind_ok in H. destruct H as (b & H3 & H). injection H as <-.
      apply de_stat_iff in H2. destruct H2 as (n & r & -> & -> & E). apply de_value_iff in H3. destruct H3 as (S & F & v & V & ->).
      cbn [skipn] in L. pose proof (proj1 (leftover_false C l) L) as L'. exists d1, n, d3, l, r, v. cbn [e_qual e_stat e_val]. unfold fits. split; [reflexivity|]. split; [exact L'|]. split; [apply de_qual_iff, H1|]. split; [reflexivity|]. split; [exact E|]. split; [exact S|]. split; [exact F|]. split; [exact V|reflexivity].
    - intros (dq & n & dv & rest & r & v & -> & L & H1 & -> & E & S & F & V & B). cbn -[rbind]. apply de_qual_iff in H1. rewrite H1, rbind_ok_l, E, rbind_ok_l.
      assert (de_value C (si_ty (e_stat e)) dv = ok (e_val e)) as ->. { apply de_value_iff. split; [exact S|]. split; [exact F|]. exists v. auto. }
      rewrite !rbind_ok_l. apply leftover_false in L. rewrite L. destruct e; reflexivity.
  Qed.
  Lemma de_entries_iff (w : dworld P) l m : de_entries C w l = ok m <-> Forall2 (entry_doc C w) l m.
  Proof.
    revert m. induction l as [|d l IH]; intros m; cbn -[rbind].
    - split; [intros H; injection H as <-; constructor|intros H; inversion H; reflexivity].
    - split.
      + intros H. apply rbind_ok in H. destruct H as (e & H1 & H). apply rbind_ok in H. destruct H as (m' & H2 & H). injection H as <-.
        constructor; [apply de_entry_iff, H1|apply IH, H2].
      + intros H. inversion H as [|? e ? m' H1 H2]; subst. apply de_entry_iff in H1. apply IH in H2. rewrite H1, rbind_ok_l, H2. reflexivity.
  Qed.
  Lemma de_vec_iff (w : dworld P) d m : de_vec C w d = ok m <-> exists l, d = DSeq l /\ Forall2 (entry_doc C w) l m.
  Proof.
    split.
    - destruct d as [| | | |l|]; try discriminate. cbn. intros H. exists l. split; [reflexivity|]. apply de_entries_iff, H.
    - intros (l & -> & H). apply de_entries_iff, H.
  Qed.
  Lemma de_fields1_some {A} n (f : doc -> res A) a : forall l r, de_fields1 n f (Some a) l = ok r <-> r = a /\ forall x, ~ In (n, x) l.
  Proof.
    induction l as [|[k d] l IH]; intros r; cbn -[rbind String.eqb].
    - split; [intros H; injection H as <-; auto|intros [-> _]; reflexivity].
    - destruct (String.eqb k n) eqn:E.
      + apply String.eqb_eq in E. subst. split; [discriminate|]. intros [_ H]. destruct (H d). left. reflexivity.
      + apply String.eqb_neq in E. rewrite IH. split; intros [-> H]; (split; [reflexivity|]); intros x Hx.
        * destruct Hx as [Hx|Hx]; [congruence|]. apply (H x Hx).
        * apply (H x). right. exact Hx.
  Qed.
  Lemma de_fields1_iff {A} n (f : doc -> res A) : forall l r, de_fields1 n f None l = ok r <->
    exists l1 d l2, l = l1 ++ (n, d) :: l2 /\ (forall x, ~ In (n, x) l1) /\ (forall x, ~ In (n, x) l2) /\ f d = ok r.
  Proof.
    induction l as [|[k d] l IH]; intros r; cbn -[rbind String.eqb].
    - split; [discriminate|]. intros ([|? ?] & ? & ? & H & _); discriminate.
    - destruct (String.eqb k n) eqn:E.
      + apply String.eqb_eq in E. subst. split.
        * intros H. apply rbind_ok in H. destruct H as (a & H1 & H2). apply de_fields1_some in H2. destruct H2 as [-> H2].
          exists [], d, l. auto.
        * intros (l1 & d' & l2 & H & H1 & H2 & H3). destruct l1 as [|[k' x] l1]; cbn in H; injection H as -> -> .
          -- subst. rewrite H3, rbind_ok_l. apply de_fields1_some. auto.
          -- destruct (H1 x). left. reflexivity.
      + apply String.eqb_neq in E. rewrite IH. split.
        * intros (l1 & d' & l2 & -> & H1 & H2 & H3). exists ((k, d) :: l1), d', l2. repeat split; auto. intros x [Hx|Hx]; [congruence|]. apply (H1 x Hx).
        * intros (l1 & d' & l2 & H & H1 & H2 & H3). destruct l1 as [|[k' x] l1]; cbn in H; injection H as -> ->; [congruence|].
          intros. subst. exists l1, d', l2. repeat split; auto. intros y Hy. apply (H1 y). right. exact Hy.
  Qed.
  Lemma de_map_iff (w : dworld P) d m : de_map C w d = ok m <-> exists l, is_inner C d (DSeq l) /\ Forall2 (entry_doc C w) l m.
  Proof.
    unfold is_inner. split.
    - destruct d as [| | | |l|l]; try discriminate; cbn -[rbind].
      + destruct l as [|d l]; [discriminate|]. intros H. apply rbind_ok in H. destruct H as (m' & H & H0). apply if_err in H0.
        destruct H0 as [L H0]. injection H0 as ->. apply de_vec_iff in H. destruct H as (k & -> & F). exists k. split; [|exact F].
        right. exists l. split; [reflexivity|]. apply leftover_false, L.
      + intros H. apply de_fields1_iff in H. destruct H as (l1 & d & l2 & -> & H1 & H2 & H3). apply de_vec_iff in H3. destruct H3 as (k & -> & F).
        exists k. split; [|exact F]. left. exists l1, l2. auto.
    - intros (l & [(l1 & l2 & -> & H1 & H2)|(k & -> & L)] & F).
      + cbn. apply de_fields1_iff. exists l1, (DSeq l), l2. repeat split; auto. apply de_vec_iff. eauto.
      + cbn -[rbind]. assert (de_entries C w l = ok m) as -> by (apply de_entries_iff, F). rewrite rbind_ok_l. apply leftover_false in L. rewrite L. reflexivity.
  Qed.
End SameProcess.

Section OtherProcess.
  Context {P : Prog} {Q : QFlag} (N : StatNames P) (C : Codec P Q) (a : sty P -> Z).
  Notation P' := (readdress P a).
  Notation C' := (re_codec P a C).

  Lemma re_entry_doc r r' d e : entry_doc C (WReg r) d e ->
    (forall n s, reg_get r n = Some s -> s = e_stat e -> reg_get r' n = Some (re_inst P a s)) ->
    entry_doc C' (WReg r') d (re_entry P a e).
  Proof.
    intros (dq & n & dv & rest & r0 & v & -> & L & H1 & W & E & S & F & V & B) R. injection W as <-.
    exists dq, n, dv, rest, r', v. cbn [re_entry e_qual e_stat e_val re_inst si_ty].
    split; [reflexivity|]. split; [exact L|]. split; [exact H1|]. split; [reflexivity|]. split; [apply R; auto|].
    split; [exact S|]. split; [exact F|]. split; [exact V|]. rewrite B. reflexivity.
  Qed.
  Lemma re_ser_map_ok r' m : (forall e, In e m -> storable C e /\ exists n, sn_name N (si_ty (e_stat e)) (si_index (e_stat e)) = Done n /\ reg_get r' n = Some (re_inst P a (e_stat e))) ->
    exists d, ser_map N C m = ok d /\ de_map C' (WReg r') d = ok (re_map P a m).
  Proof.
    intros H.
    assert (K : exists l, ser_entries N C m = ok l /\ de_entries C' (WReg r') l = ok (re_map P a m)).
    { clear - H. induction m as [|e m IH]; cbn -[rbind]; [exists []; split; reflexivity|].
      destruct (H e (or_introl eq_refl)) as [H1 (n & H2 & H3)].
      destruct (ser_entry_ok N C [(n, e_stat e)] e H1) as (d & A1 & A2).
      { exists n. split; [exact H2|]. unfold reg_get. cbn. rewrite String.eqb_refl. reflexivity. }
      destruct IH as (l & B1 & B2); [intros x Hx; apply H; right; exact Hx|]. exists (d :: l). rewrite A1, rbind_ok_l, B1. split; [reflexivity|].
      apply (de_entries_iff C'). constructor; [|apply de_entries_iff, B2]. apply (re_entry_doc [(n, e_stat e)] r'); [apply de_entry_iff, A2|].
      intros n' s. unfold reg_get at 1. cbn. destruct (String.eqb n n') eqn:E; [|discriminate]. apply String.eqb_eq in E. subst.
      intros X _. injection X as <-. exact H3. }
    destruct K as (l & A & B). unfold ser_map. rewrite A, rbind_ok_l. eexists. split; [reflexivity|].
    apply de_entries_iff in B. apply (de_map_iff C'). exists l. split; [|exact B].
    unfold ser_struct. destruct (c_named C); [left; exists [], []|right; exists []]; cbn; auto.
  Qed.

  Lemma re_inst_inj s s' : re_inst P a s = re_inst P a s' <-> s = s'.
  Proof. split; [|intros ->; reflexivity]. destruct s, s'. unfold re_inst. cbn. intros H. injection H as -> ->. reflexivity. Qed.
  Lemma re_wf m : same_order a m -> wf (P := P) (Q := Q) m -> wf (re_map P a m).
  Proof.
    intros S W. unfold wf in *. induction W as [|e m W IH F]; cbn; [constructor|]. constructor.
    - apply IH. intros e1 e2 H1 H2. apply S; right; assumption.
    - rewrite Forall_forall in *. intros x Hx. apply in_map_iff in Hx. destruct Hx as (y & <- & Hy).
      specialize (F y Hy). unfold entry_cmp, key_cmp, inst_cmp in *. cbn. rewrite (S e y) by (cbn; auto). exact F.
  Qed.
  Lemma re_typed m : typed m <-> typed (P := P') (Q := Q) (re_map P a m).
  Proof. unfold typed, re_map. rewrite Forall_map. apply iff_refl. Qed.

  Section Answers.
    Hypothesis D : distinct_vtables P.
    Hypothesis D' : injective a.
    Hypothesis OQ : lawful_ord (q_cmp Q).
    Lemma D2 : distinct_vtables P'. Proof. exact D'. Qed.
    Lemma re_of_stat s m : of_stat (re_inst P a s) (re_map P a m) = re_map P a (of_stat (P := P) (Q := Q) s m).
    Proof.
      unfold of_stat, re_map. induction m as [|e m IH]; cbn; [reflexivity|]. rewrite IH.
      destruct (inst_eqb (e_stat e) s) eqn:E.
      - apply (inst_eqb_iff D) in E. subst. assert (inst_eqb (re_inst P a (e_stat e)) (re_inst P a (e_stat e)) = true) as ->; [|reflexivity].
        apply (inst_eqb_iff D2). reflexivity.
      - destruct (inst_eqb (re_inst P a (e_stat e)) (re_inst P a s)) eqn:F; [|reflexivity].
        apply (inst_eqb_iff D2), re_inst_inj in F. apply (inst_eqb_iff D) in F. congruence.
    Qed.
    Lemma re_reads s m : reads (re_inst P a s) (re_map P a m) = reads (P := P) (Q := Q) s m.
    Proof.
      induction m as [|e m IH]; cbn [reads re_map map]; [reflexivity|]. fold (re_map P a m). rewrite IH. reflexivity.
    Qed.
    Lemma kcmp_re k1 k2 q1 q2 : kcmp (P := P') (re_inst P a k1, q1) (re_inst P a k2, q2) = Eq <-> kcmp (P := P) (Q := Q) (k1, q1) (k2, q2) = Eq.
    Proof.
      rewrite (lo_eq _ (kcmp_ord D2 OQ)), (lo_eq _ (kcmp_ord D OQ)). split; intros H.
      - injection H as H1 H2 ->. f_equal. destruct k1, k2; cbn in *; subst; reflexivity.
      - congruence.
    Qed.
    Lemma re_absf m s q : absf (P := P') (re_map P a m) (re_inst P a s) q = option_map (re_buf P a) (absf (P := P) (Q := Q) m s q).
    Proof.
      unfold absf, re_map. induction m as [|e m IH]; cbn; [reflexivity|].
      pose proof (kcmp_re (e_stat e) s (e_qual e) q) as K. unfold ekey. cbn [re_entry e_stat e_qual].
      destruct (kcmp (P := P) (e_stat e, e_qual e) (s, q)) eqn:E.
      - rewrite (proj2 K eq_refl). reflexivity.
      - destruct (kcmp (P := P') _ _) eqn:F; [specialize (proj1 K eq_refl); discriminate|exact IH|exact IH].
      - destruct (kcmp (P := P') _ _) eqn:F; [specialize (proj1 K eq_refl); discriminate|exact IH|exact IH].
    Qed.
    Lemma re_tabs m s q : tabs (P := P') (re_map P a m) (re_inst P a s) q = tabs (P := P) (Q := Q) m s q.
    Proof. unfold tabs. rewrite re_absf. destruct (absf m s q) as [b|]; reflexivity. Qed.

    Lemma re_answers bs bs' (m : map_t P Q) : bs_contract bs -> bs_contract bs' -> wf m -> wf (re_map P a m) -> typed m ->
      answers_same bs bs' a m (re_map P a m).
    Proof.
      intros B B' W W' T. pose proof (proj1 (re_typed m) T) as T'.
      pose proof (wf_sorted _ W) as S. pose proof (wf_sorted _ W') as S'.
      assert (G : forall x s, m_query bs' (re_map P a m) x (re_inst P a s) = m_query bs m x s).
      { intros x s. rewrite (m_query_spec bs B D m x s S T). 
        etransitivity; [apply (m_query_spec bs' B' D2 (re_map P a m) x (re_inst P a s) S' T')|]. rewrite re_of_stat, re_reads. reflexivity. }
      split; [|split; [|split; [|split; [|split]]]].
      - intros q s. rewrite (m_get_spec bs B D OQ m q s W T).
        etransitivity; [apply (m_get_spec bs' B' D2 OQ (re_map P a m) q (re_inst P a s) W' T')|]. rewrite re_tabs. reflexivity.
      - intros q s. rewrite (m_get_evaled_spec bs B D OQ m q s W T).
        etransitivity; [apply (m_get_evaled_spec bs' B' D2 OQ (re_map P a m) q (re_inst P a s) W' T')|]. rewrite re_tabs. reflexivity.
      - intros s. rewrite (m_iter_spec bs B D m s S T).
        etransitivity; [apply (m_iter_spec bs' B' D2 (re_map P a m) (re_inst P a s) S' T')|]. rewrite re_of_stat, re_reads. reflexivity.
      - exact G.
      - intros x s. unfold m_eval. rewrite G. reflexivity.
      - unfold m_len, re_map. apply map_length.
    Qed.
  End Answers.
End OtherProcess.
