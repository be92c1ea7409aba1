From Coq Require Import ZArith Arith List Bool Lia Sorted Permutation.
From Verif Require Import M_Outcome M_Value M_Qualifier M_Search M_Stat M_StatMap
  S_Search S_StatMap L_Outcome L_Search L_StatMap L_StatMap2 L_StatMap3.
Import ListNotations.

Section Typed.
  Context {P : Prog} {Q : QFlag}.
  Variable bs : list comparison -> bsres.
  Hypothesis C : bs_contract bs.
  Hypothesis D : distinct_vtables P.
  Hypothesis OQ : lawful_ord (q_cmp Q).
  Notation entry := (entry P Q (buffer P)).
  Notation map_t := (map_t P Q).
  Notation tyof s := (vt_value P (si_ty s)).
  Notation VS s := (VT P (tyof s)).
  Notation kcmp := (@kcmp P Q).
  Notation ok_ty := (ok_ty P).
  Notation ok_buf := (ok_buf P).

  Definition ok_entry (e : entry) : Prop := ok_buf (e_stat e) (e_val e).
  Definition typed (m : map_t) : Prop := Forall ok_entry m.

  (** ** Safety: nothing is read at a type it was not written with *)
  Lemma sorted_replace (a : map_t) e e' c : ekey e = ekey e' -> sorted (a ++ e :: c) -> sorted (a ++ e' :: c).
  Proof.
    unfold sorted. intros E W. apply StronglySorted_app in W as [W1 [W2 W3]]. inversion W2; subst.
    apply StronglySorted_app. repeat split; auto.
    - constructor; [assumption|]. rewrite Forall_forall in *. intros x Hx. specialize (H2 x Hx).
      rewrite entry_cmp_eq in *. rewrite <- E. exact H2.
    - intros x y Hx [<-|Hy].
      + rewrite entry_cmp_eq, <- E, <- entry_cmp_eq. apply W3; [exact Hx|left; reflexivity].
      + apply W3; [exact Hx|right; exact Hy].
  Qed.
  Lemma sorted_delete (a b c : map_t) : sorted (a ++ b ++ c) -> sorted (a ++ c).
  Proof.
    unfold sorted. intros W. apply StronglySorted_app in W as [W1 [W2 W3]]. apply StronglySorted_app in W2 as [_ [W4 _]].
    apply StronglySorted_app. repeat split; auto. intros x y Hx Hy. apply W3; [exact Hx|apply in_or_app; right; exact Hy].
  Qed.
  Lemma sorted_insert (m a c : map_t) (e : entry) : sorted m -> m = a ++ c ->
    search bs m (e_qual e) (e_stat e) = inr (length a) -> sorted (a ++ e :: c).
  Proof.
    intros S -> H. destruct (search_cases bs C D OQ (a ++ c) (e_qual e) (e_stat e) S) as [(?&?&?&_&_&_&_&_&i&Hi&_)|(a' & c' & E & Ha & Hc & Hs)].
    { congruence. }
    rewrite H in Hs. inversion Hs as [L]. apply (f_equal (firstn (length a))) in E as E1. rewrite firstn_len_app, L, firstn_len_app in E1.
    subst a'. apply app_inv_head in E. subst c'.
    unfold sorted in *. apply StronglySorted_app in S as [W1 [W2 W3]]. apply StronglySorted_app. rewrite Forall_forall in Ha, Hc. repeat split; auto.
    - constructor; [assumption|]. rewrite Forall_forall. intros x Hx. rewrite entry_cmp_eq, (lo_anti _ (@kcmp_ord P Q D OQ) (ekey x) (ekey e)).
      unfold ekey at 2. rewrite (Hc x Hx). discriminate.
    - intros x y Hx [<-|Hy]; [|apply W3; assumption]. rewrite entry_cmp_eq. unfold ekey at 2. rewrite (Ha x Hx). discriminate.
  Qed.
  Lemma map_type_eq (m m' : map_t) : m = m' -> typed m -> typed m'. Proof. intros ->; auto. Qed.
  Lemma typed_app (a c : map_t) : typed (a ++ c) <-> typed a /\ typed c.
  Proof. unfold typed. apply Forall_app. Qed.
  Lemma typed_mid (a c : map_t) e : typed (a ++ e :: c) <-> typed a /\ ok_entry e /\ typed c.
  Proof. unfold typed. rewrite Forall_app. split; [intros [H1 H2]; inversion H2; auto|intros [H1 [H2 H3]]; split; [|constructor]; auto]. Qed.

  Lemma build_safe U l : build (P:=P) (Q:=Q) U l <> UB /\ forall r, build U l = Done r -> typed r /\
    r = map (fun x => Entry (Inst U (snd (fst x))) (fst (fst x)) (Buf (vt_value P U) (snd x))) l /\
    (l <> [] -> ok_ty (vt_value P U)).
  Proof.
    induction l as [|[[q i] v] l [IH1 IH2]]; cbn.
    - split; [discriminate|]. intros r H. inversion H; subst. split; [constructor|]. split; [reflexivity|]. congruence.
    - pose proof (buf_from_not_ub P (vt_value P U) v). destruct (buf_from P (vt_value P U) v) as [b|p| |] eqn:E; cbn; try (split; [congruence|intros; discriminate]).
      apply buf_from_inv in E as [-> Hok]. destruct (build U l) as [r0|p| |]; cbn; try (split; [congruence|intros; discriminate]).
      split; [discriminate|]. intros r Hr. inversion Hr; subst. destruct (IH2 r0 eq_refl) as [T [E _]]. split; [|split].
      + constructor; [|exact T]. apply (ok_buf_Buf P (Inst U i)). exact Hok.
      + rewrite E. reflexivity.
      + intros _. exact Hok.
  Qed.
  Lemma drop_all_ok (m : map_t) : typed m -> drop_all m = Done tt.
  Proof.
    induction 1 as [|e m He Hm IH]; cbn; [reflexivity|]. destruct (ok_buf_inv P _ _ He) as [v [-> Hok]].
    rewrite vt_drop_ok by exact Hok. exact IH.
  Qed.
  Lemma update_each_safe s (f : qualifier Q -> val (VS s) -> outcome (val (VS s))) (b : map_t) :
    Forall (fun e => e_stat e = s) b -> typed b -> (forall q v, f q v <> UB) ->
    update_each (fun q b => buf_mut P (tyof s) b (f q)) b <> UB /\
    forall b', update_each (fun q b => buf_mut P (tyof s) b (f q)) b = Done b' -> typed b'.
  Proof.
    intros Hs T Hf. induction b as [|e b IH]; cbn.
    - split; [discriminate|]. intros b' H. inversion H. constructor.
    - inversion Hs as [|? ? Es Hs']; subst. inversion T as [|? ? Te T']; subst.
      destruct (ok_buf_inv P _ _ Te) as [v [-> Hok]]. rewrite buf_mut_ok by exact Hok.
      destruct (IH Hs' T') as [IH1 IH2]. pose proof (Hf (e_qual e) v). destruct (f (e_qual e) v) as [v'|p| |]; cbn; try (split; [congruence|intros; discriminate]).
      destruct (update_each _ b) as [b'|p| |]; cbn; try (split; [congruence|intros; discriminate]).
      split; [discriminate|]. intros r Hr. inversion Hr; subst. constructor; [|apply IH2; reflexivity].
      apply (ok_buf_Buf P (e_stat e)). exact Hok.
  Qed.
  Lemma buf_mut_safe s (b : buffer P) f : ok_buf s b -> (forall v, f v <> UB) ->
    buf_mut P (tyof s) b f <> UB /\ forall b', buf_mut P (tyof s) b f = Done b' -> ok_buf s b'.
  Proof.
    intros Hb Hf. destruct (ok_buf_inv P _ _ Hb) as [v [-> Hok]]. rewrite buf_mut_ok by exact Hok.
    pose proof (Hf v). destruct (f v) as [v'|p| |]; cbn; split; try congruence. intros b' H'. inversion H'. apply ok_buf_Buf, Hok.
  Qed.
  Lemma from_safe s v : buf_from P (tyof s) v <> UB /\ forall b, buf_from P (tyof s) v = Done b -> ok_buf s b.
  Proof.
    split; [apply buf_from_not_ub|]. intros b H. apply buf_from_inv in H as [-> H]. apply ok_buf_Buf, H.
  Qed.
  Lemma put_safe (m : map_t) q s (d : outcome (buffer P)) : sorted m -> typed m -> d <> UB -> (forall b, d = Done b -> ok_buf s b) ->
    cop_run bs m (CPut q s d) <> UB /\ forall x, cop_run bs m (CPut q s d) = Done x -> sorted (x_map x) /\ typed (x_map x).
  Proof.
    intros S T H1 H2. cbn. destruct d as [b|p| |]; cbn; try (split; [congruence|intros; discriminate]).
    specialize (H2 b eq_refl). destruct (put_any bs C D OQ m q s b) as [[a [e [c [-> [E ->]]]]]|[a [c [-> [E ->]]]]]; cbn.
    - split; [discriminate|]. intros x Hx. inversion Hx; subst; cbn. split.
      + eapply sorted_replace; [|exact S]. exact E.
      + apply typed_mid in T as [T1 [T2 T3]]. apply typed_mid. auto.
    - split; [discriminate|]. intros x Hx. inversion Hx; subst; cbn. split.
      + eapply (sorted_insert _ a c (Entry s q b) S); [reflexivity|exact E].
      + apply typed_app in T as [T1 T3]. apply typed_mid. auto.
  Qed.
  Lemma upsert_safe (m : map_t) q s f (d : outcome (buffer P)) : sorted m -> typed m -> (forall v, f v <> UB) ->
    d <> UB -> (forall b, d = Done b -> ok_buf s b) ->
    let o := CUpsert q s (fun b => buf_mut P (tyof s) b f) d in
    cop_run bs m o <> UB /\ forall x, cop_run bs m o = Done x -> sorted (x_map x) /\ typed (x_map x).
  Proof.
    intros S T Hf H1 H2 o. cbn. destruct (upsert_any bs C D OQ m q s (fun b => buf_mut P (tyof s) b f) d) as [[a [e [c [-> [E ->]]]]]|[a [c [-> [E ->]]]]].
    - apply typed_mid in T as [T1 [T2 T3]]. unfold ekey in E. inversion E; subst.
      destruct (buf_mut_safe (e_stat e) (e_val e) f T2 Hf) as [K1 K2].
      destruct (buf_mut P (tyof (e_stat e)) (e_val e) f) as [b|p| |]; cbn; try (split; [congruence|intros; discriminate]).
      split; [discriminate|]. intros x Hx. inversion Hx; subst; cbn. split.
      + eapply sorted_replace; [|exact S]. reflexivity.
      + apply typed_mid. split; [exact T1|split; [exact (K2 _ eq_refl)|exact T3]].
    - destruct d as [b|p| |]; cbn; try (split; [congruence|intros; discriminate]). specialize (H2 b eq_refl).
      split; [discriminate|]. intros x Hx. inversion Hx; subst; cbn. split.
      + eapply (sorted_insert _ a c (Entry s q b) S); [reflexivity|exact E].
      + apply typed_app in T as [T1 T3]. apply typed_mid. auto.
  Qed.

  Lemma mop_safe (m : map_t) (o : mop P Q) : sorted m -> typed m -> sound_op o ->
    mop_run bs m o <> UB /\ forall x, mop_run bs m o = Done x -> sorted (x_map x) /\ typed (x_map x).
  Proof.
    intros S T O.
    assert (Same : forall (c : outcome (effect P Q (buffer P))), obind c Done = c) by (intros []; reflexivity).
    destruct o as [q s v|q s b|q s f|q s|q s op|q s f|s|s f| |U l]; cbn [mop_run mop_core sound_op] in *; unfold mop_run; cbn [mop_core].
    - rewrite Same. destruct (from_safe s v) as [F1 F2]. apply put_safe; assumption.
    - rewrite Same. destruct (from_safe s (sv_from_base (VS s) b)) as [F1 F2]. apply put_safe; assumption.
    - rewrite Same. cbn. destruct (update_any bs C D OQ m q s (fun b => buf_mut P (tyof s) b f)) as [[a [e [c [-> [E ->]]]]]| ->].
      + apply typed_mid in T as [T1 [T2 T3]]. unfold ekey in E. inversion E; subst.
        destruct (buf_mut_safe (e_stat e) (e_val e) f T2 O) as [K1 K2].
        destruct (buf_mut P (tyof (e_stat e)) (e_val e) f) as [b|p| |]; cbn; try (split; [congruence|intros; discriminate]).
        split; [discriminate|]. intros x Hx. inversion Hx; subst; cbn. split.
        * eapply sorted_replace; [|exact S]. reflexivity.
        * apply typed_mid. split; [exact T1|split; [exact (K2 _ eq_refl)|exact T3]].
      + cbn. split; [discriminate|]. intros x Hx. inversion Hx; subst. auto.
    - cbn. destruct (take_any bs C D OQ m q s) as [[a [e [c [-> [E ->]]]]]| ->]; cbn.
      + apply typed_mid in T as [T1 [T2 T3]]. unfold ekey in E. inversion E; subst.
        destruct (ok_buf_inv P _ _ T2) as [v [-> Hok]]. unfold buf_read_move. rewrite buf_ref_ok by exact Hok. cbn.
        split; [discriminate|]. intros x Hx. inversion Hx; subst; cbn. split.
        * apply (sorted_delete a [e] c). exact S.
        * apply typed_app. auto.
      + split; [discriminate|]. intros x Hx. inversion Hx; subst. auto.
    - rewrite Same. apply upsert_safe; try assumption.
      + pose proof (O (sv_default (VS s))) as O'. unfold into_stat. destruct (write_to op (sv_default (VS s))); cbn; try congruence. apply from_safe.
      + unfold into_stat. destruct (write_to op (sv_default (VS s))); cbn; try discriminate. apply from_safe.
    - rewrite Same. apply upsert_safe; try assumption.
      + pose proof (O (sv_default (VS s))) as O'. destruct (f (sv_default (VS s))); cbn; try congruence. apply from_safe.
      + destruct (f (sv_default (VS s))); cbn; try discriminate. apply from_safe.
    - cbn. unfold drain, slice. destruct (cut_spec bs C D m s S) as [a [b [c [-> [-> [_ [Hb _]]]]]]]. cbn.
      pose proof T as T'. apply typed_app in T as [T1 T]. apply typed_app in T as [T2 T3]. rewrite (drop_all_ok b T2). cbn.
      split; [discriminate|]. intros x Hx. inversion Hx; subst; cbn. split; [eapply sorted_delete; exact S|]. apply typed_app; auto.
    - rewrite Same. cbn. unfold update_slice. destruct (cut_spec bs C D m s S) as [a [b [c [-> [-> [_ [Hb _]]]]]]]. cbn.
      apply typed_app in T as [T1 T]. apply typed_app in T as [T2 T3].
      destruct (update_each_safe s f b Hb T2 O) as [K1 K2].
      destruct (update_each _ b) as [b'|p| |] eqn:F; cbn; try (split; [congruence|intros; discriminate]).
      split; [discriminate|]. intros x Hx. inversion Hx; subst; cbn. split.
      + pose proof (update_each_keys _ _ _ F) as K. clear -K S. revert S. unfold sorted.
        assert (G : forall m m' : map_t, map ekey m' = map ekey m -> StronglySorted (fun x y => entry_cmp x y <> Gt) m -> StronglySorted (fun x y => entry_cmp x y <> Gt) m').
        { clear. induction m as [|e m IH]; intros [|e' m'] E W; try discriminate; [constructor|].
          assert (E1 : ekey e' = ekey e) by (apply (f_equal (hd (ekey e))) in E; exact E).
          assert (E2 : map ekey m' = map ekey m) by (apply (f_equal (@tl _)) in E; exact E).
          inversion W as [|? ? W1 W2]; subst. constructor; [apply IH; assumption|].
          rewrite Forall_forall in *. intros x Hx. apply (in_map ekey) in Hx. rewrite E2 in Hx. apply in_map_iff in Hx as [y [Ey Hy]].
          rewrite entry_cmp_eq, E1, <- Ey, <- entry_cmp_eq. apply W2, Hy. }
        apply G. rewrite !map_app, K. reflexivity.
      + apply typed_app. split; [exact T1|]. apply typed_app. split; [apply K2; reflexivity|exact T3].
    - cbn. rewrite (drop_all_ok m T). cbn. split; [discriminate|]. intros x Hx. inversion Hx; subst; cbn. split; constructor.
    - rewrite Same. cbn. destruct (build_safe U l) as [B1 B2]. destruct (build U l) as [r|p| |]; cbn; try (split; [congruence|intros; discriminate]).
      destruct (B2 r eq_refl) as [T2 _]. split; [discriminate|]. intros x Hx. inversion Hx; subst; cbn. split; [apply sort_sorted; assumption|].
      unfold typed, extend. eapply Permutation_Forall; [symmetry; apply sort_perm|]. apply Forall_app. auto.
  Qed.
  Lemma mops_safe l : forall m : map_t, sorted m -> typed m -> Forall sound_op l ->
    mops_run bs m l <> UB /\ forall m', mops_run bs m l = Done m' -> sorted m' /\ typed m'.
  Proof.
    induction l as [|o l IH]; intros m S T O; cbn.
    - split; [discriminate|]. intros m' H. inversion H; subst. auto.
    - inversion O as [|? ? O1 O2]; subst. destruct (mop_safe m o S T O1) as [K1 K2].
      destruct (mop_run bs m o) as [x|p| |]; cbn; try (split; [congruence|intros; discriminate]).
      destruct (K2 x eq_refl) as [S' T']. apply IH; assumption.
  Qed.

  (** ** Observers on any sorted, well-typed vector *)
  Definition of_stat (s : inst P) (m : map_t) : map_t := filter (fun e => inst_eqb (e_stat e) s) m.
  Lemma inst_eqb_iff (a b : inst P) : inst_eqb a b = true <-> a = b.
  Proof.
    destruct a as [t i], b as [u j]. unfold inst_eqb; cbn. rewrite andb_true_iff, !Z.eqb_eq. split.
    - intros [-> H]. apply D in H. subst. reflexivity.
    - intros H. inversion H. auto.
  Qed.
  Lemma of_stat_all s m : Forall (fun e => e_stat e = s) (of_stat s m).
  Proof. apply Forall_forall. intros e He. apply filter_In in He as [_ He]. apply inst_eqb_iff, He. Qed.
  Lemma of_stat_typed s m : typed m -> typed (of_stat s m).
  Proof. unfold typed, of_stat. rewrite !Forall_forall. intros H e He. apply filter_In in He. apply H, He. Qed.
  (** The values stored for a stat, read at its type. *)
  Definition read (s : inst P) (e : entry) : option (qualifier Q * val (VS s)) :=
    match cast_val P (tyof s) (e_val e) with Done v => Some (e_qual e, v) | _ => None end.
  Fixpoint reads (s : inst P) (m : map_t) : list (qualifier Q * val (VS s)) :=
    match m with [] => [] | e :: m' => match read s e with Some p => p :: reads s m' | None => reads s m' end end.
  Lemma read_each_spec s (m : map_t) : Forall (fun e => e_stat e = s) m -> typed m -> read_each (tyof s) m = Done (reads s m).
  Proof.
    induction m as [|e m IH]; intros Hs T; cbn; [reflexivity|]. inversion Hs; subst. inversion T as [|? ? Te T']; subst.
    destruct (ok_buf_inv P _ _ Te) as [v [Ev Hok]]. unfold read. rewrite Ev, buf_ref_ok, cast_val_same by exact Hok. cbn.
    rewrite IH by assumption. reflexivity.
  Qed.
  Lemma m_iter_spec (m : map_t) s : sorted m -> typed m -> m_iter bs m s = Done (reads s (of_stat s m)).
  Proof.
    intros S T. unfold m_iter. rewrite (slice_filter bs C D m s S). cbn.
    apply read_each_spec; [apply of_stat_all|apply of_stat_typed, T].
  Qed.
  Lemma stream_fold s x (l : map_t) : ok_ty (tyof s) -> Forall (fun e => e_stat e = s) l -> typed l -> forall v,
    ofold (fun p e => if qualifies_as (e_qual e) x
      then let! b := vt_join P (si_ty (p_stat p)) (p_buf p) (e_val e) in Done (Pair (p_stat p) b)
      else Done p) (Pair s (Buf (tyof s) v)) l =
    let! r := join_all s v (filter (fun p => qualifies_as (fst p) x) (reads s l)) in Done (Pair s (Buf (tyof s) r)).
  Proof.
    intros Hok. induction l as [|e l IH]; intros Hs T v; cbn [ofold reads filter join_all]; [reflexivity|].
    inversion Hs as [|? ? Es Hs']; subst. inversion T as [|? ? Te T']; subst.
    destruct (ok_buf_inv P _ _ Te) as [w [Ev _]]. unfold read. rewrite Ev, cast_val_same. cbn [filter fst].
    destruct (qualifies_as (e_qual e) x); cbn [p_stat p_buf].
    - rewrite vt_join_ok by exact Hok. unfold join_all. cbn [ofold snd].
      destruct (sv_join (VT P (tyof (e_stat e))) v w) as [r|p| |]; cbn [obind]; try reflexivity. rewrite IH by assumption. reflexivity.
    - cbn [obind]. apply IH; assumption.
  Qed.
  Lemma map_stream_spec (m : map_t) x s v : sorted m -> typed m -> ok_ty (tyof s) ->
    map_stream bs m x (Pair s (Buf (tyof s) v)) =
    let! r := join_all s v (filter (fun p => qualifies_as (fst p) x) (reads s (of_stat s m))) in Done (Pair s (Buf (tyof s) r)).
  Proof.
    intros S T Hok. unfold map_stream. cbn [p_stat]. rewrite (slice_filter bs C D m s S). cbn [obind].
    apply stream_fold; [exact Hok|apply of_stat_all|apply of_stat_typed, T].
  Qed.
  Lemma m_query_spec (m : map_t) x s : sorted m -> typed m ->
    m_query bs m x s = let! _ := validate_ty P (tyof s) in
      join_all s (sv_default (VS s)) (filter (fun p => qualifies_as (fst p) x) (reads s (of_stat s m))).
  Proof.
    intros S T. unfold m_query, pair_new_default, pair_new, buf_from.
    destruct (validate_ty P (tyof s)) as [[]|p| |] eqn:Hok; cbn [obind]; try reflexivity.
    rewrite (map_stream_spec m x s _ S T Hok). destruct (join_all _ _ _) as [r|p| |]; cbn [obind]; try reflexivity.
    cbn [p_buf]. unfold buf_into. apply buf_ref_ok, Hok.
  Qed.
  Lemma reads_In s (l : map_t) q v : typed l -> Forall (fun e => e_stat e = s) l ->
    In (q, v) (reads s l) <-> In (Entry s q (Buf (tyof s) v)) l.
  Proof.
    intros T Hs. induction l as [|e l IH]; cbn; [tauto|]. inversion Hs as [|? ? Es Hs']; subst. inversion T as [|? ? Te T']; subst.
    destruct (ok_buf_inv P _ _ Te) as [w [Ev _]]. unfold read. rewrite Ev, cast_val_same. cbn. rewrite (IH T' Hs'). split.
    - intros [H|H]; [left|right; exact H]. inversion H; subst. rewrite <- Ev. destruct e; reflexivity.
    - intros [H|H]; [left|right; exact H]. destruct e as [s0 q0 b0]; cbn in *. subst b0. inversion H as [[H1 H2]]. subst. f_equal.
      apply (f_equal e_val) in H. cbn in H. apply Buf_inj in H. exact H.
  Qed.
  Lemma reads_quals s (l : map_t) : typed l -> Forall (fun e => e_stat e = s) l -> map fst (reads s l) = map e_qual l.
  Proof.
    intros T Hs. induction l as [|e l IH]; cbn; [reflexivity|]. inversion Hs as [|? ? Es Hs']; subst. inversion T as [|? ? Te T']; subst.
    destruct (ok_buf_inv P _ _ Te) as [w [Ev _]]. unfold read. rewrite Ev, cast_val_same. cbn. rewrite (IH T' Hs'). reflexivity.
  Qed.

  (** ** The abstract map of a well-formed, well-typed vector *)
  Definition tabs (m : map_t) : tmap P Q := fun s q =>
    match absf m s q with
    | Some b => match cast_val P (tyof s) b with Done v => Some v | _ => None end
    | None => None
    end.
  Definition typedf (sp : smap P Q (buffer P)) : Prop := forall s q b, sp s q = Some b -> ok_buf s b.
  Lemma typed_absf (m : map_t) : wf m -> typed m <-> typedf (absf m).
  Proof.
    intros W. unfold typed, typedf. rewrite Forall_forall. split.
    - intros H s q b Hb. apply absf_some in Hb; [|assumption..]. apply (H _ Hb).
    - intros H [s q b] He. apply (absf_some D OQ) in He; [|assumption]. apply (H _ _ _ He).
  Qed.
  Lemma tabs_some (m : map_t) s q v : wf m -> typed m -> tabs m s q = Some v <-> In (Entry s q (Buf (tyof s) v)) m.
  Proof.
    intros W T. unfold tabs. split.
    - destruct (absf m s q) as [b|] eqn:E; [|discriminate]. apply typed_absf in T; [|exact W].
      destruct (ok_buf_inv P _ _ (T _ _ _ E)) as [w [-> _]]. rewrite cast_val_same. intros H. inversion H; subst.
      apply absf_some in E; assumption.
    - intros H. apply (absf_some D OQ) in H; [|exact W]. rewrite H, cast_val_same. reflexivity.
  Qed.
  Lemma absf_tabs (m : map_t) s q : wf m -> typed m ->
    match absf m s q with
    | Some b => exists v, b = Buf (tyof s) v /\ tabs m s q = Some v /\ ok_ty (tyof s)
    | None => tabs m s q = None
    end.
  Proof.
    intros W T. unfold tabs. destruct (absf m s q) as [b|] eqn:E; [|reflexivity].
    apply typed_absf in T; [|exact W]. destruct (ok_buf_inv P _ _ (T _ _ _ E)) as [w [-> Hok]]. rewrite cast_val_same. eauto.
  Qed.
  Lemma binds_typed (m m' : map_t) s q o : wf m -> wf m' -> typed m -> binds (absf m) (absf m') s q o ->
    (forall b, o = Some b -> ok_buf s b) -> typed m'.
  Proof.
    intros W W' T [B1 B2] Ho. apply typed_absf; [exact W'|]. apply typed_absf in T; [|exact W]. intros s' q' b Hb.
    destruct (kcmp (s', q') (s, q)) eqn:E.
    - apply (lo_eq _ (@kcmp_ord P Q D OQ)) in E. inversion E; subst. apply Ho. congruence.
    - apply (T s' q'). rewrite <- B2; [exact Hb|]. intros H. rewrite H, (@kcmp_refl P Q D OQ) in E. discriminate.
    - apply (T s' q'). rewrite <- B2; [exact Hb|]. intros H. rewrite H, (@kcmp_refl P Q D OQ) in E. discriminate.
  Qed.
  Lemma binds_tbinds (m m' : map_t) s q (o : option (val (VS s))) :
    binds (absf m) (absf m') s q (option_map (Buf (tyof s)) o) -> tbinds (tabs m) (tabs m') s q o.
  Proof.
    intros [B1 B2]. split.
    - unfold tabs. rewrite B1. destruct o as [v|]; cbn; [rewrite cast_val_same|]; reflexivity.
    - intros s' q' N. unfold tabs. rewrite B2 by exact N. reflexivity.
  Qed.
  Lemma mop_cop (m : map_t) o x : mop_run bs m o = Done x -> cop_run bs m (mop_core o) = Done x.
  Proof.
    unfold mop_run. destruct (cop_run bs m (mop_core o)) as [y|p| |]; try discriminate. cbn [obind].
    destruct o; try (intros H; exact H).
    - destruct (x_returned y) as [b|]; [|intros H; exact H]. destruct (buf_read_move P (tyof s) b); try discriminate. intros H; exact H.
    - destruct (slice bs m s) as [c|p| |]; try discriminate. cbn [obind]. destruct (drop_all c); try discriminate. intros H; exact H.
    - destruct (drop_all m); try discriminate. intros H; exact H.
  Qed.
  Lemma mop_single (o : mop P Q) : tsingle o -> single (mop_core o).
  Proof. destruct o; cbn; auto. Qed.

  Lemma mop_correct (m : map_t) o x : wf m -> typed m -> tsingle o -> mop_run bs m o = Done x ->
    wf (x_map x) /\ typed (x_map x) /\ tspec_step (tabs m) o (tabs (x_map x)).
  Proof.
    intros W T S R. apply mop_cop in R.
    destruct (cop_correct bs C D OQ m (mop_core o) x W (mop_single o S) R) as [W' H]. split; [exact W'|]. clear R.
    set (m' := x_map x) in *. clearbody m'. set (out := x_returned x) in *. clearbody out.
    destruct o as [q s v|q s b|q s f|q s|q s op|q s f|s|s f| |U l]; cbn [mop_core spec_step tspec_step] in *.
    - destruct H as [_ [b [E B]]]. apply buf_from_inv in E as [-> Hok]. split.
      + eapply (binds_typed m m' s q); eauto. intros b Hb. inversion Hb; subst. apply ok_buf_Buf, Hok.
      + apply binds_tbinds. exact B.
    - destruct H as [_ [b' [E B]]]. apply buf_from_inv in E as [-> Hok]. split.
      + eapply (binds_typed m m' s q); eauto. intros b0 Hb. inversion Hb; subst. apply ok_buf_Buf, Hok.
      + apply binds_tbinds. exact B.
    - destruct H as [_ H]. pose proof (absf_tabs m s q W T) as A. destruct (absf m s q) as [b|].
      + destruct A as [v [-> [-> Hok]]]. destruct H as [b' [E B]]. rewrite buf_mut_ok in E by exact Hok.
        destruct (f v) as [v'|p| |] eqn:F; try discriminate. cbn in E. inversion E; subst. split.
        * eapply (binds_typed m m' s q); eauto. intros b0 Hb. inversion Hb; subst. apply ok_buf_Buf, Hok.
        * exists v'. split; [reflexivity|]. apply binds_tbinds. exact B.
      + rewrite A. split.
        * apply typed_absf; [exact W'|]. apply typed_absf in T; [|exact W]. intros s' q' b Hb. rewrite H in Hb. apply (T s' q' b Hb).
        * intros s' q'. unfold tabs. rewrite H. reflexivity.
    - destruct H as [_ B]. split.
      + eapply (binds_typed m m' s q); eauto. intros b Hb. discriminate.
      + apply binds_tbinds. exact B.
    - destruct H as [_ [b' [E B]]]. pose proof (absf_tabs m s q W T) as A. destruct (absf m s q) as [b|].
      + destruct A as [v [-> [-> Hok]]]. cbn [or_default]. rewrite buf_mut_ok in E by exact Hok.
        destruct (write_to op v) as [v'|p| |] eqn:F; try discriminate. cbn in E. inversion E; subst. split.
        * eapply (binds_typed m m' s q); eauto. intros b0 Hb. inversion Hb; subst. apply ok_buf_Buf, Hok.
        * exists v'. split; [reflexivity|]. apply binds_tbinds. exact B.
      + rewrite A. cbn [or_default]. unfold into_stat in E. destruct (write_to op (sv_default (VS s))) as [v'|p| |] eqn:F; try discriminate.
        cbn [obind] in E. apply buf_from_inv in E as [-> Hok]. split.
        * eapply (binds_typed m m' s q); eauto. intros b0 Hb. inversion Hb; subst. apply ok_buf_Buf, Hok.
        * exists v'. split; [reflexivity|]. apply binds_tbinds. exact B.
    - destruct H as [_ [b' [E B]]]. pose proof (absf_tabs m s q W T) as A. destruct (absf m s q) as [b|].
      + destruct A as [v [-> [-> Hok]]]. cbn [or_default]. rewrite buf_mut_ok in E by exact Hok.
        destruct (f v) as [v'|p| |] eqn:F; try discriminate. cbn in E. inversion E; subst. split.
        * eapply (binds_typed m m' s q); eauto. intros b0 Hb. inversion Hb; subst. apply ok_buf_Buf, Hok.
        * exists v'. split; [reflexivity|]. apply binds_tbinds. exact B.
      + rewrite A. cbn [or_default]. destruct (f (sv_default (VS s))) as [v'|p| |] eqn:F; try discriminate.
        cbn [obind] in E. apply buf_from_inv in E as [-> Hok]. split.
        * eapply (binds_typed m m' s q); eauto. intros b0 Hb. inversion Hb; subst. apply ok_buf_Buf, Hok.
        * exists v'. split; [reflexivity|]. apply binds_tbinds. exact B.
    - destruct H as [_ [H1 H2]]. split; [|split].
      + apply typed_absf; [exact W'|]. apply typed_absf in T; [|exact W]. intros s' q' b Hb.
        destruct (inst_eqb s' s) eqn:E.
        * apply inst_eqb_iff in E. subst. rewrite H1 in Hb. discriminate.
        * apply (T s' q'). rewrite <- H2; [exact Hb|]. intros ->. rewrite (proj2 (inst_eqb_iff s s) eq_refl) in E. discriminate.
      + intros q. unfold tabs. rewrite H1. reflexivity.
      + intros s' q N. unfold tabs. rewrite H2 by exact N. reflexivity.
    - destruct H as [_ [H1 H2]].
      assert (K : forall q, match absf m s q with
        | None => absf m' s q = None
        | Some b => exists v v', b = Buf (tyof s) v /\ ok_ty (tyof s) /\ f q v = Done v' /\ absf m' s q = Some (Buf (tyof s) v') end).
      { intros q. specialize (H1 q). pose proof (absf_tabs m s q W T) as A. destruct (absf m s q) as [b|]; [|exact H1].
        destruct A as [v [-> [_ Hok]]]. destruct H1 as [b' [E B]]. rewrite buf_mut_ok in E by exact Hok.
        destruct (f q v) as [v'|p| |] eqn:F; try discriminate. cbn in E. inversion E; subst. eauto 8. }
      split; [|split].
      + apply typed_absf; [exact W'|]. pose proof T as T0. apply typed_absf in T; [|exact W]. intros s' q' b Hb.
        destruct (inst_eqb s' s) eqn:E.
        * apply inst_eqb_iff in E. subst. specialize (K q'). destruct (absf m s q') as [b0|]; [|congruence].
          destruct K as (v & v' & -> & Hok & _ & K). rewrite Hb in K. inversion K. apply ok_buf_Buf, Hok.
        * apply (T s' q'). rewrite <- H2; [exact Hb|]. intros ->. rewrite (proj2 (inst_eqb_iff s s) eq_refl) in E. discriminate.
      + intros q. specialize (K q). unfold tabs. destruct (absf m s q) as [b|]; [|rewrite K; reflexivity].
        destruct K as (v & v' & -> & Hok & F & ->). rewrite !cast_val_same. eauto.
      + intros s' q N. unfold tabs. rewrite H2 by exact N. reflexivity.
    - destruct H as [_ H]. split.
      + apply typed_absf; [exact W'|]. intros s' q' b Hb. rewrite H in Hb. discriminate.
      + intros s q. unfold tabs. rewrite H. reflexivity.
    - destruct S.
  Qed.
End Typed.
