From Coq Require Import ZArith Arith List Bool Lia Sorted Permutation.
From Verif Require Import M_Outcome M_Value M_Qualifier M_Search M_Stat M_StatMap M_Unwind
  S_Search S_StatMap S_Demo S_Unwind L_Outcome L_Search L_StatMap L_StatMap2 L_StatMap3 L_StatMap4.
Import ListNotations.

Section U.
  Context {P : Prog} {Q : QFlag}.
  Variable bs : list comparison -> bsres.
  Hypothesis C : bs_contract bs.
  Hypothesis D : distinct_vtables P.
  Hypothesis OQ : lawful_ord (q_cmp Q).
  Notation entry := (entry P Q (buffer P)).
  Notation map_t := (map_t P Q).
  Notation tyof s := (vt_value P (si_ty s)).
  Notation VS s := (VT P (tyof s)).

  (** ** A sorted vector is its own sort, and is built entry by entry *)
  Lemma sort_id (m : map_t) : sorted m -> sort m = m.
  Proof.
    unfold sorted. induction 1 as [|e m W IH F]; [reflexivity|]. cbn. fold (sort m). rewrite IH.
    destruct m as [|x m]; [reflexivity|]. cbn. inversion F as [|? ? H _]; subst. destruct (entry_cmp e x); congruence.
  Qed.
  Lemma mops_app (l1 l2 : list (mop P Q)) : forall m : map_t, mops_run bs m (l1 ++ l2) = let! m' := mops_run bs m l1 in mops_run bs m' l2.
  Proof. induction l1 as [|o l IH]; intros m; cbn; [reflexivity|]. destruct (mop_run bs m o); cbn; auto. Qed.
  Lemma rebuild (m : map_t) : sorted m -> typed m -> exists l, Forall sound_op l /\ mops_run bs [] l = Done m.
  Proof.
    induction m as [|e m IH] using rev_ind; intros S T; [exists []; split; [constructor|reflexivity]|].
    assert (S' : sorted m) by (apply StronglySorted_app in S as [W _]; exact W).
    apply typed_app in T as [T1 T2]. destruct (IH S' T1) as [l [Fl Hl]].
    inversion T2 as [|? ? He _]; subst. destruct e as [[U i] q b]. destruct (ok_buf_inv P _ _ He) as [v [E Hok]]. cbn in E, v, Hok. subst b.
    exists (l ++ [MExtend U [(q, i, v)]]). split; [apply Forall_app; split; [exact Fl|repeat constructor]|].
    rewrite mops_app, Hl. cbn [obind mops_run]. unfold mop_run. cbn [mop_core cop_run build].
    rewrite (buf_from_ok P _ v Hok). cbn. unfold extend. rewrite (sort_id _ S). reflexivity.
  Qed.

  (** ** [kept_but] keeps order, and types if the new values are well typed *)
  Lemma kept_refl w (m : map_t) : kept_but w m m.
  Proof. unfold kept_but. induction m; constructor; auto. Qed.
  Lemma kept_cons (w : inst P -> qualifier Q -> Prop) (e e' : entry) (m m' : map_t) :
    e_stat e' = e_stat e -> e_qual e' = e_qual e -> (~ w (e_stat e) (e_qual e) -> e_val e' = e_val e) ->
    kept_but w m m' -> kept_but w (e :: m) (e' :: m').
  Proof. intros. constructor; auto. Qed.
  Lemma kept_app w (a a' b b' : map_t) : kept_but w a a' -> kept_but w b b' -> kept_but w (a ++ b) (a' ++ b').
  Proof. apply Forall2_app. Qed.
  Lemma kept_keys w (m m' : map_t) : kept_but w m m' -> map ekey m' = map ekey m.
  Proof. induction 1 as [|e e' m m' [E1 [E2 _]] _ IH]; [reflexivity|]. cbn. unfold ekey at 1 3. rewrite E1, E2, IH. reflexivity. Qed.
  Lemma keys_sorted (m : map_t) : forall m' : map_t, map ekey m' = map ekey m -> sorted m -> sorted m'.
  Proof.
    unfold sorted. induction m as [|e m IH]; intros [|e' m'] E W; try discriminate; [constructor|].
    assert (E1 : ekey e' = ekey e) by (apply (f_equal (hd (ekey e))) in E; exact E).
    assert (E2 : map ekey m' = map ekey m) by (apply (f_equal (@tl _)) in E; exact E).
    inversion W as [|? ? W1 W2]; subst. constructor; [apply IH; assumption|].
    rewrite Forall_forall in *. intros x Hx. apply (in_map ekey) in Hx. rewrite E2 in Hx. apply in_map_iff in Hx as [y [Ey Hy]].
    rewrite entry_cmp_eq, E1, <- Ey, <- entry_cmp_eq. apply W2, Hy.
  Qed.

  (** ** The slots *)
  Lemma slot_kept (m : map_t) q s r : typed m ->
    kept_but (fun s' q' => s' = s /\ q' = q) m (slot_unwound bs m q s r) /\ typed (slot_unwound bs m q s r).
  Proof.
    intros T. unfold slot_unwound. destruct (search bs m q s) as [i|i] eqn:E; [|split; [apply kept_refl|exact T]].
    destruct (search_found bs C D OQ m q s i E) as (a & e & c & -> & L & K).
    subst i. rewrite nth_error_len_app, firstn_len_app, skipn_S_len_app.
    apply typed_mid in T as [T1 [T2 T3]]. unfold ekey in K. inversion K; subst s q.
    destruct (ok_buf_inv P _ _ T2) as [v [Ev Hok]]. rewrite Ev, buf_ref_ok by exact Hok. split.
    - apply kept_app; [apply kept_refl|]. apply kept_cons; [reflexivity|reflexivity| |apply kept_refl]. intros N. exfalso. apply N. auto.
    - apply typed_mid. split; [exact T1|split; [|exact T3]]. cbn. apply ok_buf_Buf. exact Hok.
  Qed.
  Lemma each_kept s f r (m : map_t) : Forall (fun e => e_stat e = s) m -> typed m ->
    kept_but (fun s' _ => s' = s) m (each_unwound s f r m) /\ typed (each_unwound s f r m).
  Proof.
    induction m as [|e m IH]; intros F T; [split; constructor|]. inversion F as [|? ? Es F']; subst. inversion T as [|? ? He T']; subst.
    destruct (IH F' T') as [K1 K2]. cbn. destruct (ok_buf_inv P _ _ He) as [v [Ev Hok]]. rewrite Ev, buf_ref_ok by exact Hok.
    destruct (f (e_qual e) v) as [v'|p| |]; (split; [apply kept_cons; [reflexivity|reflexivity|intros N; exfalso; apply N; reflexivity|first [exact K1|apply kept_refl]]|
      constructor; [apply ok_buf_Buf; exact Hok|assumption]]).
  Qed.
  Lemma unwound_kept (m : map_t) o r : sorted m -> typed m ->
    kept_but (hands_out o) m (unwound bs m o r) /\ typed (unwound bs m o r).
  Proof.
    intros S T.
    destruct o; cbn [unwound hands_out]; try (split; [apply kept_refl|exact T]); try (apply slot_kept; exact T).
    destruct (cut_spec bs C D m s S) as [a [b [c [-> [-> [_ [Hb _]]]]]]]. cbn.
    apply typed_app in T as [T1 T]. apply typed_app in T as [T2 T3].
    destruct (each_kept s f r b Hb T2) as [K1 K2]. split.
    - apply kept_app; [apply kept_refl|]. apply kept_app; [exact K1|apply kept_refl].
    - apply typed_app. split; [exact T1|]. apply typed_app. auto.
  Qed.

  Lemma each_left s f r p (m : map_t) : Forall (fun e => e_stat e = s) m -> typed m ->
    update_each (fun q b => buf_mut P (tyof s) b (f q)) m = Panics p ->
    exists b q v b' c, m = b ++ Entry s q (Buf (tyof s) v) :: c /\ f q v = Panics p /\
    Forall2 (fun x x' => exists q1 w w', x = Entry s q1 (Buf (tyof s) w) /\ f q1 w = Done w' /\
                           x' = Entry s q1 (Buf (tyof s) w')) b b' /\
    each_unwound s f r m = b' ++ Entry s q (Buf (tyof s) (r s)) :: c.
  Proof.
    induction m as [|e m IH]; intros F T; [discriminate|]. inversion F as [|? ? Es F']; subst. inversion T as [|? ? He T']; subst.
    cbn [update_each each_unwound]. destruct (ok_buf_inv P _ _ He) as [v [Ev Hok]]. rewrite Ev, buf_mut_ok, buf_ref_ok by exact Hok.
    destruct e as [s q b]. cbn [e_stat e_qual e_val] in *. subst b. cbn [obind].
    destruct (f q v) as [v'|p'| |] eqn:Ef; cbn [obind]; try discriminate.
    - intros H. destruct (update_each _ m) as [m1|p1| |] eqn:Em; cbn [obind] in H; try discriminate.
      destruct (IH F' T' H) as (b & q1 & v1 & b' & c & -> & Hf & H2 & ->).
      exists (Entry s q (Buf (tyof s) v) :: b), q1, v1, (Entry s q (Buf (tyof s) v') :: b'), c.
      split; [reflexivity|]. split; [exact Hf|]. split; [|reflexivity].
      constructor; [|exact H2]. exists q, v, v'. auto.
    - intros H. injection H as ->. exists [], q, v, [], m. repeat split; auto.
  Qed.
  Lemma loop_left_ok s f r p (m : map_t) : sorted m -> typed m -> mop_run bs m (MIterMut s f) = Panics p ->
    loop_left s f r p m (unwound bs m (MIterMut s f) r).
  Proof.
    intros S T H. cbn [unwound]. unfold mop_run in H. cbn [mop_core cop_run] in H. unfold update_slice in H.
    destruct (cut_spec bs C D m s S) as [a [b [c [-> [E [Ha [Hb Hc]]]]]]]. rewrite E in *. cbn [obind fst snd] in *.
    apply typed_app in T as [T1 T]. apply typed_app in T as [T2 T3].
    destruct (update_each _ b) as [m1|p1| |] eqn:Em; cbn [obind] in H; try discriminate. injection H as ->.
    destruct (each_left s f r p b Hb T2 Em) as (b1 & q & v & b' & c' & -> & Hf & H2 & ->).
    exists a, b1, q, v, b', (c' ++ c). rewrite <- !app_assoc. cbn [app]. split; [reflexivity|]. split; [|split; [exact Hf|split; [exact H2|rewrite <- ?app_assoc; reflexivity]]].
    eapply Forall_impl; [|exact Ha]. cbn beta. intros x Hx Hs. rewrite Hs, inst_refl in Hx by exact D. discriminate.
  Qed.
  Lemma slot_left_ok (m : map_t) o r s q v : sorted m -> typed m -> slot_of o s q -> holds m s q v ->
    holds (unwound bs m o r) s q (r s).
  Proof.
    intros S T Ho Hm. assert (unwound bs m o r = slot_unwound bs m q s r) as ->.
    { destruct o; cbn in Ho; try contradiction; destruct Ho as [-> ->]; reflexivity. }
    unfold slot_unwound. destruct (search_cases bs C D OQ m q s S) as [(a & b & c & E & _ & _ & _ & _ & i & Hi & _)|N].
    - rewrite Hi. destruct (search_found bs C D OQ m q s i Hi) as (a' & e & c' & -> & L & K).
      subst i. rewrite nth_error_len_app, firstn_len_app, skipn_S_len_app.
      apply typed_mid in T as [_ [T2 _]]. unfold ekey in K. inversion K; subst s q.
      destruct (ok_buf_inv P _ _ T2) as [w [Ev Hok]]. rewrite Ev, buf_ref_ok by exact Hok.
      unfold holds. apply in_or_app. right. left. reflexivity.
    - exfalso. unfold holds in Hm. destruct N as (a & c & -> & Ha & Hc & _).
      rewrite Forall_forall in Ha, Hc. apply in_app_or in Hm as [Hm|Hm]; [apply Ha in Hm|apply Hc in Hm];
        cbn in Hm; unfold ekey in Hm; cbn in Hm; rewrite kcmp_refl in Hm by assumption; discriminate.
  Qed.

  Lemma u_step_safe (m : map_t) u : sorted m -> typed m -> sound_uop u ->
    u_step bs m u <> UB /\ forall m', u_step bs m u = Done m' -> sorted m' /\ typed m'.
  Proof.
    intros S T O. destruct u as [o r|[s|]|U l]; cbn in O |- *.
    - destruct (mop_safe bs C D OQ m o S T O) as [K1 K2]. destruct (mop_run bs m o) as [x|p| |]; try (split; [congruence|intros; discriminate]).
      + split; [discriminate|]. intros m' H. inversion H; subst. auto.
      + split; [discriminate|]. intros m' H. inversion H; subst. destruct (unwound_kept m o r S T) as [G1 G2].
        split; [|exact G2]. eapply keys_sorted; [eapply kept_keys, G1|exact S].
    - destruct (cut_spec bs C D m s S) as [a [b [c [-> [-> [_ [Hb _]]]]]]]. cbn.
      apply typed_app in T as [T1 T]. apply typed_app in T as [T2 T3]. rewrite (drop_all_ok b T2). cbn.
      split; [discriminate|]. intros m' H. inversion H; subst. split; [eapply sorted_delete; exact S|apply typed_app; auto].
    - rewrite (drop_all_ok m T). cbn. split; [discriminate|]. intros m' H. inversion H; subst. split; constructor.
    - destruct O.
  Qed.
  Lemma u_run_safe l : forall m : map_t, sorted m -> typed m -> Forall sound_uop l ->
    u_run bs m l <> UB /\ forall m', u_run bs m l = Done m' -> sorted m' /\ typed m'.
  Proof.
    induction l as [|u l IH]; intros m S T F; cbn.
    - split; [discriminate|]. intros m' H. inversion H; subst. auto.
    - inversion F as [|? ? F1 F2]; subst. destruct (u_step_safe m u S T F1) as [K1 K2].
      destruct (u_step bs m u) as [x|p| |]; cbn; try (split; [congruence|intros; discriminate]).
      destruct (K2 x eq_refl). apply IH; assumption.
  Qed.
End U.

Lemma C56_caught_panics_harmless_proof :
  forall (P : Prog) (Q : QFlag) (bs : list comparison -> bsres),
  bs_contract bs -> distinct_vtables P -> lawful_ord (q_cmp Q) ->
  forall l : list (uop P Q), Forall sound_uop l ->
  u_run bs [] l <> UB /\
  forall m, u_run bs [] l = Done m -> exists l' : list (mop P Q), Forall sound_op l' /\ mops_run bs [] l' = Done m.
Proof.
  intros P Q bs C D OQ l F. destruct (u_run_safe bs C D OQ l [] (SSorted_nil _) (Forall_nil _) F) as [K1 K2].
  split; [exact K1|]. intros m H. destruct (K2 m H) as [S T]. apply rebuild; assumption.
Qed.
Lemma C56_panic_is_local_proof :
  forall (P : Prog) (Q : QFlag) (bs : list comparison -> bsres),
  bs_contract bs -> distinct_vtables P -> lawful_ord (q_cmp Q) ->
  forall (l : list (uop P Q)) (m : map_t P Q) o r p, Forall sound_uop l -> u_run bs [] l = Done m ->
  mop_run bs m o = Panics p ->
  exists m', u_step bs m (UCall o r) = Done m' /\ kept_but (hands_out o) m m'.
Proof.
  intros P Q bs C D OQ l m o r p F H E. destruct (u_run_safe bs C D OQ l [] (SSorted_nil _) (Forall_nil _) F) as [K1 K2].
  destruct (K2 m H) as [S T]. cbn. rewrite E. eexists. split; [reflexivity|]. apply unwound_kept; assumption.
Qed.
Lemma C56_extend_sorts_again_proof :
  forall (P : Prog) (Q : QFlag) (bs : list comparison -> bsres) (m : map_t P Q) U l W r x,
  mop_run bs m (MExtend U l) = Done x ->
  u_run bs m [UExtendPanics U l; UCall (MExtend W []) r] = Done (x_map x).
Proof.
  intros P Q bs m U l W r x. cbn. unfold mop_run. cbn [mop_core cop_run build]. destruct (build U l) as [e|p| |]; cbn; try discriminate.
  intros H. inversion H; subst; cbn. unfold extend. rewrite app_nil_r. reflexivity.
Qed.
Lemma query_atk_ub_iff m : query_atk_ub m = true -> m_query bs_new m (@Aggregate intQ 0%Z) atk = UB.
Proof. unfold query_atk_ub, is_ub. destruct (m_query bs_new m (@Aggregate intQ 0%Z) atk); intros H; try discriminate H. reflexivity. Qed.
Lemma udemo_done l : is_done (u_run bs_new [] l) = true -> u_run bs_new [] l = Done (udemo l).
Proof. unfold udemo, is_done. destruct (u_run bs_new [] l); intros H; try discriminate H. reflexivity. Qed.
Lemma C56_extend_panic_refuted_proof :
  exists (o1 o2 : dop) l m, u_run bs_new [] [uplain o1; uplain o2; uextend_atk l] = Done m /\
  m_query bs_new m (@Aggregate intQ 0%Z) atk = UB.
Proof.
  exists (put_alive none true), (put_hp none 5%Z), [(none, 0%Z, num 1); (fire, 0%Z, num 2)].
  exists (udemo [uplain (put_alive none true); uplain (put_hp none 5%Z); uextend_atk [(none, 0%Z, num 1); (fire, 0%Z, num 2)]]).
  split; [apply udemo_done; vm_compute; reflexivity | apply query_atk_ub_iff; vm_compute; reflexivity].
Qed.

Lemma C56_slot_left_proof :
  forall (P : Prog) (Q : QFlag) (bs : list comparison -> bsres),
  bs_contract bs -> distinct_vtables P -> lawful_ord (q_cmp Q) ->
  forall (l : list (uop P Q)) (m : map_t P Q) o r p s q v, Forall sound_uop l -> u_run bs [] l = Done m ->
  mop_run bs m o = Panics p -> slot_of o s q -> holds m s q v ->
  exists m', u_step bs m (UCall o r) = Done m' /\ holds m' s q (r s).
Proof.
  intros P Q bs C D OQ l m o r p s q v F H E Ho Hm. destruct (u_run_safe bs C D OQ l [] (SSorted_nil _) (Forall_nil _) F) as [K1 K2].
  destruct (K2 m H) as [S T]. cbn. rewrite E. eexists. split; [reflexivity|]. eapply slot_left_ok; eassumption.
Qed.
Lemma C56_loop_left_proof :
  forall (P : Prog) (Q : QFlag) (bs : list comparison -> bsres),
  bs_contract bs -> distinct_vtables P -> lawful_ord (q_cmp Q) ->
  forall (l : list (uop P Q)) (m : map_t P Q) s f r p, Forall sound_uop l -> u_run bs [] l = Done m ->
  mop_run bs m (MIterMut s f) = Panics p ->
  exists m', u_step bs m (UCall (MIterMut s f) r) = Done m' /\ loop_left s f r p m m'.
Proof.
  intros P Q bs C D OQ l m s f r p F H E. destruct (u_run_safe bs C D OQ l [] (SSorted_nil _) (Forall_nil _) F) as [K1 K2].
  destruct (K2 m H) as [S T]. cbn [u_step]. rewrite E. eexists. split; [reflexivity|]. apply loop_left_ok; assumption.
Qed.
