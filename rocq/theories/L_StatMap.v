From Coq Require Import ZArith Arith List Bool Lia Sorted Permutation.
From Verif Require Import M_Outcome M_Value M_Qualifier M_Search M_Stat M_StatMap
  S_Search S_StatMap L_Outcome L_Search.
Import ListNotations.

(** ** Orders *)
Lemma Z_ord : lawful_ord Z.compare.
Proof.
  split.
  - intros. apply Z.compare_eq_iff.
  - intros. apply Z.compare_antisym.
  - intros a b c. rewrite !Z.compare_lt_iff. lia.
Qed.
Definition lex {A B} (ca : A -> A -> comparison) (cb : B -> B -> comparison) (x y : A * B) : comparison :=
  match ca (fst x) (fst y) with Eq => cb (snd x) (snd y) | c => c end.
Lemma lex_ord {A B} (ca : A -> A -> comparison) (cb : B -> B -> comparison) :
  lawful_ord ca -> lawful_ord cb -> lawful_ord (lex ca cb).
Proof.
  intros HA HB. split.
  - intros [a b] [a' b']. unfold lex; cbn. destruct (ca a a') eqn:E.
    + apply (lo_eq ca HA) in E. subst. rewrite (lo_eq cb HB). split; congruence.
    + split; [discriminate|]. intros H. inversion H; subst.
      assert (ca a' a' = Eq) by (apply (lo_eq ca HA); reflexivity). congruence.
    + split; [discriminate|]. intros H. inversion H; subst.
      assert (ca a' a' = Eq) by (apply (lo_eq ca HA); reflexivity). congruence.
  - intros [a b] [a' b']. unfold lex; cbn. rewrite (lo_anti ca HA a a').
    destruct (ca a a'); cbn; auto. apply (lo_anti cb HB).
  - intros [a b] [a' b'] [a'' b'']. unfold lex; cbn.
    destruct (ca a a') eqn:E1; try discriminate; destruct (ca a' a'') eqn:E2; try discriminate; intros H1 H2.
    + apply (lo_eq ca HA) in E1, E2. subst.
      assert (ca a'' a'' = Eq) as -> by (apply (lo_eq ca HA); reflexivity). eapply (lo_trans cb HB); eauto.
    + apply (lo_eq ca HA) in E1. subst. rewrite E2. reflexivity.
    + apply (lo_eq ca HA) in E2. subst. rewrite E1. reflexivity.
    + rewrite (lo_trans ca HA _ _ _ E1 E2). reflexivity.
Qed.
Lemma map_ord {A B} (f : A -> B) (cb : B -> B -> comparison) :
  (forall x y, f x = f y -> x = y) -> lawful_ord cb -> lawful_ord (fun x y => cb (f x) (f y)).
Proof.
  intros Hf H. split.
  - intros. rewrite (lo_eq cb H). split; [apply Hf|congruence].
  - intros. apply (lo_anti cb H).
  - intros a b c. apply (lo_trans cb H).
Qed.
Lemma ord_ext {A} (c c' : A -> A -> comparison) : (forall a b, c a b = c' a b) -> lawful_ord c -> lawful_ord c'.
Proof.
  intros E H. split; intros; rewrite <- ?E in *.
  - apply (lo_eq c H).
  - apply (lo_anti c H).
  - eapply (lo_trans c H); eauto.
Qed.

Lemma inst_ord P : distinct_vtables P -> lawful_ord (@inst_cmp P).
Proof.
  intros D. apply (ord_ext (fun x y : inst P => lex Z.compare Z.compare (vt_addr P (si_ty x), si_index x) (vt_addr P (si_ty y), si_index y))).
  { reflexivity. }
  apply (map_ord (fun x : inst P => (vt_addr P (si_ty x), si_index x))).
  - intros [t i] [u j] H. inversion H. f_equal. apply D. assumption.
  - apply lex_ord; apply Z_ord.
Qed.
Lemma qual_ord Q : lawful_ord (q_cmp Q) -> lawful_ord (@qual_cmp Q).
Proof.
  intros H. apply (ord_ext (fun x y : qualifier Q => lex (q_cmp Q) (q_cmp Q) (any_of x, all_of x) (any_of y, all_of y))).
  { reflexivity. }
  apply (map_ord (fun x : qualifier Q => (any_of x, all_of x))).
  - intros [a b] [c d] E. inversion E; reflexivity.
  - apply lex_ord; exact H.
Qed.

(** ** Monotone comparisons along a sorted list *)
Lemma mono_split {A} (g : A -> comparison) (R : A -> A -> Prop) m : StronglySorted R m ->
  (forall x y, R x y -> (g y = Lt -> g x = Lt) /\ (g x = Gt -> g y = Gt)) ->
  exists a b c, m = a ++ b ++ c /\ Forall (fun x => g x = Lt) a /\ Forall (fun x => g x = Eq) b /\ Forall (fun x => g x = Gt) c.
Proof.
  intros HS HR. induction HS as [|x m HS IH Hx].
  - exists [], [], []. repeat split; constructor.
  - destruct IH as [a [b [c [-> [Ha [Hb Hc]]]]]].
    destruct (g x) eqn:E.
    + destruct a as [|y a].
      * exists [], (x :: b), c. repeat split; auto.
      * exfalso. inversion Ha; subst. inversion Hx; subst.
        destruct (HR _ _ H3) as [K _]. rewrite (K H1) in E. discriminate.
    + exists (x :: a), b, c. repeat split; auto.
    + exists [], [], (x :: a ++ b ++ c). repeat split; auto. constructor; [exact E|].
      rewrite Forall_forall in *. intros y Hy. destruct (HR _ _ (Hx y Hy)) as [_ K]. auto.
Qed.
Lemma map_const {A B} (g : A -> B) c l : Forall (fun x => g x = c) l -> map g l = repeat c (length l).
Proof. induction 1; cbn; congruence. Qed.

Lemma firstn_len_app {A} (a c : list A) : firstn (length a) (a ++ c) = a.
Proof. rewrite firstn_app, firstn_all, Nat.sub_diag. cbn. apply app_nil_r. Qed.
Lemma skipn_len_app {A} (a c : list A) : skipn (length a) (a ++ c) = c.
Proof. rewrite skipn_app, skipn_all, Nat.sub_diag. reflexivity. Qed.
Lemma skipn_S_len_app {A} (a c : list A) e : skipn (S (length a)) (a ++ e :: c) = c.
Proof.
  replace (S (length a)) with (length (a ++ [e])) by (rewrite app_length; cbn; lia).
  replace (a ++ e :: c) with ((a ++ [e]) ++ c) by (rewrite <- app_assoc; reflexivity). apply skipn_len_app.
Qed.
Lemma nth_error_len_app {A} (a c : list A) e : nth_error (a ++ e :: c) (length a) = Some e.
Proof. rewrite nth_error_app2, Nat.sub_diag by lia. reflexivity. Qed.

Lemma StronglySorted_app {A} (R : A -> A -> Prop) a c :
  StronglySorted R (a ++ c) <-> StronglySorted R a /\ StronglySorted R c /\ forall x y, In x a -> In y c -> R x y.
Proof.
  induction a as [|e a IH]; cbn.
  - split; [intros H; split; [constructor|split; [exact H|intros x y []]]|tauto].
  - split.
    + intros H. inversion H as [|? ? H1 H2]; subst. apply IH in H1 as [K1 [K2 K3]].
      rewrite Forall_app in H2. destruct H2 as [F1 F2]. split; [constructor; assumption|]. split; [exact K2|].
      intros x y [<-|Hx] Hy; [|auto]. rewrite Forall_forall in F2. auto.
    + intros [H1 [H2 H3]]. inversion H1; subst. constructor.
      * apply IH. auto.
      * rewrite Forall_app. split; auto. apply Forall_forall. auto.
Qed.

Section Map.
  Context {P : Prog} {Q : QFlag} {V : Type}.
  Variable bs : list comparison -> bsres.
  Hypothesis C : bs_contract bs.
  Hypothesis D : distinct_vtables P.
  Hypothesis OQ : lawful_ord (q_cmp Q).
  Notation entry := (entry P Q V).
  Notation statmap := (statmap P Q V).

  Definition ekey (e : entry) : inst P * qualifier Q := (e_stat e, e_qual e).
  Definition kcmp : inst P * qualifier Q -> inst P * qualifier Q -> comparison := lex inst_cmp qual_cmp.
  Lemma kcmp_ord : lawful_ord kcmp.
  Proof. apply lex_ord; [apply inst_ord, D|apply qual_ord, OQ]. Qed.
  Lemma key_cmp_eq s q s' q' : key_cmp s q s' q' = kcmp (s, q) (s', q').
  Proof. reflexivity. Qed.
  Lemma entry_cmp_eq (a b : entry) : entry_cmp a b = kcmp (ekey a) (ekey b).
  Proof. reflexivity. Qed.

  Definition sorted (m : statmap) : Prop := StronglySorted (fun a b => entry_cmp a b <> Gt) m.
  Lemma wf_sorted m : wf m -> sorted m.
  Proof.
    unfold wf, sorted. induction 1; constructor; auto.
    rewrite Forall_forall in *. intros x Hx E. rewrite (H0 x Hx) in E. discriminate.
  Qed.

  Lemma kcmp_refl k : kcmp k k = Eq.
  Proof. apply (lo_eq _ kcmp_ord). reflexivity. Qed.
  Lemma kcmp_mono (x y : entry) k : entry_cmp x y <> Gt ->
    (kcmp (ekey y) k = Lt -> kcmp (ekey x) k = Lt) /\ (kcmp (ekey x) k = Gt -> kcmp (ekey y) k = Gt).
  Proof.
    rewrite entry_cmp_eq. pose proof kcmp_ord as O. intros H.
    destruct (kcmp (ekey x) (ekey y)) eqn:E; [| |congruence].
    - apply (lo_eq _ O) in E. rewrite E. auto.
    - split; intros K.
      + eapply (lo_trans _ O); eauto.
      + destruct (kcmp (ekey y) k) eqn:F; auto.
        * apply (lo_eq _ O) in F. subst. congruence.
        * rewrite (lo_trans _ O _ _ _ E F) in K. discriminate.
  Qed.

  (** How a sorted map splits around a key. *)
  Lemma key_split m k : sorted m -> exists a b c, m = a ++ b ++ c /\
    Forall (fun e => kcmp (ekey e) k = Lt) a /\ Forall (fun e => kcmp (ekey e) k = Eq) b /\ Forall (fun e => kcmp (ekey e) k = Gt) c.
  Proof. intros H. apply (mono_split (fun e => kcmp (ekey e) k) _ m H). intros x y. apply kcmp_mono. Qed.

  Lemma search_cases m q s : sorted m ->
    (exists a b c, m = a ++ b ++ c /\ b <> [] /\
       Forall (fun e => kcmp (ekey e) (s, q) = Lt) a /\ Forall (fun e => ekey e = (s, q)) b /\
       Forall (fun e => kcmp (ekey e) (s, q) = Gt) c /\
       exists i, search bs m q s = inl i /\ length a <= i < length a + length b) \/
    (exists a c, m = a ++ c /\
       Forall (fun e => kcmp (ekey e) (s, q) = Lt) a /\ Forall (fun e => kcmp (ekey e) (s, q) = Gt) c /\
       search bs m q s = inr (length a)).
  Proof.
    intros H. destruct (key_split m (s, q) H) as [a [b [c [-> [Ha [Hb Hc]]]]]].
    assert (E : map (fun e : entry => key_cmp (e_stat e) (e_qual e) s q) (a ++ b ++ c) =
                repeat Lt (length a) ++ repeat Eq (length b) ++ repeat Gt (length c)).
    { rewrite !map_app. f_equal; [|f_equal]; apply map_const; assumption. }
    destruct b as [|e b].
    - right. exists a, c. cbn. split; [reflexivity|]. split; [exact Ha|]. split; [exact Hc|].
      unfold search. cbn in E. rewrite E. apply (bc_missing bs C).
    - left. exists a, (e :: b), c. split; [reflexivity|]. split; [discriminate|]. split; [exact Ha|].
      split. { eapply Forall_impl; [|exact Hb]. intros x Hx. apply (lo_eq _ kcmp_ord) in Hx. exact Hx. }
      split; [exact Hc|]. unfold search. rewrite E.
      destruct (bc_found bs C (repeat Lt (length a) ++ repeat Eq (length (e :: b)) ++ repeat Gt (length c))) as [i Hi].
      { eexists _, _, _. reflexivity. }
      { apply in_or_app. right. apply in_or_app. left. cbn. auto. }
      exists i. split; [exact Hi|]. apply (bc_ok bs C) in Hi.
      assert (i < length a + length (e :: b) + length c).
      { rewrite <- (sorted_length (length a) (length (e :: b)) (length c)). apply nth_error_Some. congruence. }
      rewrite at_cmp_nth in Hi by (rewrite sorted_length; exact H0).
      rewrite sorted_at in Hi by exact H0.
      destruct (Nat.ltb_spec i (length a)); [discriminate|].
      destruct (Nat.ltb_spec i (length a + length (e :: b))); [lia|discriminate].
  Qed.

  (** In a strictly sorted map the key occurs at most once. *)
  Lemma search_wf m q s : wf m ->
    (exists a e c, m = a ++ e :: c /\ ekey e = (s, q) /\
       Forall (fun e => kcmp (ekey e) (s, q) = Lt) a /\ Forall (fun e => kcmp (ekey e) (s, q) = Gt) c /\
       search bs m q s = inl (length a)) \/
    (exists a c, m = a ++ c /\
       Forall (fun e => kcmp (ekey e) (s, q) = Lt) a /\ Forall (fun e => kcmp (ekey e) (s, q) = Gt) c /\
       search bs m q s = inr (length a)).
  Proof.
    intros W. destruct (search_cases m q s (wf_sorted m W)) as [[a [b [c [-> [Hn [Ha [Hb [Hc [i [Hi Hr]]]]]]]]]]|H]; [|right; exact H].
    left. destruct b as [|e [|e' b]]; [congruence| |].
    - exists a, e, c. inversion Hb; subst. repeat split; auto. cbn in Hr. rewrite Hi. f_equal. lia.
    - exfalso. apply StronglySorted_app in W as [_ [W _]]. cbn in W. inversion W; subst. inversion H2; subst.
      inversion Hb; subst. inversion H6; subst. rewrite entry_cmp_eq, H5, H7, kcmp_refl in H3. discriminate.
  Qed.

  (** ** Bindings *)
  Lemma wf_nodup m : wf m -> NoDup (map ekey m).
  Proof.
    induction 1; cbn; constructor; auto. intros Hi. apply in_map_iff in Hi as [x [E Hx]].
    rewrite Forall_forall in H0. specialize (H0 x Hx). rewrite entry_cmp_eq, E, kcmp_refl in H0. discriminate.
  Qed.
  (** Every strictly sorted vector represents exactly one abstract map. *)
  Definition absf (m : statmap) : smap P Q V :=
    fun s q => option_map e_val (List.find (fun e => match kcmp (ekey e) (s, q) with Eq => true | _ => false end) m).
  Lemma absf_some m s q v : wf m -> absf m s q = Some v <-> In (Entry s q v) m.
  Proof.
    intros W. unfold absf. induction W as [|e m W IH HF]; cbn; [split; [discriminate|tauto]|].
    destruct (kcmp (ekey e) (s, q)) eqn:E.
    - apply (lo_eq _ kcmp_ord) in E. destruct e as [s' q' v']. unfold ekey in E; cbn in E. inversion E; subst. cbn. split.
      + intros H. inversion H; subst. auto.
      + intros [H|H]; [inversion H; reflexivity|]. rewrite Forall_forall in HF. specialize (HF _ H).
        rewrite entry_cmp_eq in HF. cbn in HF. unfold ekey in HF; cbn in HF. rewrite kcmp_refl in HF. discriminate.
    - rewrite IH. split; [auto|]. intros [H|H]; [|exact H]. subst e. cbn in E. unfold ekey in E; cbn in E. rewrite kcmp_refl in E. discriminate.
    - rewrite IH. split; [auto|]. intros [H|H]; [|exact H]. subst e. cbn in E. unfold ekey in E; cbn in E. rewrite kcmp_refl in E. discriminate.
  Qed.
  Lemma absf_represents m : wf m -> represents m (absf m).
  Proof. intros W. split; [intros; apply absf_some, W|apply wf_nodup, W]. Qed.
  Lemma represents_eq m sp : wf m -> represents m sp -> forall s q, sp s q = absf m s q.
  Proof.
    intros W [H _] s q. destruct (sp s q) as [v|] eqn:E.
    - symmetry. apply absf_some; [exact W|]. apply H. exact E.
    - destruct (absf m s q) as [v|] eqn:F; [|reflexivity]. apply absf_some in F; [|exact W].
      apply H in F. congruence.
  Qed.

  (** Lookups in a split map. *)
  Lemma absf_app a c s q : absf (a ++ c) s q = match absf a s q with Some v => Some v | None => absf c s q end.
  Proof.
    unfold absf. induction a as [|e a IH]; cbn; [reflexivity|].
    destruct (kcmp (ekey e) (s, q)); cbn; auto.
  Qed.
  Lemma absf_none m s q : Forall (fun e => kcmp (ekey e) (s, q) <> Eq) m -> absf m s q = None.
  Proof.
    unfold absf. induction 1; cbn; [reflexivity|]. destruct (kcmp (ekey x) (s, q)); [congruence|assumption|assumption].
  Qed.
  Lemma absf_lt m s q : Forall (fun e => kcmp (ekey e) (s, q) = Lt) m -> absf m s q = None.
  Proof. intros H. apply absf_none. eapply Forall_impl; [|exact H]. cbn. intros. congruence. Qed.
  Lemma absf_gt m s q : Forall (fun e => kcmp (ekey e) (s, q) = Gt) m -> absf m s q = None.
  Proof. intros H. apply absf_none. eapply Forall_impl; [|exact H]. cbn. intros. congruence. Qed.
  Lemma absf_cons e m s q : absf (e :: m) s q =
    match kcmp (ekey e) (s, q) with Eq => Some (e_val e) | _ => absf m s q end.
  Proof. unfold absf. cbn. destruct (kcmp (ekey e) (s, q)); reflexivity. Qed.
  Lemma kcmp_neq k k' : k <> k' -> kcmp k k' <> Eq.
  Proof. intros H E. apply (lo_eq _ kcmp_ord) in E. auto. Qed.
  Lemma absf_cons_neq e m s q : ekey e <> (s, q) -> absf (e :: m) s q = absf m s q.
  Proof. intros H. rewrite absf_cons. pose proof (kcmp_neq _ _ H). destruct (kcmp (ekey e) (s, q)); congruence. Qed.

  (** The map with [o] in place of whatever was between [a] and [c]. *)
  Lemma binds_split a c s q (b b' : list entry) o :
    Forall (fun e => kcmp (ekey e) (s, q) = Lt) a -> Forall (fun e => kcmp (ekey e) (s, q) = Gt) c ->
    Forall (fun e => ekey e = (s, q)) b -> Forall (fun e => ekey e = (s, q)) b' ->
    absf b' s q = o -> binds (absf (a ++ b ++ c)) (absf (a ++ b' ++ c)) s q o.
  Proof.
    intros Ha Hc Hb Hb' E. split.
    - rewrite !absf_app, (absf_lt a s q Ha), E. destruct o; [reflexivity|]. apply absf_gt, Hc.
    - intros s' q' N. rewrite !absf_app.
      assert (K : forall l, Forall (fun e => ekey e = (s, q)) l -> absf l s' q' = None).
      { intros l Hl. apply absf_none. eapply Forall_impl; [|exact Hl]. intros e He. cbn in He. rewrite He.
        apply kcmp_neq. auto. }
      rewrite (K b Hb), (K b' Hb'). reflexivity.
  Qed.

  Lemma wf_replace (a : statmap) e e' c : ekey e = ekey e' -> wf (a ++ e :: c) -> wf (a ++ e' :: c).
  Proof.
    unfold wf. intros E W. apply StronglySorted_app in W as [W1 [W2 W3]]. inversion W2; subst.
    apply StronglySorted_app. repeat split; auto.
    - constructor; [assumption|]. rewrite Forall_forall in *. intros x Hx. specialize (H2 x Hx).
      rewrite entry_cmp_eq in *. rewrite <- E. exact H2.
    - intros x y Hx [<-|Hy].
      + rewrite entry_cmp_eq, <- E, <- entry_cmp_eq. apply W3; [exact Hx|left; reflexivity].
      + apply W3; [exact Hx|right; exact Hy].
  Qed.
  Lemma wf_delete (a : statmap) e c : wf (a ++ e :: c) -> wf (a ++ c).
  Proof.
    unfold wf. intros W. apply StronglySorted_app in W as [W1 [W2 W3]]. inversion W2; subst.
    apply StronglySorted_app. repeat split; auto. intros x y Hx Hy. apply W3; [exact Hx|right; exact Hy].
  Qed.
  Lemma wf_insert (a : statmap) e c : wf (a ++ c) -> Forall (fun x => kcmp (ekey x) (ekey e) = Lt) a ->
    Forall (fun x => kcmp (ekey x) (ekey e) = Gt) c -> wf (a ++ e :: c).
  Proof.
    unfold wf. intros W Ha Hc. apply StronglySorted_app in W as [W1 [W2 W3]].
    rewrite Forall_forall in Ha, Hc.
    apply StronglySorted_app. repeat split; auto.
    - constructor; [assumption|]. rewrite Forall_forall. intros x Hx.
      rewrite entry_cmp_eq, (lo_anti _ kcmp_ord (ekey x) (ekey e)), (Hc x Hx). reflexivity.
    - intros x y Hx [<-|Hy]; [apply Ha, Hx|apply W3; assumption].
  Qed.

  (** ** The operations on well formed maps *)
  Lemma find_spec m q s : wf m -> find bs m q s = Done (absf m s q).
  Proof.
    intros W. unfold find. destruct (search_wf m q s W) as [[a [e [c [-> [E [Ha [Hc ->]]]]]]]|[a [c [-> [Ha [Hc ->]]]]]].
    - unfold vec_get. rewrite nth_error_len_app. cbn. rewrite absf_app, (absf_lt a s q Ha), absf_cons, E, kcmp_refl. reflexivity.
    - rewrite absf_app, (absf_lt a s q Ha), (absf_gt c s q Hc). reflexivity.
  Qed.

  Lemma vec_set_app (a c : statmap) e e' : vec_set (a ++ e :: c) (length a) e' = Done (a ++ e' :: c).
  Proof.
    unfold vec_set. rewrite app_length. cbn [length]. destruct (Nat.ltb_spec (length a) (length a + S (length c))); [|lia].
    rewrite firstn_len_app, skipn_S_len_app. reflexivity.
  Qed.
  Lemma vec_insert_app (a c : statmap) e : vec_insert (a ++ c) (length a) e = Done (a ++ e :: c).
  Proof.
    unfold vec_insert. rewrite app_length. destruct (Nat.leb_spec (length a) (length a + length c)); [|lia].
    rewrite firstn_len_app, skipn_len_app. reflexivity.
  Qed.
  Lemma vec_remove_app (a c : statmap) e : vec_remove (a ++ e :: c) (length a) = Done (a ++ c, e).
  Proof. unfold vec_remove. rewrite nth_error_len_app, firstn_len_app, skipn_S_len_app. reflexivity. Qed.
  Lemma vec_get_app (a c : statmap) e : vec_get (a ++ e :: c) (length a) = Done e.
  Proof. unfold vec_get. rewrite nth_error_len_app. reflexivity. Qed.

  Lemma one_key (e : entry) k : ekey e = k -> Forall (fun e => ekey e = k) [e].
  Proof. constructor; auto. Qed.
  Lemma absf_one (e : entry) s q : ekey e = (s, q) -> absf [e] s q = Some (e_val e).
  Proof. intros E. rewrite absf_cons, E, kcmp_refl. reflexivity. Qed.

  Lemma put_spec m q s v : wf m -> exists m', put bs m q s v = Done (m', match absf m s q with Some x => [x] | None => [] end) /\
    wf m' /\ binds (absf m) (absf m') s q (Some v) /\
    (forall I (f : V -> I), Permutation (f v :: map (fun e => f (e_val e)) m)
       (map (fun e => f (e_val e)) m' ++ match absf m s q with Some x => [f x] | None => [] end)).
  Proof.
    intros W. unfold put. destruct (search_wf m q s W) as [[a [e [c [-> [E [Ha [Hc ->]]]]]]]|[a [c [-> [Ha [Hc ->]]]]]].
    - rewrite vec_get_app. cbn [obind]. rewrite vec_set_app. cbn [obind].
      assert (A : absf (a ++ e :: c) s q = Some (e_val e)).
      { rewrite absf_app, (absf_lt a s q Ha), absf_cons, E, kcmp_refl. reflexivity. }
      rewrite A. eexists. split; [reflexivity|]. split; [eapply wf_replace; [|exact W]; reflexivity|]. split.
      + apply (binds_split a c s q [e] [Entry (e_stat e) (e_qual e) v]); auto using one_key.
        apply absf_one. exact E.
      + intros I f. rewrite !map_app. cbn. rewrite <- app_assoc. cbn.
        etransitivity; [apply Permutation_middle|]. apply Permutation_app_head.
        apply perm_skip. apply Permutation_cons_append.
    - rewrite vec_insert_app. cbn [obind].
      assert (A : absf (a ++ c) s q = None) by (rewrite absf_app, (absf_lt a s q Ha); apply absf_gt, Hc).
      rewrite A. eexists. split; [reflexivity|]. split; [apply wf_insert; assumption|]. split.
      + apply (binds_split a c s q [] [Entry s q v]); auto using one_key. apply absf_one. reflexivity.
      + intros I f. rewrite app_nil_r, !map_app. cbn. apply Permutation_middle.
  Qed.

  Lemma update_spec m q s f : wf m ->
    match absf m s q with
    | None => update bs m q s f = Done m
    | Some v =>
        match f v with
        | Done v' => exists m', update bs m q s f = Done m' /\ wf m' /\ binds (absf m) (absf m') s q (Some v') /\
             (forall I (g : V -> I), g v' = g v -> map (fun e => g (e_val e)) m' = map (fun e => g (e_val e)) m)
        | Panics p => update bs m q s f = Panics p
        | UB => update bs m q s f = UB
        | NoFuel => update bs m q s f = NoFuel
        end
    end.
  Proof.
    intros W. unfold update. destruct (search_wf m q s W) as [[a [e [c [-> [E [Ha [Hc ->]]]]]]]|[a [c [-> [Ha [Hc ->]]]]]].
    - rewrite vec_get_app. cbn [obind].
      assert (A : absf (a ++ e :: c) s q = Some (e_val e)).
      { rewrite absf_app, (absf_lt a s q Ha), absf_cons, E, kcmp_refl. reflexivity. }
      rewrite A. destruct (f (e_val e)) as [v'|p| |]; try reflexivity. cbn [obind].
      rewrite vec_set_app. eexists. split; [reflexivity|]. split; [eapply wf_replace; [|exact W]; reflexivity|]. split.
      + apply (binds_split a c s q [e] [Entry (e_stat e) (e_qual e) v']); auto using one_key.
        apply absf_one. exact E.
      + intros I g Hg. rewrite !map_app. cbn. rewrite Hg. reflexivity.
    - assert (A : absf (a ++ c) s q = None) by (rewrite absf_app, (absf_lt a s q Ha); apply absf_gt, Hc).
      rewrite A. reflexivity.
  Qed.

  Lemma upsert_spec m q s f d : wf m ->
    match match absf m s q with Some v => f v | None => d end with
    | Done v' => exists m', upsert bs m q s f d = Done (m', match absf m s q with Some _ => [] | None => [v'] end) /\ wf m' /\ binds (absf m) (absf m') s q (Some v') /\
          (forall I (g : V -> I), (forall v, absf m s q = Some v -> g v' = g v) ->
             Permutation (map (fun e => g (e_val e)) m')
               (match absf m s q with Some _ => [] | None => [g v'] end ++ map (fun e => g (e_val e)) m))
    | Panics p => upsert bs m q s f d = Panics p
    | UB => upsert bs m q s f d = UB
    | NoFuel => upsert bs m q s f d = NoFuel
    end.
  Proof.
    intros W. unfold upsert. destruct (search_wf m q s W) as [[a [e [c [-> [E [Ha [Hc ->]]]]]]]|[a [c [-> [Ha [Hc ->]]]]]].
    - rewrite vec_get_app. cbn [obind].
      assert (A : absf (a ++ e :: c) s q = Some (e_val e)).
      { rewrite absf_app, (absf_lt a s q Ha), absf_cons, E, kcmp_refl. reflexivity. }
      rewrite A. destruct (f (e_val e)) as [v'|p| |]; try reflexivity. cbn [obind].
      rewrite vec_set_app. cbn [obind]. eexists. split; [reflexivity|]. split; [eapply wf_replace; [|exact W]; reflexivity|]. split.
      + apply (binds_split a c s q [e] [Entry (e_stat e) (e_qual e) v']); auto using one_key.
        apply absf_one. exact E.
      + intros I g Hg. rewrite !map_app. cbn. rewrite (Hg _ eq_refl). reflexivity.
    - assert (A : absf (a ++ c) s q = None) by (rewrite absf_app, (absf_lt a s q Ha); apply absf_gt, Hc).
      rewrite A. destruct d as [v'|p| |]; try reflexivity. cbn [obind].
      rewrite vec_insert_app. cbn [obind]. eexists. split; [reflexivity|]. split; [apply wf_insert; assumption|]. split.
      + apply (binds_split a c s q [] [Entry s q v']); auto using one_key. apply absf_one. reflexivity.
      + intros I g _. rewrite !map_app. cbn. symmetry. apply Permutation_middle.
  Qed.

  Lemma take_spec m q s : wf m -> exists m', take bs m q s = Done (m', absf m s q) /\ wf m' /\ binds (absf m) (absf m') s q None /\
    (forall I (g : V -> I), Permutation (map (fun e => g (e_val e)) m)
       (match absf m s q with Some v => [g v] | None => [] end ++ map (fun e => g (e_val e)) m')).
  Proof.
    intros W. unfold take. destruct (search_wf m q s W) as [[a [e [c [-> [E [Ha [Hc ->]]]]]]]|[a [c [-> [Ha [Hc ->]]]]]].
    - rewrite vec_remove_app. cbn.
      assert (A : absf (a ++ e :: c) s q = Some (e_val e)).
      { rewrite absf_app, (absf_lt a s q Ha), absf_cons, E, kcmp_refl. reflexivity. }
      rewrite A. eexists. split; [reflexivity|]. split; [eapply wf_delete; exact W|]. split.
      + apply (binds_split a c s q [e] []); auto using one_key.
      + intros I g. rewrite !map_app. cbn. symmetry. apply Permutation_middle.
    - assert (A : absf (a ++ c) s q = None) by (rewrite absf_app, (absf_lt a s q Ha); apply absf_gt, Hc).
      rewrite A. eexists. split; [reflexivity|]. split; [exact W|]. split; [split; [exact A|auto]|].
      intros I g. reflexivity.
  Qed.

  (** ** The slice of one stat *)
  Lemma inst_cmp_le a b : inst_leb a b = match @inst_cmp P a b with Gt => false | _ => true end.
  Proof. reflexivity. Qed.
  Lemma stat_mono (x y : entry) s : entry_cmp x y <> Gt ->
    (inst_cmp (e_stat y) s = Lt -> inst_cmp (e_stat x) s = Lt) /\ (inst_cmp (e_stat x) s = Gt -> inst_cmp (e_stat y) s = Gt).
  Proof.
    pose proof (inst_ord P D) as O. unfold entry_cmp, key_cmp. intros H.
    destruct (inst_cmp (e_stat x) (e_stat y)) eqn:E; [| |congruence].
    - apply (lo_eq _ O) in E. rewrite E. auto.
    - split; intros K.
      + eapply (lo_trans _ O); eauto.
      + destruct (inst_cmp (e_stat y) s) eqn:F; auto.
        * apply (lo_eq _ O) in F. subst. congruence.
        * rewrite (lo_trans _ O _ _ _ E F) in K. discriminate.
  Qed.
  Lemma cut_spec m s : sorted m -> exists a b c, m = a ++ b ++ c /\ cut bs m s = Done (a, b, c) /\
    Forall (fun e => inst_cmp (e_stat e) s = Lt) a /\ Forall (fun e => e_stat e = s) b /\ Forall (fun e => inst_cmp (e_stat e) s = Gt) c.
  Proof.
    intros H. destruct (mono_split (fun e => inst_cmp (e_stat e) s) _ m H) as [a [b [c [-> [Ha [Hb Hc]]]]]].
    { intros x y. apply stat_mono. }
    exists a, b, c. split; [reflexivity|].
    assert (F1 : slice_fst bs (a ++ b ++ c) s = length a).
    { unfold slice_fst. rewrite !map_app.
      rewrite (map_const _ true a), (map_const _ false b), (map_const _ false c).
      - rewrite <- repeat_app. apply partition_point_spec, C.
      - eapply Forall_impl; [|exact Hc]. intros e E. unfold inst_ltb. rewrite E. reflexivity.
      - eapply Forall_impl; [|exact Hb]. intros e E. unfold inst_ltb. rewrite E. reflexivity.
      - eapply Forall_impl; [|exact Ha]. intros e E. unfold inst_ltb. rewrite E. reflexivity. }
    assert (F2 : slice_snd bs (a ++ b ++ c) s = length a + length b).
    { unfold slice_snd. rewrite !map_app.
      rewrite (map_const _ true a), (map_const _ true b), (map_const _ false c).
      - rewrite app_assoc, <- repeat_app. apply partition_point_spec, C.
      - eapply Forall_impl; [|exact Hc]. intros e E. unfold inst_leb. rewrite E. reflexivity.
      - eapply Forall_impl; [|exact Hb]. intros e E. unfold inst_leb. rewrite E. reflexivity.
      - eapply Forall_impl; [|exact Ha]. intros e E. unfold inst_leb. rewrite E. reflexivity. }
    split.
    - unfold cut. rewrite F1, F2, !app_length.
      destruct (Nat.leb_spec (length a) (length a + length b)); [|lia].
      destruct (Nat.leb_spec (length a + length b) (length a + (length b + length c))); [|lia]. cbn.
      rewrite firstn_len_app, skipn_len_app.
      replace (length a + length b - length a) with (length b) by lia. rewrite firstn_len_app.
      rewrite app_assoc. rewrite <- app_length. rewrite skipn_len_app. reflexivity.
    - split; [exact Ha|]. split; [|exact Hc]. eapply Forall_impl; [|exact Hb]. intros e E.
      apply (lo_eq _ (inst_ord P D)). exact E.
  Qed.
End Map.
